(** * Texts: API calls as executions of the text of optional.h

    For every API call of [Program.v], the ways to write it in C++ - which class, which
    overload, on an lvalue or rvalue, const or not - each executed from the syntax trees
    of [Source.v] by [Exec.v].  Nothing here says what a call does. *)

From Coq Require Import Ascii String List NArith ZArith Bool Arith.
From Verif Require Import Cells Machine Optional Program Syntax Source Exec.
Import ListNotations.
Local Open Scope string_scope.

Section Texts.
  Context {W : Type}.
  Variable E : env W.
  (** How much deeper than necessary the nesting of calls may be. *)
  Variable m : nat.

  Notation value := (Exec.value W).

  Definition no_cmp : cmpops W := MkCmp W (fun _ _ _ w => (ROk false, w)) (fun _ _ w => (ROk OEquiv, w)).
  Definition no_hash : rep -> W -> res N * W := fun _ w => (ROk 0%N, w).

  (** The classes of optionals: TinyOptionalImpl (optional.h:1390), which
      optional_inplace and optional_sentinel_via_type name, and optional
      (optional.h:2166). *)
  Definition kinds : list string := ["TinyOptionalImpl"; "optional"].
  Definition deep : nat := 20 + m.

  (** [o.f(vs)], where [o] is the optional [i] seen as [c]; an optional that is returned
      by value is built at [res]. *)
  Definition member (cls f : string) (i : loc) (c : cat) (vs : list value) (res : option loc)
    : M W value :=
    method (machine E no_cmp no_hash deep) cls f (VOpt i c) vs res (fun v => ret v) (fun e => throw e).
  (** [f(vs)] for a function template at namespace scope. *)
  Definition free (cmp : cmpops W) (hsh : rep -> W -> res N * W) (f : fundef) (vs : list value)
                  (res : option loc) : M W value :=
    call_text E cmp hsh deep f None vs res.
  (** [cls i(vs);] *)
  Definition define (cls : string) (i : loc) (vs : list value) : M W value :=
    new_text E no_cmp no_hash deep cls i vs.
  (** The end of the variable [i]. *)
  Definition discard (cls : string) (i : loc) : M W value := drop_text E no_cmp no_hash deep cls i.

  Definition lvalue : cat := Cat false false.
  Definition clvalue : cat := Cat true false.
  Definition rvalue : cat := Cat false true.
  Definition crvalue : cat := Cat true true.

  (** What the client sees of the value of an expression of a certain type. *)
  Definition void_ (x : M W value) : M W obs :=
    bind x (fun v => match v with VUnit => ret ObUnit | _ => dead IllTyped end).
  Definition made_ (x : M W value) : M W obs :=
    bind x (fun v => match v with VMade => ret ObUnit | _ => dead IllTyped end).
  Definition truth_ (x : M W value) : M W obs :=
    bind x (fun v => match v with VBool b => ret (ObBool b) | _ => dead IllTyped end).
  Definition rep_ (x : M W value) : M W obs :=
    bind x (fun v => match v with VRep r => ret (ObVal r) | _ => dead IllTyped end).
  Definition hash_ (x : M W value) : M W obs :=
    bind x (fun v => match v with
                     | VHash h => ret (ObHash h)
                     | VNum n => ret (ObHash (N.of_nat n))
                     | _ => dead IllTyped
                     end).
  Definition order_ (x : M W value) : M W ordering :=
    bind x (fun v => match v with VOrd o => ret o | _ => dead IllTyped end).
  Definition bool_of_ (x : M W value) : M W bool :=
    bind x (fun v => match v with VBool b => ret b | _ => dead IllTyped end).
  (** A reference to the optional [i] itself, not const. *)
  Definition self_ (i : loc) (x : M W value) : M W obs :=
    bind x (fun v => match v with
                     | VOpt j (Cat false false) => if Nat.eqb i j then ret ObUnit else dead IllTyped
                     | _ => dead IllTyped
                     end).
  (** A reference to the payload of [i], not const. *)
  Definition content_ (i : loc) (x : M W value) : M W obs :=
    bind x (fun v => match v with
                     | VPay j (Cat false false) => if Nat.eqb i j then ret ObUnit else dead IllTyped
                     | _ => dead IllTyped
                     end).
  (** A reference to a payload of the given category, then used by [f]. *)
  Definition reference_ (c : cat) (f : fn_use W) (x : M W value) : M W obs :=
    bind x (fun v => match v with
                     | VPay j d =>
                         if Bool.eqb (is_const c) (is_const d) && Bool.eqb (is_rv c) (is_rv d)
                         then r <- use_payload E j (is_const d) f ;; ret (ObVal r)
                         else dead IllTyped
                     | _ => dead IllTyped
                     end).
  (** A pointer to a payload, then used by [f]. *)
  Definition pointer_ (c : bool) (f : fn_use W) (x : M W value) : M W obs :=
    bind x (fun v => match v with
                     | VPtr (VPay j d) =>
                         if Bool.eqb c (is_const d)
                         then r <- use_payload E j (is_const d) f ;; ret (ObVal r)
                         else dead IllTyped
                     | _ => dead IllTyped
                     end).

  (** Both operands have the same type. *)
  Definition typed {A} (i j : loc) (l : list A) : list A :=
    if Nat.eqb (e_tid E i) (e_tid E j) then l else [].

  (** The operands of comparisons as values. *)
  Definition operand_of (o : operand) : value :=
    match o with
    | OpTiny i => VOpt i clvalue
    | OpStd x => VStd x
    | OpNull => VNullopt
    | OpVal v => VRep v
    end.
  Definition relop_name (r : relop) : string :=
    match r with
    | REq => "operator==" | RNe => "operator!=" | RLt => "operator<"
    | RLe => "operator<=" | RGt => "operator>" | RGe => "operator>="
    end.
  (** Calls of all operator functions of the header that accept the operands. *)
  Definition rel_texts (c : cmpops W) (r : relop) (L R : operand) : list (M W bool) :=
    let vs := [operand_of L; operand_of R] in
    map (fun f => bool_of_ (free c no_hash f vs None)) (viable (overloads "" (relop_name r)) vs).
  Definition three_texts (c : cmpops W) (L R : operand) : list (M W ordering) :=
    let vs := [operand_of L; operand_of R] in
    map (fun f => order_ (free c no_hash f vs None)) (viable (overloads "" "operator<=>") vs).
  (** The same for [<=>] with a function that the header declares with
      TINY_OPTIONAL_GCC_WORKAROUND_CWG2445 only (optional.h:2737-2747), or with exchanged
      operands. *)
  Definition three_way_texts (gcc : bool) (c : cmpops W) (L R : operand) : list (M W ordering) :=
    match L, R with
    | OpTiny _, _ => three_texts c L R
    | OpStd _, OpTiny _ =>
        if gcc then three_texts c L R
        else map (fun x => o <- x ;; ret (flip o)) (three_texts c R L)
    | _, OpTiny _ => map (fun x => o <- x ;; ret (flip o)) (three_texts c R L)
    | _, _ => []
    end.
  (** The expression [L r R], called directly or rewritten by the compiler. *)
  Definition compare_texts (rt : route) (c : cmpops W) (r : relop) (L R : operand) : list (M W bool) :=
    match rt with
    | RtDirect => rel_texts c r L R
    | RtRewritten rev =>
        let A := if rev then R else L in
        let B := if rev then L else R in
        match r with
        | REq => rel_texts c REq A B
        | RNe => map (fun x => b <- x ;; ret (negb b)) (rel_texts c REq A B)
        | _ => map (fun x => o <- x ;; ret (ord_test r (if rev then flip o else o)))
                   (three_texts c A B)
        end
    end.

  (** std::swap for a class with move operations (not library code): see [std_swap]. *)
  Definition std_swap_text (cls : string) (i j k : loc) : M W obs :=
    noexcept_if (po_nt_move (ops E i) && (po_nt_massign (ops E i) && po_nt_move (ops E i)))
      (made_ (define cls k [VOpt i rvalue]) ;;
       on_throw (self_ i (member cls "operator=" i lvalue [VOpt j rvalue] None) ;;
                 self_ j (member cls "operator=" j lvalue [VOpt k rvalue] None))
                (void_ (discard cls k) ;; ret tt) ;;
       void_ (discard cls k)).

  (** All texts of a call. *)
  Definition texts (o : op W) : list (M W obs) :=
    match o with
    | ODefault i => map (fun cls => made_ (define cls i [])) kinds
    | ONullopt i => map (fun cls => made_ (define cls i [VNullopt])) kinds
    | OInPlace i n =>
        flat_map (fun cls =>
          [made_ (define cls i [VInPlace; VIni n]);
           made_ (define cls i [VInPlace; VIList; VIni n]);
           made_ (define cls i [VConv true n]);
           made_ (define cls i [VConv false n])]) kinds
        ++ map (fun f => made_ (free no_cmp no_hash f [VIni n] (Some i)))
               (viable (overloads "" "make_optional") [VIni n])
        ++ map (fun f => made_ (free no_cmp no_hash f [VIList; VIni n] (Some i)))
               (viable (overloads "" "make_optional") [VIList; VIni n])
    | OCopyCtor i j =>
        typed i j (flat_map (fun cls =>
          [made_ (define cls i [VOpt j clvalue]); made_ (define cls i [VOpt j lvalue]);
           made_ (define cls i [VOpt j crvalue])]) kinds)
    | OMoveCtor i j => typed i j (map (fun cls => made_ (define cls i [VOpt j rvalue])) kinds)
    | ODtor i => map (fun cls => void_ (discard cls i)) kinds
    | OAssignNull i =>
        map (fun cls => self_ i (member cls "operator=" i lvalue [VNullopt] None)) kinds
    | OAssign i a =>
        map (fun cls => self_ i (member cls "operator=" i lvalue [VArg a] None)) kinds
    | OCopyAssign i j =>
        typed i j (flat_map (fun cls =>
          [self_ i (member cls "operator=" i lvalue [VOpt j clvalue] None);
           self_ i (member cls "operator=" i lvalue [VOpt j lvalue] None);
           self_ i (member cls "operator=" i lvalue [VOpt j crvalue] None)]) kinds)
    | OMoveAssign i j =>
        typed i j (map (fun cls => self_ i (member cls "operator=" i lvalue [VOpt j rvalue] None)) kinds)
    | OEmplace i n =>
        flat_map (fun cls =>
          [content_ i (member cls "emplace" i lvalue [VIni n] None);
           content_ i (member cls "emplace" i lvalue [VIList; VIni n] None)]) kinds
    | OReset i => map (fun cls => void_ (member cls "reset" i lvalue [] None)) kinds
    | OSwap i j =>
        typed i j
          (map (fun cls => void_ (member cls "swap" i lvalue [VOpt j lvalue] None)) kinds
           ++ map (fun f => void_ (free no_cmp no_hash f [VOpt i lvalue; VOpt j lvalue] None))
                  (viable (W:=W) (overloads "" "swap") [VOpt i lvalue; VOpt j lvalue]))
    | OStdSwap i j k => typed i j (typed k i (map (fun cls => std_swap_text cls i j k) kinds))
    | OHasValue i =>
        flat_map (fun cls => map (fun c => truth_ (member cls "has_value" i c [] None))
                                 [lvalue; clvalue; rvalue; crvalue]) kinds
    | OBool i =>
        flat_map (fun cls => map (fun c => truth_ (member cls "operator bool" i c [] None))
                                 [lvalue; clvalue; rvalue; crvalue]) kinds
    | OAccess k i cst f =>
        flat_map (fun cls => map (fun rv =>
          match k with
          | AccDeref => reference_ (Cat cst rv) f (member cls "operator*" i (Cat cst rv) [] None)
          | AccArrow => pointer_ cst f (member cls "operator->" i (Cat cst rv) [] None)
          | AccValue => reference_ (Cat cst rv) f (member cls "value" i (Cat cst rv) [] None)
          end) [false; true]) kinds
    | OValueOrCopy i d =>
        flat_map (fun cls => map (fun c => rep_ (member cls "value_or" i c [VIni d] None))
                                 [lvalue; clvalue; crvalue]) kinds
    | OValueOrMove i d =>
        map (fun cls => rep_ (member cls "value_or" i rvalue [VIni d] None)) kinds
    | OAndThen k i cst f =>
        flat_map (fun cls => map (fun rv =>
          made_ (member cls "and_then" i (Cat cst rv) [VFnOpt f (Cat cst rv)] (Some k))) [false; true]) kinds
    | OTransform k i cst f nt =>
        flat_map (fun cls => map (fun rv =>
          made_ (member cls "transform" i (Cat cst rv) [VFnUse f nt (Cat cst rv)] (Some k))) [false; true]) kinds
    | OOrElse k i mv f =>
        typed k i (flat_map (fun cls => map (fun c =>
          made_ (member cls "or_else" i c [VFnNull f] (Some k)))
                 (if mv then [rvalue] else [lvalue; clvalue; crvalue])) kinds)
    | OCompare rt c r L R => map (fun x => b <- x ;; ret (ObBool b)) (compare_texts rt c r L R)
    | OThreeWay g c L R => map (fun x => o <- x ;; ret (ObOrd o)) (three_way_texts g c L R)
    | OHash h i =>
        map (fun f => hash_ (free no_cmp h f [VOpt i clvalue] None)) (overloads "hash" "operator()")
    | OVarNew _ _ | OVarDrop _ => [step E o]      (* not the library *)
    end.
End Texts.
