(** * Exec: execution of the syntax trees of [Source.v]

    The meaning of the C++ constructs that occur in optional.h, on the machine of
    [Machine.v], written in continuation style: [k] is what happens next with the value
    of an expression, [kt] what happens if an exception is thrown.  Nothing in this file
    is specific to one function of the library: function calls look the callee up in
    [Source.source] by name, class, qualifiers and parameters, and execute its text.

    Primitive, i.e. given by the machine and not by text of the library: the three
    functions of the flag manipulator (a template parameter, optional.h:654-675), the two
    of the decomposition (optional.h:551-567), construction, destruction, assignment,
    swap, comparison and hash of payloads, and calls of the callables that the user
    passes. *)

From Coq Require Import Ascii String List NArith ZArith Bool Arith.
From Verif Require Import Cells Machine Optional Syntax Source.
Import ListNotations.
Local Open Scope string_scope.
Local Open Scope char_scope.
Local Open Scope string_scope.

(** Value category and constness of a glvalue expression. *)
Record cat : Type := Cat { is_const : bool; is_rv : bool }.

(** The values of expressions. *)
Inductive value (W : Type) : Type :=
| VUnit
| VBool (b : bool)
| VNum (n : nat)
| VHash (n : N)
| VOrd (o : ordering)
| VOpt (i : loc) (c : cat)             (* an optional (or a base class part of it) *)
| VPay (i : loc) (c : cat)             (* the payload object in the storage of [i] *)
| VFlag (i : loc) (c : cat)            (* its flag *)
| VStore (i : loc)                     (* its member mStorage *)
| VPtr (v : value W)                   (* the address of [v] *)
| VIni (n : ini W)                     (* references to the user's arguments for a payload *)
| VArg (a : arg W)                     (* a reference to the user's right hand side *)
| VIList                               (* the user's std::initializer_list *)
| VConv (imp : bool) (n : ini W)       (* the only argument of a conversion; [imp]: the user's type
                                          converts implicitly to the payload type *)
| VFnOpt (f : fn_opt W) (c : cat)      (* callables of and_then, transform and or_else; those of the *)
| VFnUse (f : fn_use W) (nt : bool) (c : cat)  (* first two take a payload of category [c] only *)
| VFnNull (f : W -> res (option rep) * W)
| VRep (v : rep)                       (* a value of some type, by itself *)
| VStd (o : option rep)                (* a std::optional *)
| VNullopt
| VInPlace
| VTag                                 (* DirectInitializationFromFunctionTag *)
| VType (t : string)                   (* a local type alias *)
| VStdSwap                             (* std::swap, by a using declaration *)
| VObj (cls : string) (fs : list (string * value W))  (* a local object of a class *)
| VLv (v : value W)                    (* a forwarding reference used by its name *)
| VPack (l : list (value W))           (* a parameter pack *)
| VMade.                               (* the result object of the function, complete *)
Arguments VUnit {W}.
Arguments VBool {W} b.
Arguments VNum {W} n.
Arguments VHash {W} n.
Arguments VOrd {W} o.
Arguments VOpt {W} i c.
Arguments VPay {W} i c.
Arguments VFlag {W} i c.
Arguments VStore {W} i.
Arguments VPtr {W} v.
Arguments VIni {W} n.
Arguments VArg {W} a.
Arguments VIList {W}.
Arguments VConv {W} imp n.
Arguments VFnOpt {W} f c.
Arguments VFnUse {W} f nt c.
Arguments VFnNull {W} f.
Arguments VRep {W} v.
Arguments VStd {W} o.
Arguments VNullopt {W}.
Arguments VInPlace {W}.
Arguments VTag {W}.
Arguments VType {W} t.
Arguments VStdSwap {W}.
Arguments VObj {W} cls fs.
Arguments VLv {W} v.
Arguments VPack {W} l.
Arguments VMade {W}.

(** Lookup of names. *)
Fixpoint assoc {A} (x : string) (l : list (string * A)) : option A :=
  match l with
  | [] => None
  | (y, a) :: l' => if String.eqb x y then Some a else assoc x l'
  end.
Fixpoint replace {A} (x : string) (a : A) (l : list (string * A)) : list (string * A) :=
  match l with
  | [] => []
  | (y, b) :: l' => if String.eqb x y then (y, a) :: l' else (y, b) :: replace x a l'
  end.

(** Classes by name, with aliases resolved. *)
Fixpoint find_class (l : list classdef) (x : string) : option classdef :=
  match l with
  | [] => None
  | c :: l' => if String.eqb x (c_name c) then Some c else find_class l' x
  end.
Fixpoint unalias (n : nat) (x : string) : string :=
  match n with
  | O => x
  | Datatypes.S n' => match assoc x aliases with Some y => unalias n' y | None => x end
  end.
Definition base_of (c : classdef) : option string :=
  match c_base c with Some b => Some (unalias 5 b) | None => None end.

(** The functions of class [cls] with name [x]. *)
Definition overloads (cls x : string) : list fundef :=
  filter (fun f => String.eqb (f_class f) cls && String.eqb (f_name f) x) source.

(** Member name lookup: the nearest class from [cls] upwards that declares [x]. *)
Fixpoint lookup (n : nat) (cls x : string) : list fundef :=
  match overloads cls x with
  | [] =>
      match n with
      | O => []
      | Datatypes.S n' =>
          match find_class classes cls with
          | Some c => match base_of c with Some b => lookup n' b x | None => [] end
          | None => []
          end
      end
  | fs => fs
  end.

(** The suffix of a type. *)
Fixpoint ends (x t : string) : bool :=
  String.eqb x t || match t with EmptyString => false | String _ t' => ends x t' end.
(** A type without its template arguments, at any depth, and without spaces. *)
Fixpoint plain (depth : nat) (t : string) : string :=
  match t with
  | EmptyString => EmptyString
  | String c t' =>
      if Ascii.eqb c "<" then plain (Datatypes.S depth) t'
      else if Ascii.eqb c ">" then plain (pred depth) t'
      else match depth with
           | O => if Ascii.eqb c " " then plain depth t' else String c (plain depth t')
           | _ => plain depth t'
           end
  end.
(** Is [t] the class of (a part of) an optional followed by [suffix]? *)
Definition is_part (t suffix : string) : bool :=
  existsb (fun c => String.eqb (plain 0 t) (c_name c ++ suffix)
                    && match c_base c with Some _ => true | None => String.eqb (c_name c) "StorageBase" end)
          classes.

Section Exec.
  Context {W : Type}.
  Variable E : env W.
  (** The payload's comparison operators and hash function. *)
  Variable cmp : cmpops W.
  Variable hsh : rep -> W -> res N * W.

  Notation value := (value W).
  Definition locals : Type := list (string * value).
  (** What is left to do. *)
  Definition ans : Type := M W value.

  (** Not a C++ program. *)
  Definition bad : ans := dead IllTyped.

  (** An operation of the machine as an expression. *)
  Definition prim {A} (m : M W A) (k : A -> ans) (kt : exn -> ans) : ans :=
    fun s => match m s with
             | (Ok a, s') => k a s'
             | (Throw e, s') => kt e s'
             | (Dead f, s') => (Dead f, s')
             end.

  (** ** Parameters and overload resolution *)

  (** How well the argument [v] fits a parameter of type [t]; [None]: not at all.  Class
      types and the tag types accept their values only; other types are template
      parameters [T&&] and accept everything except optionals and tags, for which the
      constraints of the templates exclude them (optional.h:1404-1427). *)
  Definition fits (t : string) (v : value) : option nat :=
    match v with
    | VInPlace => if String.eqb t "std::in_place_t" then Some 1 else None
    | VNullopt => if String.eqb t "std::nullopt_t" then Some 1 else None
    | VTag => if String.eqb t "DirectInitializationFromFunctionTag" then Some 1 else None
    | VIList => if String.eqb t "std::initializer_list<U>" then Some 2
                else if String.eqb t "ArgsT&&" then Some 1 else None
    | VOpt _ (Cat c rv) =>
        if is_part t "const&" then Some 1
        else if String.eqb t "U const&" then Some 0
        else if is_part t "&&" then (if rv && negb c then Some 2 else None)
        else if is_part t "&" then (if negb rv && negb c then Some 2 else None)
        else None
    | VStd _ => if String.eqb t "std::optional<U>const&" then Some 1 else None
    | VRep _ => if String.eqb t "U const&" then Some 1 else None
    | VIni _ | VConv _ _ | VArg _ | VFnOpt _ _ | VFnUse _ _ _ | VFnNull _ | VPay _ _ =>
        if existsb (String.eqb t)
             ["U&&"; "T&&"; "F&&"; "FuncT&&"; "ArgT&&"; "ArgsT&&"; "PayloadType&&"]
        then Some 1 else None
    | _ => None
    end.
  Fixpoint fit_all (ps : list param) (vs : list value) : option nat :=
    match ps, vs with
    | [], [] => Some 0
    | p :: ps', [] => if p_pack p then Some 0 else None
    | p :: ps', v :: vs' =>
        match fits (p_type p) v with
        | Some n =>
            match fit_all (if p_pack p then ps else ps') vs' with
            | Some m => Some (n + m)
            | None => None
            end
        | None => None
        end
    | [], _ :: _ => None
    end.

  (** How well the object, of category [c], fits the cv- and ref-qualifier. *)
  Definition fit_this (f : fundef) (c : cat) : option nat :=
    if negb (f_const f) && is_const c then None
    else if String.eqb (f_ref f) "&&" && negb (is_rv c) then None
    else if String.eqb (f_ref f) "&" && is_rv c && negb (f_const f) then None
    else Some ((if Bool.eqb (f_const f) (is_const c) then 2 else 0)
               + (if String.eqb (f_ref f) "&&" then 4 else 0)).

  (** The best viable function: the first with the highest number. *)
  Fixpoint best (l : list (fundef * option nat)) : option (fundef * nat) :=
    match l with
    | [] => None
    | (f, None) :: l' => best l'
    | (f, Some n) :: l' =>
        match best l' with
        | Some (g, m) => if Nat.ltb n m then Some (g, m) else Some (f, n)
        | None => Some (f, n)
        end
    end.
  Definition pick (fs : list fundef) (this : option cat) (vs : list value) : option fundef :=
    match best (map (fun f =>
             (f, match fit_all (f_params f) vs with
                 | Some n =>
                     match this with
                     | Some c => match fit_this f c with Some m => Some (10 * n + m) | None => None end
                     | None => Some n
                     end
                 | None => None
                 end)) fs)
    with Some (f, _) => Some f | None => None end.

  (** The constraint on the template parameter [U] that the comparisons with a value state in
      their return type (e.g. optional.h:2461): [U] is not an optional of the library.  All
      other functions have no constraint there. *)
  Fixpoint deduced (ps : list param) (vs : list value) : option value :=
    match ps, vs with
    | p :: ps', v :: vs' => if String.eqb (p_type p) "U const&" then Some v else deduced ps' vs'
    | _, _ => None
    end.
  Definition enabled (f : fundef) (vs : list value) : bool :=
    match f_ret f, deduced (f_params f) vs with
    | RValue t, Some v =>
        let tiny := match v with VOpt _ _ => true | _ => false end in
        if String.prefix "std::enable_if_t<" t
        then (String.eqb t "std::enable_if_t<!is_tiny_optional_v<U>,bool>" && negb tiny)
             || (String.eqb t "std::enable_if_t<is_tiny_optional_v<U>,bool>" && tiny)
        else negb tiny
    | _, Some (VOpt _ _) => false
    | _, _ => true
    end.

  (** All viable functions. *)
  Definition viable (fs : list fundef) (vs : list value) : list fundef :=
    filter (fun f => match fit_all (f_params f) vs with Some _ => enabled f vs | None => false end) fs.

  (** A reference to const gives const access only. *)
  Definition bound (t : string) (v : value) : value :=
    match v with
    | VOpt i c => if ends "const&" t then VOpt i (Cat true false) else v
    | _ => v
    end.
  (** The parameters as local variables; a pack takes all that is left. *)
  Fixpoint bind_params (ps : list param) (vs : list value) : locals :=
    match ps with
    | [] => []
    | p :: ps' =>
        if p_pack p then [(p_name p, VPack vs)]
        else match vs with
             | v :: vs' => (p_name p, bound (p_type p) v) :: bind_params ps' vs'
             | [] => []
             end
    end.

  (** A variable used by its name: always an lvalue. *)
  Definition named (v : value) : value :=
    match v with
    | VPay i (Cat c _) => VPay i (Cat c false)
    | VOpt i (Cat c _) => VOpt i (Cat c false)
    | VIni _ | VConv _ _ | VArg _ | VFnOpt _ _ | VFnUse _ _ _ | VFnNull _ | VPack _ => VLv v
    | _ => v
    end.
  (** std::move. *)
  Definition moved (v : value) : value :=
    match v with
    | VPay i (Cat c _) => VPay i (Cat c true)
    | VOpt i (Cat c _) => VOpt i (Cat c true)
    | _ => v
    end.
  (** const_cast<T &>. *)
  Definition unconst (v : value) : value :=
    match v with
    | VOpt i _ => VOpt i (Cat false false)
    | _ => v
    end.

  (** "Construct a payload from these": the user's arguments; a payload by copy, or by
      move if it is an rvalue that is not const. *)
  Definition ini_of (vs : list value) : option (ini W) :=
    match vs with
    | [VIni n] | [VConv _ n] => Some n
    | [VIList; VIni n] => Some n
    | [VArg a] => Some (a_ini a)
    | [VPay j (Cat true _)] => Some (copy_ini E j)
    | [VPay j (Cat false true)] => Some (move_ini E j)
    | _ => None
    end.
  (** The right hand side of an assignment to a payload. *)
  Definition arg_of (v : value) : option (arg W) :=
    match v with
    | VArg a => Some a
    | VPay j (Cat true _) => Some (copy_arg E j)
    | VPay j (Cat false true) => Some (move_arg E j)
    | _ => None
    end.

  (** ** Constant expressions: type traits and noexcept specifications *)

  Record frame : Type := Frame {
    fr_class : string;             (* the class whose member is executed *)
    fr_this : option value;        (* *this *)
    fr_res : option loc            (* where the returned optional is to be built *)
  }.

  Definition payload_of (fr : frame) : option (payops W) :=
    match fr_this fr with Some (VOpt i _) => Some (ops E i) | _ => None end.

  (** The type traits used in noexcept specifications and if constexpr. *)
  Definition trait (x : string) (fr : frame) (l : locals) : option bool :=
    if String.eqb x "std::is_nothrow_constructible_v<PayloadType,ArgsT...>" then
      match assoc "args" l with
      | Some (VPack vs) => option_map i_nothrow (ini_of vs)
      | _ => None
      end
    else if String.eqb x "std::is_nothrow_constructible_v<PayloadType,std::invoke_result_t<FuncT,ArgT>>" then
      match assoc "func" l with Some (VFnUse _ nt _) => Some nt | _ => None end
    else if String.eqb x "std::is_nothrow_move_constructible_v<PayloadType>" then
      option_map po_nt_move (payload_of fr)
    else if String.eqb x "std::is_nothrow_move_assignable_v<PayloadType>" then
      option_map po_nt_massign (payload_of fr)
    else if String.eqb x "std::is_nothrow_swappable_v<PayloadType>" then
      option_map po_nt_swap (payload_of fr)
    else None.

  Fixpoint constant (n : nat) (e : expr) (fr : frame) (l : locals) : option bool :=
    match n with
    | O => None
    | Datatypes.S n' =>
        match e with
        | EBool b => Some b
        | EName x => trait x fr l
        | EBin o a b =>
            if String.eqb o "&&"
            then match constant n' a fr l, constant n' b fr l with
                 | Some x, Some y => Some (x && y)
                 | _, _ => None
                 end
            else None
        | ENoexcept (ECall (EMember (EName x) m) _) =>
            (* noexcept(x.m(...)): the specification of m *)
            match assoc x l with
            | Some (VOpt i c) =>
                match lookup 5 "TinyOptionalImpl" m with
                | [f] =>
                    match f_noexcept f with
                    | Some e' => constant n' e' (Frame "TinyOptionalImpl" (Some (VOpt i c)) None) []
                    | None => Some false
                    end
                | _ => None
                end
            | _ => None
            end
        | _ => None
        end
    end.

  (** ** Calls *)

  (** Everything that is done by executing other functions: a call of a function with
      its local variables bound, a constructor and a destructor of class [cls] on the
      storage of [i]. *)
  Record calls : Type := Calls {
    do_call : fundef -> option value -> locals -> option loc -> (value -> ans) -> (exn -> ans) -> ans;
    do_ctor : string -> loc -> list value -> (value -> ans) -> (exn -> ans) -> ans;
    do_dtor : string -> loc -> (value -> ans) -> (exn -> ans) -> ans
  }.

  Section Calls.
  Variable F : calls.

  (** The member function [x] of the object [v], with arguments [vs], looked up from
      class [cls]. *)
  Definition method (cls x : string) (v : value) (vs : list value) (res : option loc)
                    (k : value -> ans) (kt : exn -> ans) : ans :=
    match v with
    | VOpt i c =>
        match pick (lookup 6 cls x) (Some c) vs with
        | Some f =>            (* inside, *this is an lvalue, const in a const member function *)
            do_call F f (Some (VOpt i (Cat (f_const f) false))) (bind_params (f_params f) vs) res k kt
        | None => bad
        end
    | VStd o =>
        if String.eqb x "has_value"
        then k (VBool (match o with Some _ => true | None => false end)) else bad
    | _ => bad
    end.

  (** A new optional of class [cls] at [i]: its storage, its constructor; if that throws,
      the storage is given up. *)
  Definition construct (cls : string) (i : option loc) (vs : list value)
                       (k : value -> ans) (kt : exn -> ans) : ans :=
    match i with
    | Some i =>
        prim (alloc E i)
             (fun _ => do_ctor F cls i vs (fun _ => k VMade)
                         (fun e => prim (dealloc E i) (fun _ => kt e) (fun _ => dead Terminated)))
             kt
    | None => bad
    end.

  (** Contextual conversion to bool. *)
  Definition to_bool (v : value) (k : bool -> ans) (kt : exn -> ans) : ans :=
    match v with
    | VBool b => k b
    | VOpt _ _ => method "TinyOptionalImpl" "operator bool" v [] None
                    (fun r => match r with VBool b => k b | _ => bad end) kt
    | VStd o => k (match o with Some _ => true | None => false end)
    | _ => bad
    end.

  (** The value of a payload operand. *)
  Definition operand_value (v : value) (k : rep -> ans) (kt : exn -> ans) : ans :=
    match v with
    | VPay i _ => prim (load_payload E i) k kt
    | VRep r => k r
    | _ => bad
    end.

  Definition relop_of (o : string) : option relop :=
    assoc o [("==", REq); ("!=", RNe); ("<", RLt); ("<=", RLe); (">", RGt); (">=", RGe)].

  (** [a o b]: the built-in operators on bool; otherwise those of the payloads. *)
  Definition binary (o : string) (a b : value) (k : value -> ans) (kt : exn -> ans) : ans :=
    match a, b with
    | VBool x, VBool y =>
        if String.eqb o "==" then k (VBool (Bool.eqb x y))
        else if String.eqb o "!=" then k (VBool (xorb x y))
        else if String.eqb o "<=>" then k (VOrd (bool_three x y))
        else bad
    | _, _ =>
        operand_value a (fun x =>
        operand_value b (fun y =>
          if String.eqb o "<=>" then prim (three_call cmp x y) (fun r => k (VOrd r)) kt
          else match relop_of o with
               | Some r => prim (rel_call cmp r x y) (fun t => k (VBool t)) kt
               | None => bad
               end) kt) kt
    end.

  (** Call of a callable that returns an optional, with a reference to a payload; the
      optional is built where the result of the calling function is to be. *)
  Definition invoke_opt (f : fn_opt W) (i : loc) (c : bool) (res : option loc)
                        (k : value -> ans) (kt : exn -> ans) : ans :=
    match res with
    | Some r =>
        prim (v <- load_payload E i ;;
              p <- call (f v) ;;
              (if c then ret tt else store_payload E i (snd p)) ;;
              o <- lift_res (fst p) ;;
              build_result E r o) (fun _ => k VMade) kt
    | None => bad
    end.

  (** The static assertions.  A program that compiles is about types for which the
      requirements of std::optional hold; an assertion that asks for anything else would
      reject a valid program. *)
  Definition requirement (x : string) : option bool :=
    if existsb (String.eqb x)
         ["std::is_copy_constructible_v<PayloadType>"; "std::is_move_constructible_v<PayloadType>";
          "std::is_swappable_v<PayloadType>"; "std::is_convertible_v<U,PayloadType>";
          "std::is_object_v<U>"; "IsSomeOptional<ReturnTypeOfF>";
          "std::is_same_v<my_remove_cvref_t<std::invoke_result_t<F>>,TinyOptionalImpl>";
          "std::is_same_v<impl::my_remove_cvref_t<std::invoke_result_t<F>>,optional>"]
    then Some true
    else if existsb (String.eqb x)
              ["std::is_same_v<U,std::nullopt_t>"; "std::is_same_v<U,std::in_place_t>";
               "std::is_array_v<U>"]
    then Some false
    else None.
  Fixpoint holds_for_valid (e : expr) : option bool :=
    match e with
    | EName x => requirement x
    | EUn o a => if String.eqb o "!" then option_map negb (holds_for_valid a) else None
    | EBin o a b =>
        match holds_for_valid a, holds_for_valid b with
        | Some x, Some y =>
            if String.eqb o "&&" then Some (x && y)
            else if String.eqb o "||" then Some (x || y) else None
        | _, _ => None
        end
    | ENoexcept _ => Some true        (* about functions of user's traits *)
    | _ => None
    end.
  Definition asserted (e : expr) : bool :=
    match holds_for_valid e with Some b => b | None => false end.
  Definition same_cat (a b : cat) : bool :=
    Bool.eqb (is_const a) (is_const b) && Bool.eqb (is_rv a) (is_rv b).

  (** Functions called by name with evaluated arguments. *)
  Definition named_call (x : string) (vs : list value) (fr : frame)
                        (k : value -> ans) (kt : exn -> ans) : ans :=
    if String.eqb x "FlagManipulator::is_empty" then
      match vs with [VFlag i _] => prim (fm_is_empty E i) (fun b => k (VBool b)) kt | _ => bad end
    else if String.eqb x "FlagManipulator::init_empty_flag" then
      match vs with
      | [VFlag i (Cat false _)] => prim (fm_init E i) (fun _ => k VUnit) kt
      | _ => bad
      end
    else if String.eqb x "FlagManipulator::invalidate_empty_flag" then
      match vs with
      | [VFlag i (Cat false _)] => prim (fm_invalidate E i) (fun _ => k VUnit) kt
      | _ => bad
      end
    else if String.eqb x "StoredTypeDecomposition::GetIsEmptyFlag" then
      match vs with [VStore i] => k (VFlag i (Cat false false)) | _ => bad end
    else if String.eqb x "StoredTypeDecomposition::GetPayload" then
      match vs with [VStore i] => k (VPay i (Cat false false)) | _ => bad end
    else if String.eqb x "std::addressof" then
      match vs with [v] => k (VPtr v) | _ => bad end
    else if String.eqb x "std::move" then
      match vs with [v] => k (moved v) | _ => bad end
    else if String.eqb x "std::invoke" then
      match vs with
      | [VFnOpt f a; VPay i c] =>
          if same_cat a c then invoke_opt f i (is_const c) (fr_res fr) k kt else bad
      | [VFnUse f nt a; VPay i c] =>
          if same_cat a c then k (VIni (MkIni (Some i) (is_const c) f nt)) else bad
      | _ => bad
      end
    else if String.eqb x "::tiny::optional<U>" then construct "optional" (fr_res fr) vs k kt
    else if String.eqb x "Base::operator=" then
      match find_class classes (fr_class fr), fr_this fr with
      | Some c, Some v =>
          match base_of c with
          | Some b => method b "operator=" v vs (fr_res fr) k kt
          | None => bad
          end
      | _, _ => bad
      end
    else match fr_this fr with
         | Some v => method (fr_class fr) x v vs (fr_res fr) k kt
         | None => bad
         end.

  (** ** Expressions *)

  Fixpoint eval (e : expr) (fr : frame) (l : locals)
                (k : value -> ans) (kt : exn -> ans) {struct e} : ans :=
    let evals :=
      fix evals (es : list expr) (k : list value -> ans) {struct es} : ans :=
        match es with
        | [] => k []
        | EPack e :: es' =>
            eval e fr l (fun v =>
              match v with
              | VPack vs => evals es' (fun ws => k (vs ++ ws)%list)
              | _ => bad
              end) kt
        | e :: es' => eval e fr l (fun v => evals es' (fun ws => k (v :: ws))) kt
        end in
    match e with
    | EThis => match fr_this fr with Some v => k (VPtr v) | None => bad end
    | EBool b => k (VBool b)
    | ENum n => k (VNum n)
    | EStr => k (VBool true)                (* only used as operand of && *)
    | EName x =>
        match assoc x l with
        | Some v => k (named v)
        | None =>
            if String.eqb x "std::in_place" then k VInPlace
            else if String.eqb x "std::nullopt" then k VNullopt
            else if String.eqb x "std::strong_ordering::less" then k (VOrd OLess)
            else bad
        end
    | EMember a x =>
        eval a fr l (fun v =>
          match v with
          | VOpt i _ => if String.eqb x "mStorage" then k (VStore i) else bad
          | _ => bad
          end) kt
    | EUn o a =>
        if String.eqb o "*" then
          eval a fr l (fun v =>
            match v with
            | VPtr w => k w
            | VOpt _ _ => method "TinyOptionalImpl" "operator*" v [] None k kt
            | VStd (Some r) => k (VRep r)
            | VStd None => dead NoObject
            | _ => bad
            end) kt
        else if String.eqb o "!" then
          eval a fr l (fun v => to_bool v (fun b => k (VBool (negb b))) kt) kt
        else bad
    | EBin o a b =>
        if String.eqb o "&&" then
          eval a fr l (fun v => to_bool v (fun x =>
            if x then eval b fr l (fun w => to_bool w (fun y => k (VBool y)) kt) kt
            else k (VBool false)) kt) kt
        else if String.eqb o "||" then
          eval a fr l (fun v => to_bool v (fun x =>
            if x then k (VBool true)
            else eval b fr l (fun w => to_bool w (fun y => k (VBool y)) kt) kt) kt) kt
        else if String.eqb o "=" then
          (* the right operand first *)
          eval b fr l (fun w => eval a fr l (fun v =>
            match v, arg_of w with
            | VPay i (Cat false _), Some g => prim (assign_payload E i g) (fun _ => k v) kt
            | _, _ => bad
            end) kt) kt
        else eval a fr l (fun v => eval b fr l (fun w => binary o v w k kt) kt) kt
    | ECond c a b =>
        eval c fr l (fun v => to_bool v (fun x =>
          if x then eval a fr l k kt else eval b fr l k kt) kt) kt
    | ECast kd t a =>
        eval a fr l (fun v =>
          if String.eqb kd "const_cast" then
            if String.eqb t "StorageBase&" then k (unconst v)
            else if String.eqb t "void*" then k v else bad
          else if String.eqb t "void volatile const*" then k v
          else if String.eqb t "std::remove_cv_t<PayloadType>" then
            match ini_of [v] with
            | Some n => prim (run_ini E n) (fun r => k (VRep r)) kt
            | None => bad
            end
          else bad) kt
    | ENew a t args =>
        eval a fr l (fun v => evals args (fun vs =>
          match v, ini_of vs with
          | VPtr (VPay i (Cat false _)), Some n =>
              if String.eqb t "PayloadType" then prim (placement_new E i n) (fun _ => k VUnit) kt else bad
          | _, _ => bad
          end)) kt
    | EDtor a t =>
        eval a fr l (fun v =>
          match v with
          | VPay i (Cat false _) =>
              if String.eqb t "PayloadType" then prim (destroy_payload E i) (fun _ => k VUnit) kt else bad
          | _ => bad
          end) kt
    | EThrow (EBrace t []) => if String.eqb t "std::bad_optional_access" then kt BadOptionalAccess else bad
    | EBrace t args =>
        if String.eqb t "DirectInitializationFromFunctionTag" then k VTag
        else if String.prefix "optional<" t
        then evals args (fun vs => construct "optional" (fr_res fr) vs k kt)
        else bad
    | EPack a => eval a fr l k kt
    | ECall (EName x) args =>
        if String.eqb x "assert" then
          match args with
          | [a] =>
              (if e_dbg E
               then eval a fr l (fun v => to_bool v (fun b =>
                      if b then k VUnit else dead AssertFailed) kt) kt
               else k VUnit)
          | _ => bad
          end
        else if String.prefix "std::forward<" x then
          match args with
          | [EName y] => match assoc y l with Some v => k v | None => bad end
          | _ => bad
          end
        else
          match assoc x l with
          | Some (VType _) => evals args (fun vs => construct "optional" (fr_res fr) vs k kt)
          | Some VStdSwap =>
              evals args (fun vs =>
                match vs with
                | [VPay i (Cat false false); VPay j (Cat false false)] =>
                    prim (swap_payloads E i j) (fun _ => k VUnit) kt
                | _ => bad
                end)
          | Some _ => bad
          | None => evals args (fun vs => named_call x vs fr k kt)
          end
    | ECall (EMember o x) args =>
        eval o fr l (fun v => evals args (fun vs =>
          method "TinyOptionalImpl" x v vs (fr_res fr) k kt)) kt
    | ECall (EBrace t []) args =>           (* hash<T>{}(v) *)
        if String.prefix "hash<" t then
          evals args (fun vs =>
            match vs with
            | [v] => operand_value v (fun r =>
                prim (x <- call (hsh r) ;; lift_res x) (fun h => k (VHash h)) kt) kt
            | _ => bad
            end)
        else bad
    | ECall f args =>                       (* a callable without arguments *)
        eval f fr l (fun v => evals args (fun vs =>
          match v, vs, fr_res fr with
          | VFnNull g, [], Some r =>
              prim (x <- call g ;; o <- lift_res x ;; build_result E r o) (fun _ => k VMade) kt
          | _, _, _ => bad
          end)) kt
    | _ => bad
    end.

  (** The arguments of a member initialiser. *)
  Fixpoint eval_list (es : list expr) (fr : frame) (l : locals)
                     (k : list value -> ans) (kt : exn -> ans) {struct es} : ans :=
    match es with
    | [] => k []
    | EPack e :: es' =>
        eval e fr l (fun v =>
          match v with
          | VPack vs => eval_list es' fr l (fun ws => k (vs ++ ws)%list) kt
          | _ => bad
          end) kt
    | e :: es' => eval e fr l (fun v => eval_list es' fr l (fun ws => k (v :: ws)) kt) kt
    end.

  (** ** Statements

      [k]: the next statement; [kr]: return; [kt]: exception.  All get the local
      variables as they are at that moment, since a local object may have to be
      destroyed. *)

  (** The destructor of the local object [x]. *)
  Definition drop_local (x : string) (l : locals) (k : ans) (kt : exn -> ans) : ans :=
    match assoc x l with
    | Some (VObj cls fs) =>
        match overloads cls ("~" ++ cls) with
        | [f] => do_call F f None fs None (fun _ => k) kt
        | _ => bad
        end
    | _ => bad
    end.

  (** A local object of a class: default member initialisers, then the constructor's
      member initialisers (whose body is empty for the only such class). *)
  Fixpoint fields (fr : frame) (cf : list (string * option expr)) (inits : list (string * list expr))
                  (l : locals) (k : locals -> ans) (kt : exn -> ans) : ans :=
    match cf with
    | [] => k []
    | (x, d) :: cf' =>
        match assoc x inits, d with
        | Some [e], _ | None, Some e =>
            eval e fr l (fun v => fields fr cf' inits l (fun fs => k ((x, v) :: fs)) kt) kt
        | _, _ => bad
        end
    end.

  Definition pop (l l' : locals) : locals := skipn (length l' - length l) l'.

  Section Block.
    Variable exec : stmt -> locals -> (locals -> ans) -> (locals -> value -> ans)
                    -> (locals -> exn -> ans) -> ans.
    Variable fr : frame.

    (** A sequence of statements; a declaration reaches to the end of it. *)
    Fixpoint block (ss : list stmt) (l : locals) (k : locals -> ans)
                   (kr : locals -> value -> ans) (kt : locals -> exn -> ans) {struct ss} : ans :=
      match ss with
      | [] => k l
      | SDecl t x args :: ss' =>
          match find_class classes t with
          | Some c =>
              eval_list args fr l (fun vs =>
                match pick (overloads t t) None vs with
                | Some f =>
                    fields fr (c_fields c) (f_inits f) (bind_params (f_params f) vs) (fun fs =>
                      block ss' ((x, VObj t fs) :: l)
                        (fun l' => drop_local x l' (k l') (kt l'))
                        (fun l' v => drop_local x l' (kr l' v) (kt l'))
                        (fun l' e => drop_local x l' (kt l' e) (fun _ => dead Terminated)))
                      (kt l)
                | None => bad
                end) (kt l)
          | None =>
              match args with
              | [e] => eval e fr l (fun v => block ss' ((x, v) :: l) k kr kt) (kt l)
              | _ => bad
              end
          end
      | s :: ss' => exec s l (fun l' => block ss' l' k kr kt) kr kt
      end.

    (** The same in braces. *)
    Definition braces (ss : list stmt) (l : locals) (k : locals -> ans)
                      (kr : locals -> value -> ans) (kt : locals -> exn -> ans) : ans :=
      block ss l (fun l' => k (pop l l')) kr (fun l' e => kt (pop l l') e).
  End Block.

  Fixpoint exec (fr : frame) (s : stmt) (l : locals) (k : locals -> ans)
                (kr : locals -> value -> ans) (kt : locals -> exn -> ans) {struct s} : ans :=
    match s with
    | SExpr (EBin "=" (EMember (EName x) m) e) =>      (* a member of a local object *)
        match assoc x l with
        | Some (VObj cls fs) =>
            eval e fr l (fun v => k (replace x (VObj cls (replace m v fs)) l)) (kt l)
        | _ => bad
        end
    | SExpr e => eval e fr l (fun _ => k l) (kt l)
    | SReturn (Some e) => eval e fr l (fun v => kr l v) (kt l)
    | SReturn None => kr l VUnit
    | SIf true c a b =>
        match constant 5 c fr l with
        | Some x => if x then braces (exec fr) fr a l k kr kt else braces (exec fr) fr b l k kr kt
        | None => bad
        end
    | SIf false c a b =>
        eval c fr l (fun v => to_bool v (fun x =>
          if x then braces (exec fr) fr a l k kr kt else braces (exec fr) fr b l k kr kt) (kt l)) (kt l)
    | SStaticAssert e => if asserted e then k l else bad (* compile time *)
    | SUsing x t => k ((x, if String.eqb t "std::swap" then VStdSwap else VType t) :: l)
    | SDecl _ _ _ => bad                                (* see [block] *)
    end.

  (** ** Functions *)

  (** What is returned, from the operand of the return statement. *)
  Definition returned (f : fundef) (v : value) (res : option loc)
                      (k : value -> ans) (kt : exn -> ans) : ans :=
    match f_ret f with
    | RNone => k VUnit
    | RRef c rv _ =>
        match v with
        | VPay i _ => k (VPay i (Cat c rv))
        | VFlag i _ => k (VFlag i (Cat c rv))
        | VOpt i _ => k (VOpt i (Cat c rv))
        | _ => bad
        end
    | RValue t =>
        if String.eqb t "std::remove_cv_t<PayloadType>" then
          match v with
          | VRep _ => k v
          | _ => match ini_of [v] with
                 | Some n => prim (run_ini E n) (fun r => k (VRep r)) kt
                 | None => bad
                 end
          end
        else
          match v with
          | VOpt _ _ =>
              if String.eqb t "TinyOptionalImpl" || String.eqb t "optional"
              then construct t res [v] k kt else bad
          | _ => k v
          end
    end.

  (** [noexcept(spec)]. *)
  Definition guard (f : fundef) (fr : frame) (l : locals) (m : (exn -> ans) -> ans) (kt : exn -> ans) : ans :=
    match f_noexcept f with
    | None => m kt
    | Some e =>
        match constant 5 e fr l with
        | Some b => m (fun x => if b then dead Terminated else kt x)
        | None => bad
        end
    end.

  Definition call_fun (f : fundef) (this : option value) (l : locals) (res : option loc)
                      (k : value -> ans) (kt : exn -> ans) : ans :=
    let fr := Frame (f_class f) this res in
    match f_body f with
    | Body ss =>
        guard f fr l (fun kt =>
          block (exec fr) fr ss l (fun _ => k VUnit) (fun _ v => returned f v res k kt)
                (fun _ e => kt e)) kt
    | Defaulted =>
        (* operator=: that of the base class with the same parameter *)
        match find_class classes (f_class f), this with
        | Some c, Some (VOpt i ct) =>
            match base_of c, map snd l with
            | Some b, vs => method b "operator=" (VOpt i ct) vs res (fun v => returned f v res k kt) kt
            | None, _ => bad
            end
        | _, _ => bad
        end
    | Deleted => bad
    end.

  (** Destruction: the body, then the base class. *)
  Definition destroy_class (cls : string) (i : loc) (k : value -> ans) (kt : exn -> ans) : ans :=
    match find_class classes cls with
    | Some c =>
        let next := match base_of c with
                    | Some b => do_dtor F b i k kt
                    | None => k VUnit
                    end in
        match overloads cls ("~" ++ cls) with
        | [] => next
        | [f] =>
            match f_body f with
            | Body _ => call_fun f (Some (VOpt i (Cat false false))) [] None (fun _ => next) kt
            | Defaulted => next
            | Deleted => bad
            end
        | _ => bad
        end
    | None => bad
    end.

  (** The constructors that take part: of the two that convert from a value of another type,
      the explicit one is for types that do not convert implicitly, the other one for those
      that do (optional.h:1462-1498). *)
  Definition constructors (cls : string) (vs : list value) : list fundef :=
    match vs with
    | [VConv imp _] =>
        filter (fun f => Bool.eqb (String.eqb (f_ref f) "explicit") (negb imp)) (overloads cls cls)
    | _ => overloads cls cls
    end.

  (** Construction: the base class (or another constructor of the class), then the body;
      if the body throws, what was constructed before is destroyed. *)
  Definition construct_class (cls : string) (i : loc) (vs : list value)
                             (k : value -> ans) (kt : exn -> ans) : ans :=
    match find_class classes cls with
    | Some c =>
        match pick (constructors cls vs) None vs, base_of c with
        | Some f, b =>
            match f_body f, b with
            | Deleted, _ => bad
            | Defaulted, Some b => do_ctor F b i vs k kt
            | Defaulted, None => bad
            | Body ss, _ =>
                let l := bind_params (f_params f) vs in
                let fr := Frame cls (Some (VOpt i (Cat false false))) None in
                guard f fr l (fun kt =>
                  match f_inits f, b with
                  | [], None =>
                      block (exec fr) fr ss l (fun _ => k VUnit) (fun _ _ => bad) (fun _ e => kt e)
                  | [(x, es)], Some b =>
                      let first := if String.eqb x cls then cls else b in
                      eval_list es fr l (fun ws =>
                        do_ctor F first i ws (fun _ =>
                          block (exec fr) fr ss l (fun _ => k VUnit) (fun _ _ => bad)
                            (fun _ e => do_dtor F first i (fun _ => kt e) (fun _ => dead Terminated)))
                          kt) kt
                  | _, _ => bad
                  end) kt
            end
        | None, Some b => if c_using c then do_ctor F b i vs k kt else bad
        | None, None => bad
        end
    | None => bad
    end.
  End Calls.

  (** Calls up to a depth of nesting.  The library is not recursive; more than what its
      calls need changes nothing. *)
  Fixpoint machine (n : nat) : calls :=
    match n with
    | O => Calls (fun _ _ _ _ _ _ => bad) (fun _ _ _ _ _ => bad) (fun _ _ _ _ => bad)
    | Datatypes.S n' =>
        let F := machine n' in Calls (call_fun F) (construct_class F) (destroy_class F)
    end.

  (** ** Entry points *)

  (** Call of the function [f] with arguments [vs] on the object [this]; an optional that
      it returns is built at [res]. *)
  Definition call_text (n : nat) (f : fundef) (this : option value) (vs : list value)
                       (res : option loc) : M W value :=
    do_call (machine n) f this (bind_params (f_params f) vs) res (fun v => ret v) (fun e => throw e).
  (** Definition of a variable [i] of class [cls]. *)
  Definition new_text (n : nat) (cls : string) (i : loc) (vs : list value) : M W value :=
    construct (machine n) cls (Some i) vs (fun v => ret v) (fun e => throw e).
  (** Its end. *)
  Definition drop_text (n : nat) (cls : string) (i : loc) : M W value :=
    do_dtor (machine n) cls i (fun _ => prim (dealloc E i) (fun _ => ret VUnit) (fun e => throw e))
            (fun e => throw e).
End Exec.
