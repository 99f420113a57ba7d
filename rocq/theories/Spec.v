(** * Spec: std::optional as the C++ standard describes it

    An optional is an [option rep]; there is no memory layout, no flag, no
    sentinel, no lifetime bookkeeping.  The text follows [optional.ctor],
    [optional.assign], [optional.swap], [optional.observe], [optional.monadic],
    [optional.mod], [optional.relops], [optional.nullops], [optional.comp.with.t] and
    [optional.hash].

    From the model only the vocabulary of user code is shared ([payops], [ini],
    [arg], [cmpops], [op], [obs]); none of the functions of [Optional.v] is used.

    [SUndef] marks histories for which nothing is promised: use of variables that
    do not exist, of empty optionals without check, of a destroyed payload, ill
    typed calls, and storing a value that is not [storable] (for std::optional
    every value is; for a tiny optional that swallows a value this is the
    documented contract). *)

From Coq Require Import List NArith Bool Arith.
From Verif Require Import Cells Machine Optional Program.
Import ListNotations.

(** An object of the abstract program: an optional or a plain variable. *)
Inductive sobj : Type :=
| SOpt (o : option rep)
| SVar (v : rep).

(** Outcome of an abstract call. *)
Inductive sout (A : Type) : Type :=
| SOk (a : A)
| SThrow (e : exn)
| SUndef.
Arguments SOk {A} a.
Arguments SThrow {A} e.
Arguments SUndef {A}.

(** Abstract state: the objects and the user's world. *)
Record sstate (W : Type) : Type := MkS {
  objs : loc -> option sobj;
  sworld : W
}.
Arguments MkS {W} objs sworld.
Arguments objs {W} s _.
Arguments sworld {W} s.

Section Spec.
  Context {W : Type}.
  (** Types of the variables; the behaviour of their payload type; which values
      the contract allows in an optional; which are values of the type at all. *)
  Variable tid : loc -> nat.
  Variable pops : loc -> payops W.
  Variable storable : loc -> rep -> bool.
  Variable is_value : loc -> rep -> bool.

  Definition S (A : Type) : Type := sstate W -> sout A * sstate W.
  Definition sret {A} (a : A) : S A := fun s => (SOk a, s).
  Definition sthrow {A} (e : exn) : S A := fun s => (SThrow e, s).
  Definition sundef {A} : S A := fun s => (SUndef, s).
  Definition sbind {A B} (m : S A) (k : A -> S B) : S B :=
    fun s => match m s with
             | (SOk a, s') => k a s'
             | (SThrow e, s') => (SThrow e, s')
             | (SUndef, s') => (SUndef, s')
             end.

  Local Notation "x <-- m ;;; k" := (sbind m (fun x => k))
    (at level 61, m at next level, right associativity).
  Local Notation "m ;;; k" := (sbind m (fun _ => k))
    (at level 61, right associativity).

  (** User code. *)
  Definition suser {A} (f : W -> A * W) : S A :=
    fun s => let (a, w') := f (sworld s) in (SOk a, MkS (objs s) w').
  Definition sres {A} (r : res A) : S A :=
    match r with ROk a => sret a | RThrow e => sthrow e end.

  (** Objects. *)
  Definition sset (i : loc) (x : option sobj) : S unit :=
    fun s => (SOk tt, MkS (upd (objs s) i x) (sworld s)).

  (** Does the optional [i] contain a value, and which? *)
  Definition contents (i : loc) : S (option rep) :=
    fun s => match objs s i with
             | Some (SOpt o) => (SOk o, s)
             | _ => (SUndef, s)
             end.
  (** The optional [i] now contains [o]. *)
  Definition become (i : loc) (o : option rep) : S unit :=
    match o with
    | Some v => if storable i v then sset i (Some (SOpt o)) else sundef
    | None => sset i (Some (SOpt o))
    end.
  (** [i] is a new name. *)
  Definition fresh (i : loc) : S unit :=
    fun s => match objs s i with None => (SOk tt, s) | Some _ => (SUndef, s) end.

  (** Read and modify the object that a payload reference refers to: the contained
      value of an optional or a variable. *)
  Definition sread (i : loc) : S rep :=
    fun s => match objs s i with
             | Some (SOpt (Some v)) => (SOk v, s)
             | Some (SVar v) => (SOk v, s)
             | _ => (SUndef, s)
             end.
  Definition swrite (i : loc) (v : rep) : S unit :=
    fun s => match objs s i with
             | Some (SOpt (Some _)) => become i (Some v) s
             | Some (SVar _) => if is_value i v then sset i (Some (SVar v)) s else (SUndef, s)
             | _ => (SUndef, s)
             end.

  (** Read and modify the objects that further constructor arguments refer to. *)
  Fixpoint sread_more (l : list (loc * bool)) : S (list rep) :=
    match l with
    | [] => sret []
    | (j, _) :: l' => v <-- sread j ;;; vs <-- sread_more l' ;;; sret (v :: vs)
    end.
  Fixpoint swrite_more (l : list (loc * bool)) (vs : list rep) : S unit :=
    match l, vs with
    | (j, c) :: l', v :: vs' => (if c then sret tt else swrite j v) ;;; swrite_more l' vs'
    | _, _ => sret tt
    end.

  (** Evaluate constructor arguments to the constructed value. *)
  Definition sinit (n : ini W) : S rep :=
    src <-- (match i_src n with None => sret [] | Some j => sread j end) ;;;
    more <-- sread_more (i_more n) ;;;
    p <-- suser (i_fun n (joined src more)) ;;;
    (match i_src n with
     | None => sret tt
     | Some j => if i_const n then sret tt else swrite j (fst (parted src more (snd p)))
     end) ;;;
    swrite_more (i_more n) (snd (parted src more (snd p))) ;;;
    sres (fst p).

  (** Value of a copy / of a move of the value contained in [j]. *)
  Definition scopy (j : loc) : S rep :=
    v <-- sread j ;;; r <-- suser (po_copy (pops j) v) ;;; sres r.
  Definition smove (j : loc) : S rep :=
    v <-- sread j ;;; p <-- suser (po_move (pops j) v) ;;;
    swrite j (snd p) ;;; sres (fst p).

  (** Run the destructor of a value. *)
  Definition sdestroy (i : loc) (v : rep) : S unit :=
    suser (fun w => (tt, po_dtor (pops i) v w)).

  Definition same (i j : loc) {A} (m : S A) : S A :=
    if Nat.eqb (tid i) (tid j) then m else sundef.

  (** [optional.ctor]: copy/move constructor: "If rhs contains a value,
      direct-non-list-initializes the contained value with *rhs / std::move( *rhs)". *)
  Definition s_ctor_from (get : S rep) (i j : loc) : S unit :=
    same i j
      (fresh i ;;;
       o <-- contents j ;;;
       match o with
       | None => become i None
       | Some _ => v <-- get ;;; become i (Some v)
       end).

  (** [optional.dtor], [optional.mod] reset. *)
  Definition s_clear (i : loc) : S unit :=
    o <-- contents i ;;;
    match o with
    | None => sret tt
    | Some v => sdestroy i v ;;; become i None
    end.
  Definition s_dtor (i : loc) : S unit :=
    o <-- contents i ;;;
    match o with
    | None => sset i None
    | Some v => sdestroy i v ;;; sset i None
    end.

  (** [optional.assign], value: "If *this contains a value, assigns
      std::forward<U>(v) to the contained value; otherwise
      direct-non-list-initializes the contained value". *)
  Definition s_assign_existing (i : loc) (a : arg W) : S unit :=
    match i_src (a_ini a) with
    | None =>
        d <-- sread i ;;;
        p <-- suser (a_assign a d []) ;;;
        swrite i (fst (snd p)) ;;; sres (fst p)
    | Some j =>
        if Nat.eqb i j
        then d <-- sread i ;;; p <-- suser (a_self a d) ;;;
             swrite i (snd p) ;;; sres (fst p)
        else d <-- sread i ;;; v <-- sread j ;;; p <-- suser (a_assign a d v) ;;;
             swrite i (fst (snd p)) ;;;
             (if i_const (a_ini a) then sret tt else swrite j (snd (snd p))) ;;;
             sres (fst p)
    end.
  Definition s_assign (i : loc) (a : arg W) : S unit :=
    o <-- contents i ;;;
    match o with
    | Some _ => s_assign_existing i a
    | None => v <-- sinit (a_ini a) ;;; become i (Some v)
    end.

  (** [optional.assign], table for copy and move assignment. *)
  Definition s_copy_assign (i j : loc) : S unit :=
    same i j
      (src <-- contents j ;;;
       dst <-- contents i ;;;
       match dst, src with
       | Some _, Some v =>
           if Nat.eqb i j
           then p <-- suser (po_self_cassign (pops j) v) ;;; swrite i (snd p) ;;; sres (fst p)
           else d <-- sread i ;;; p <-- suser (po_cassign (pops j) d v) ;;;
                swrite i (snd p) ;;; sres (fst p)
       | None, Some _ => v <-- scopy j ;;; become i (Some v)
       | Some d, None => sdestroy i d ;;; become i None
       | None, None => sret tt
       end).
  Definition s_move_assign (i j : loc) : S unit :=
    same i j
      (src <-- contents j ;;;
       dst <-- contents i ;;;
       match dst, src with
       | Some _, Some v =>
           if Nat.eqb i j
           then p <-- suser (po_self_massign (pops j) v) ;;; swrite i (snd p) ;;; sres (fst p)
           else d <-- sread i ;;; p <-- suser (po_massign (pops j) d v) ;;;
                swrite i (fst (snd p)) ;;; swrite j (snd (snd p)) ;;; sres (fst p)
       | None, Some _ => v <-- smove j ;;; become i (Some v)
       | Some d, None => sdestroy i d ;;; become i None
       | None, None => sret tt
       end).

  (** [optional.assign] emplace: "Calls *this = nullopt.  Then
      direct-non-list-initializes the contained value". *)
  Definition s_emplace (i : loc) (n : ini W) : S unit :=
    s_clear i ;;; v <-- sinit n ;;; become i (Some v).

  (** [optional.swap], table. *)
  Definition s_swap (i j : loc) : S unit :=
    same i j
      (a <-- contents i ;;;
       b <-- contents j ;;;
       match a, b with
       | Some x, Some y =>
           if Nat.eqb i j
           then p <-- suser (po_self_swap (pops i) x) ;;; swrite i (snd p) ;;; sres (fst p)
           else p <-- suser (po_swap (pops i) x y) ;;;
                swrite i (fst (snd p)) ;;; swrite j (snd (snd p)) ;;; sres (fst p)
       | Some _, None => v <-- smove i ;;; become j (Some v) ;;; s_clear i
       | None, Some _ => v <-- smove j ;;; become i (Some v) ;;; s_clear j
       | None, None => sret tt
       end).

  (** [utility.swap]: "Exchanges values stored in two locations", by one move
      construction and two move assignments; [k] is the local variable, which is
      destroyed at the end and by stack unwinding.  Both references are to existing
      objects. *)
  Definition s_on_throw {A} (m : S A) (cleanup : S unit) : S A :=
    fun s => match m s with
             | (SThrow e, s') =>
                 match cleanup s' with
                 | (SOk _, s'') => (SThrow e, s'')
                 | (_, s'') => (SUndef, s'')
                 end
             | r => r
             end.
  Definition s_std_swap (i j k : loc) : S unit :=
    same i j
      (_ <-- contents j ;;;
       s_ctor_from (smove i) k i ;;;
       s_on_throw (s_move_assign i j ;;; s_move_assign j k) (s_dtor k) ;;;
       s_dtor k).

  (** [optional.observe]. *)
  Definition s_access (k : accessor) (i : loc) (c : bool) (f : fn_use W) : S rep :=
    o <-- contents i ;;;
    match o, k with
    | None, AccValue => sthrow BadOptionalAccess
    | None, _ => sundef
    | Some v, _ =>
        p <-- suser (f v) ;;;
        (if c then sret tt else swrite i (snd p)) ;;;
        sres (fst p)
    end.
  Definition s_value_or (get : S rep) (i : loc) (d : ini W) : S rep :=
    o <-- contents i ;;;
    match o with Some _ => get | None => sinit d end.

  (** [optional.monadic]; the result is the new optional [k]. *)
  Definition s_new (k : loc) (o : option rep) : S unit := fresh k ;;; become k o.
  Definition s_and_then (k i : loc) (c : bool) (f : fn_opt W) : S unit :=
    o <-- contents i ;;;
    match o with
    | None => s_new k None
    | Some v =>
        p <-- suser (f v) ;;;
        (if c then sret tt else swrite i (snd p)) ;;;
        x <-- sres (fst p) ;;;
        s_new k x
    end.
  Definition s_transform (k i : loc) (c : bool) (f : fn_use W) : S unit :=
    o <-- contents i ;;;
    match o with
    | None => s_new k None
    | Some v =>
        fresh k ;;;
        p <-- suser (f v) ;;;
        (if c then sret tt else swrite i (snd p)) ;;;
        x <-- sres (fst p) ;;;
        become k (Some x)
    end.
  Definition s_or_else (k i : loc) (mv : bool) (f : W -> res (option rep) * W) : S unit :=
    same k i
      (o <-- contents i ;;;
       match o with
       | Some _ => fresh k ;;; v <-- (if mv then smove i else scopy i) ;;; become k (Some v)
       | None => r <-- suser f ;;; x <-- sres r ;;; s_new k x
       end).

  (** [optional.relops], [optional.nullops], [optional.comp.with.t]: an empty
      optional (and nullopt) is less than every value and equal to itself. *)
  Definition rel_none_none (r : relop) : bool :=
    match r with REq | RLe | RGe => true | RNe | RLt | RGt => false end.
  Definition rel_none_some (r : relop) : bool :=
    match r with RNe | RLt | RLe => true | REq | RGt | RGe => false end.
  Definition rel_some_none (r : relop) : bool :=
    match r with RNe | RGt | RGe => true | REq | RLt | RLe => false end.
  Definition s_relate (c : cmpops W) (r : relop) (x y : option rep) : S bool :=
    match x, y with
    | None, None => sret (rel_none_none r)
    | None, Some _ => sret (rel_none_some r)
    | Some _, None => sret (rel_some_none r)
    | Some a, Some b => z <-- suser (c_rel c r a b) ;;; sres z
    end.
  Definition s_relate3 (c : cmpops W) (x y : option rep) : S ordering :=
    match x, y with
    | None, None => sret OEquiv
    | None, Some _ => sret OLess
    | Some _, None => sret OGreater
    | Some a, Some b => z <-- suser (c_three c a b) ;;; sres z
    end.
  Definition s_operand (o : operand) : S (option rep) :=
    match o with
    | OpTiny i => contents i
    | OpStd x => sret x
    | OpNull => sret None
    | OpVal v => sret (Some v)
    end.
  (** At least one side must be a tiny optional, otherwise the library is not
      involved; std::optional against nullopt or value is not the library's
      business either. *)
  Definition involved (L R : operand) : bool :=
    match L, R with
    | OpTiny _, _ => true
    | _, OpTiny _ => true
    | _, _ => false
    end.
  Definition s_compare (c : cmpops W) (r : relop) (L R : operand) : S bool :=
    if involved L R
    then x <-- s_operand L ;;; y <-- s_operand R ;;; s_relate c r x y
    else sundef.
  (** With the tiny optional only on the right hand side the language defines
      [L <=> R] as [0 <=> (R <=> L)]. *)
  Definition reverse (o : ordering) : ordering :=
    match o with
    | OLess => OGreater | OGreater => OLess | OEquiv => OEquiv | OUnordered => OUnordered
    end.
  Definition s_three (gcc : bool) (c : cmpops W) (L R : operand) : S ordering :=
    match L, R with
    | OpTiny _, _ =>
        x <-- s_operand L ;;; y <-- s_operand R ;;; s_relate3 c x y
    | OpStd _, OpTiny _ =>
        x <-- s_operand L ;;; y <-- s_operand R ;;;
        if gcc then s_relate3 c x y
        else o <-- s_relate3 c y x ;;; sret (reverse o)
    | _, OpTiny _ =>
        x <-- s_operand L ;;; y <-- s_operand R ;;;
        o <-- s_relate3 c y x ;;; sret (reverse o)
    | _, _ => sundef
    end.

  (** [optional.hash]: the hash of the contained value, or some fixed value. *)
  Definition s_hash (h : rep -> W -> res N * W) (i : loc) : S N :=
    o <-- contents i ;;;
    match o with
    | Some v => x <-- suser (h v) ;;; sres x
    | None => sret 0%N
    end.

  Definition sunit (m : S unit) : S obs := m ;;; sret ObUnit.
  Definition sbool (m : S bool) : S obs := b <-- m ;;; sret (ObBool b).
  Definition sval (m : S rep) : S obs := v <-- m ;;; sret (ObVal v).
  Definition s_has (i : loc) : S bool :=
    o <-- contents i ;;; sret (match o with Some _ => true | None => false end).

  Definition sstep (o : op W) : S obs :=
    match o with
    | ODefault i | ONullopt i => sunit (s_new i None)
    | OInPlace i n => sunit (fresh i ;;; v <-- sinit n ;;; become i (Some v))
    | OCopyCtor i j => sunit (s_ctor_from (scopy j) i j)
    | OMoveCtor i j => sunit (s_ctor_from (smove j) i j)
    | ODtor i => sunit (s_dtor i)
    | OAssignNull i | OReset i => sunit (s_clear i)
    | OAssign i a => sunit (s_assign i a)
    | OCopyAssign i j => sunit (s_copy_assign i j)
    | OMoveAssign i j => sunit (s_move_assign i j)
    | OEmplace i n => sunit (s_emplace i n)
    | OSwap i j => sunit (s_swap i j)
    | OStdSwap i j k => sunit (s_std_swap i j k)
    | OHasValue i | OBool i => sbool (s_has i)
    | OAccess k i c f => sval (s_access k i c f)
    | OValueOrCopy i d => sval (s_value_or (scopy i) i d)
    | OValueOrMove i d => sval (s_value_or (smove i) i d)
    | OAndThen k i c f => sunit (s_and_then k i c f)
    | OTransform k i c f _ => sunit (s_transform k i c f)
    | OOrElse k i mv f => sunit (s_or_else k i mv f)
    | OCompare _ c r L R => sbool (s_compare c r L R)
    | OThreeWay g c L R => o <-- s_three g c L R ;;; sret (ObOrd o)
    | OHash h i => x <-- s_hash h i ;;; sret (ObHash x)
    | OVarNew i v => sunit (fresh i ;;; if is_value i v then sset i (Some (SVar v)) else sundef)
    | OVarDrop i =>
        sunit (fun s => match objs s i with
                        | Some (SVar v) => (sdestroy i v ;;; sset i None) s
                        | _ => (SUndef, s)
                        end)
    end.

  (** Observations of a whole history; [None] if some call is undefined. *)
  Fixpoint srun (p : list (op W)) (s : sstate W) : option (list obs) * sstate W :=
    match p with
    | [] => (Some [], s)
    | o :: p' =>
        match sstep o s with
        | (SOk x, s') =>
            let (r, s'') := srun p' s' in (option_map (cons x) r, s'')
        | (SThrow e, s') =>
            let (r, s'') := srun p' s' in (option_map (cons (ObThrow e)) r, s'')
        | (SUndef, s') => (None, s')
        end
    end.

  Definition sinit_state (w : W) : sstate W := MkS (fun _ => None) w.
End Spec.
