(** * Smf: availability of the special member functions (C43)

    The chain of base classes of optional.h:916-1382 and 1391-1460, 2195-2220 declares,
    defaults or deletes copy and move operations depending on the payload's traits.  This
    file contains the rules of C++ for such declarations, the chain itself, and the
    comparison with the standard's specification of std::optional. *)

From Coq Require Import List Bool.
Import ListNotations.

(** ** Rules of the language *)

(** A declaration of a special member function in a class. *)
Inductive decl : Type :=
| NotDeclared
| Deleted
| Defaulted
| Provided (nothrow : bool).   (* with a body *)
Record class_decl : Type := MkClass {
  d_cctor : decl; d_mctor : decl; d_cassign : decl; d_massign : decl }.

(** What overload resolution finds: nothing, a deleted function, a function.  [triv]: the
    function is trivial. *)
Inductive member : Type := Absent | Unusable | Usable (nothrow triv : bool).
Record class_members : Type := MkMembers {
  m_cctor : member; m_mctor : member; m_cassign : member; m_massign : member }.

(** Copying from an rvalue: the move operation is selected if there is one, else the
    copy operation. *)
Definition from_rvalue (mv cp : member) : member := match mv with Absent => cp | _ => mv end.

(** A defaulted copy operation uses the base's; it is deleted if that is not usable. *)
Definition defaulted_copy (base_cp : member) : member :=
  match base_cp with Usable n t => Usable n t | _ => Unusable end.
(** A defaulted move operation uses what the base offers for rvalues.  A defaulted move
    operation that is defined as deleted is ignored by overload resolution. *)
Definition defaulted_move (base_mv base_cp : member) : member :=
  match from_rvalue base_mv base_cp with Usable n t => Usable n t | _ => Absent end.

Definition declares_move (d : class_decl) : bool :=
  match d_mctor d, d_massign d with NotDeclared, NotDeclared => false | _, _ => true end.

(** The members of a class with one base class and no other members (or, at the bottom,
    without usable members of its own; then [b] is irrelevant).  A copy operation that is
    not declared is implicitly deleted if the class declares a move operation and
    otherwise defaulted; a move operation that is not declared does not exist (all
    classes of the chain declare some of the others). *)
Definition members_of (d : class_decl) (b : class_members) : class_members :=
  let copy dc base_cp :=
    match dc with
    | Provided n => Usable n false
    | Deleted => Unusable
    | Defaulted => defaulted_copy base_cp
    | NotDeclared => if declares_move d then Unusable else defaulted_copy base_cp
    end in
  let move dm base_mv base_cp :=
    match dm with
    | Provided n => Usable n false
    | Deleted => Unusable
    | Defaulted => defaulted_move base_mv base_cp
    | NotDeclared => Absent
    end in
  MkMembers (copy (d_cctor d) (m_cctor b))
            (move (d_mctor d) (m_mctor b) (m_cctor b))
            (copy (d_cassign d) (m_cassign b))
            (move (d_massign d) (m_massign b) (m_cassign b)).

(** ** The library *)

(** The payload's traits. *)
Record traits : Type := MkTraits {
  t_cc : bool;   (* is_copy_constructible *)
  t_mc : bool;   (* is_move_constructible *)
  t_ca : bool;   (* is_copy_assignable *)
  t_ma : bool;   (* is_move_assignable *)
  t_nmc : bool;  (* is_nothrow_move_constructible *)
  t_nma : bool   (* is_nothrow_move_assignable *)
}.

(** StorageBase (optional.h:985-991). *)
Definition storage_base : class_decl := MkClass Deleted Deleted Deleted Deleted.
(** MoveConstructionBase (optional.h:1164-1208). *)
Definition move_construction_base (t : traits) : class_decl :=
  if t_mc t then MkClass Defaulted (Provided (t_nmc t)) NotDeclared NotDeclared
  else MkClass Defaulted Deleted NotDeclared NotDeclared.
(** CopyConstructionBase (optional.h:1219-1263). *)
Definition copy_construction_base (t : traits) : class_decl :=
  if t_cc t then MkClass (Provided false) Defaulted NotDeclared NotDeclared
  else MkClass Deleted Defaulted NotDeclared NotDeclared.
(** MoveAssignmentBase (optional.h:1275-1326). *)
Definition move_assignment_base (t : traits) : class_decl :=
  if t_mc t && t_ma t
  then MkClass Defaulted Defaulted Defaulted (Provided (t_nma t && t_nmc t))
  else MkClass Defaulted Defaulted Defaulted Deleted.
(** CopyAssignmentBase (optional.h:1338-1382). *)
Definition copy_assignment_base (t : traits) : class_decl :=
  if t_cc t && t_ca t
  then MkClass Defaulted Defaulted (Provided false) Defaulted
  else MkClass Defaulted Defaulted Deleted Defaulted.
(** TinyOptionalImpl (optional.h:1442-1447) and optional (optional.h:2209-2214). *)
Definition all_defaulted : class_decl := MkClass Defaulted Defaulted Defaulted Defaulted.

Definition chain (t : traits) : list class_decl :=
  [storage_base; move_construction_base t; copy_construction_base t;
   move_assignment_base t; copy_assignment_base t; all_defaulted].
Definition nothing : class_members := MkMembers Absent Absent Absent Absent.
Definition members (ds : list class_decl) : class_members :=
  fold_left (fun b d => members_of d b) ds nothing.
(** TinyOptionalImpl (optional_sentinel_via_type, optional_inplace, ...), optional, and
    any class derived from it [k] times without declaring anything different. *)
Definition impl_members (t : traits) : class_members := members (chain t).
Definition optional_members (t : traits) (k : nat) : class_members :=
  members (chain t ++ repeat all_defaulted (S k)).

(** ** The four expressions *)
(** [optional(l)], [optional(std::move(l))], [l = l2], [l = std::move(l2)]: do they
    compile (is_copy_constructible, ... of the optional), are they noexcept? *)
Definition compiles (m : member) : bool := match m with Usable _ _ => true | _ => false end.
Definition nothrow (m : member) : bool := match m with Usable n _ => n | _ => false end.
Definition trivial (m : member) : bool := match m with Usable _ t => t | _ => false end.
Definition copy_construct (c : class_members) : member := m_cctor c.
Definition move_construct (c : class_members) : member := from_rvalue (m_mctor c) (m_cctor c).
Definition copy_assign (c : class_members) : member := m_cassign c.
Definition move_assign (c : class_members) : member := from_rvalue (m_massign c) (m_cassign c).

(** ** The standard *)

(** [optional.ctor], [optional.assign] (N4861): the copy constructor is deleted unless
    is_copy_constructible; the move constructor does not participate unless
    is_move_constructible; the copy assignment is deleted unless is_copy_constructible and
    is_copy_assignable; the move assignment does not participate unless
    is_move_constructible and is_move_assignable; noexcept as specified there.  So an
    rvalue is copied if it cannot be moved. *)
Definition std_copy_construct (t : traits) : bool := t_cc t.
Definition std_move_construct (t : traits) : bool := t_mc t || t_cc t.
Definition std_nothrow_move_construct (t : traits) : bool := t_mc t && t_nmc t.
Definition std_copy_assign (t : traits) : bool := t_cc t && t_ca t.
Definition std_move_assign (t : traits) : bool := (t_mc t && t_ma t) || (t_cc t && t_ca t).
Definition std_nothrow_move_assign (t : traits) : bool := t_mc t && t_ma t && t_nmc t && t_nma t.

(** ** C43 *)

Lemma defaulted_stable c k :
  (forall m, In m [m_cctor c; m_cassign c] -> m <> Absent) ->
  (m_mctor c <> Unusable) -> (m_massign c <> Unusable) ->
  let c' := fold_left (fun b d => members_of d b) (repeat all_defaulted k) c in
  copy_construct c' = copy_construct c /\ move_construct c' = move_construct c /\
  copy_assign c' = copy_assign c /\ move_assign c' = move_assign c.
Proof.
  revert c. induction k as [|k IH]; intros c H1 H2 H3; cbn; [auto|].
  destruct c as [cc mc ca ma]. cbn in *.
  assert (cc <> Absent) by (apply H1; auto). assert (ca <> Absent) by (apply H1; auto).
  specialize (IH (members_of all_defaulted (MkMembers cc mc ca ma))). cbn in IH.
  edestruct IH as (E1 & E2 & E3 & E4).
  - intros m [<-|[<-|[]]]; [destruct cc|destruct ca]; cbn; congruence.
  - destruct mc, cc; cbn; congruence.
  - destruct ma, ca; cbn; congruence.
  - rewrite E1, E2, E3, E4. unfold copy_construct, move_construct, copy_assign, move_assign. cbn.
    destruct cc, mc, ca, ma; cbn; repeat split; congruence.
Qed.

(** Both the implementation class and the class optional (and classes derived from it in
    the same way, to any depth) offer exactly what std::optional offers, with the same
    noexcept specifications, for every combination of traits. *)
Theorem C43_as_std_optional :
  forall t c, (c = impl_members t \/ exists k, c = optional_members t k) ->
    compiles (copy_construct c) = std_copy_construct t /\
    compiles (move_construct c) = std_move_construct t /\
    compiles (copy_assign c) = std_copy_assign t /\
    compiles (move_assign c) = std_move_assign t /\
    nothrow (copy_construct c) = false /\
    nothrow (move_construct c) = std_nothrow_move_construct t /\
    nothrow (copy_assign c) = false /\
    nothrow (move_assign c) = std_nothrow_move_assign t.
Proof.
  intros t c H.
  assert (A : let c := impl_members t in
    compiles (copy_construct c) = std_copy_construct t /\
    compiles (move_construct c) = std_move_construct t /\
    compiles (copy_assign c) = std_copy_assign t /\
    compiles (move_assign c) = std_move_assign t /\
    nothrow (copy_construct c) = false /\
    nothrow (move_construct c) = std_nothrow_move_construct t /\
    nothrow (copy_assign c) = false /\
    nothrow (move_assign c) = std_nothrow_move_assign t).
  { destruct t as [[] [] [] [] [] []]; cbn; repeat split. }
  destruct H as [->|(k & ->)]; [exact A|].
  unfold optional_members, members. rewrite fold_left_app. fold (members (chain t)).
  fold (impl_members t).
  destruct (defaulted_stable (impl_members t) (S k)) as (E1 & E2 & E3 & E4).
  1-3: destruct t as [[] [] [] [] [] []]; cbn;
       first [intros m [<-|[<-|[]]]; discriminate|discriminate].
  rewrite E1, E2, E3, E4. exact A.
Qed.

(** An rvalue optional is moved if the payload can be moved, and else copied; it never
    selects a deleted function where the standard selects the copy. *)
Theorem C43_fallback_to_copy :
  forall t c, (c = impl_members t \/ exists k, c = optional_members t k) ->
    (t_mc t = false -> move_construct c = copy_construct c) /\
    (t_mc t && t_ma t = false -> move_assign c = copy_assign c).
Proof.
  intros t c H.
  assert (A : let c := impl_members t in
    (t_mc t = false -> move_construct c = copy_construct c) /\
    (t_mc t && t_ma t = false -> move_assign c = copy_assign c)).
  { destruct t as [[] [] [] [] [] []]; cbn; split; congruence. }
  destruct H as [->|(k & ->)]; [exact A|].
  unfold optional_members, members. rewrite fold_left_app. fold (members (chain t)).
  fold (impl_members t).
  destruct (defaulted_stable (impl_members t) (S k)) as (E1 & E2 & E3 & E4).
  1-3: destruct t as [[] [] [] [] [] []]; cbn;
       first [intros m [<-|[<-|[]]]; discriminate|discriminate].
  rewrite E1, E2, E3, E4. exact A.
Qed.

(** What the standard demands in addition and the library does not offer (the TODOs at
    optional.h:1178, 1231, 1288, 1351): none of the operations is trivial, whatever the
    payload. *)
Theorem C43_never_trivial :
  forall t c, (c = impl_members t \/ exists k, c = optional_members t k) ->
    trivial (copy_construct c) = false /\ trivial (move_construct c) = false /\
    trivial (copy_assign c) = false /\ trivial (move_assign c) = false.
Proof.
  intros t c H.
  assert (A : let c := impl_members t in
    trivial (copy_construct c) = false /\ trivial (move_construct c) = false /\
    trivial (copy_assign c) = false /\ trivial (move_assign c) = false).
  { destruct t as [[] [] [] [] [] []]; cbn; repeat split. }
  destruct H as [->|(k & ->)]; [exact A|].
  unfold optional_members, members. rewrite fold_left_app. fold (members (chain t)).
  fold (impl_members t).
  destruct (defaulted_stable (impl_members t) (S k)) as (E1 & E2 & E3 & E4).
  1-3: destruct t as [[] [] [] [] [] []]; cbn;
       first [intros m [<-|[<-|[]]]; discriminate|discriminate].
  rewrite E1, E2, E3, E4. exact A.
Qed.

(** std::unique_ptr, a class that can only be copied, an immovable class. *)
Example C43_example :
  let unique := MkTraits false true false true true true in
  let copy_only := MkTraits true false true false false false in
  let immovable := MkTraits false false false false false false in
  move_construct (optional_members unique 0) = Usable true false /\
  copy_construct (optional_members unique 0) = Unusable /\
  move_assign (optional_members copy_only 0) = Usable false false /\
  move_construct (optional_members immovable 0) = Unusable.
Proof. repeat split. Qed.
