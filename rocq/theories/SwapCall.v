(** * SwapCall: which swap a swap expression calls, and what the generic one does (C54)

    The library declares a function template [swap] for [TinyOptionalImpl<D, F>]
    (optional.h:1842-1855).  The class tiny::optional is derived from TinyOptionalImpl
    (optional.h:2195-2198), so for its objects that function needs a derived-to-base
    conversion, and the standard library's generic [std::swap<T>], an exact match, is the
    better candidate whenever both are visible.  This file computes the choice and
    states what the generic function does to two optionals.

    [Optional.swap] is what the library's function and the member function do;
    [Optional.std_swap] is the body of the generic function. *)

From Coq Require Import List NArith ZArith Bool Arith Lia.
From Verif Require Import Cells CellsFacts Machine Optional Program Spec Laws Refine Effects Contract
  Sample Histories ExampleTac SpecTac Exceptions Values Smf Leaks Frame Bits Manip.
Import ListNotations.

(** ** The expression *)

(** The payload's traits; [t_sw], [t_nsw]: is_swappable, is_nothrow_swappable. *)
Record swap_traits : Type := MkSwapTraits { t_smf : traits; t_sw : bool; t_nsw : bool }.

(** The static type of an operand (an lvalue): which class it is, which TinyOptionalImpl
    is it or one of its bases, and the number of derivations between the two: 0 for
    TinyOptionalImpl itself (optional_inplace and optional_sentinel_via_type are aliases
    of it, optional.h:2154-2157, 2318-2319), 1 for tiny::optional (and optional_aip), more
    for classes derived from tiny::optional. *)
Record sw_type : Type := MkSwType { y_class : nat; y_impl : nat; y_depth : nat }.

(** What name lookup finds: the generic std::swap (through a using-declaration, because
    the call is qualified, or because std is an associated namespace), the library's
    swap (argument dependent lookup, also through the base classes). *)
Record lookup : Type := MkLookup { l_std : bool; l_adl : bool }.
(** [using std::swap; swap(a, b);], as in std::is_swappable and in the member swap of an
    optional of optionals (optional.h:1662-1663). *)
Definition using_std : lookup := MkLookup true true.
(** [swap(a, b);] without a using-declaration. *)
Definition adl_only : lookup := MkLookup false true.
(** [std::swap(a, b);] *)
Definition qualified : lookup := MkLookup true false.

Inductive sfn : Type := FStd | FTiny.

(** The special member functions of a class [depth] derivations away (Smf.v). *)
Definition members_at (t : traits) (depth : nat) : class_members :=
  match depth with 0 => impl_members t | Datatypes.S k => optional_members t k end.

(** Template argument deduction and constraints.  [std::swap(T &, T &)]: both operands of
    one type that is move constructible and move assignable ([utility.swap]).  The
    library's: both with the same TinyOptionalImpl as class or base class; the payload
    is move constructible and swappable (optional.h:1845-1849). *)
Definition viable (l : lookup) (t : swap_traits) (a b : sw_type) (f : sfn) : bool :=
  match f with
  | FStd =>
      l_std l && Nat.eqb (y_class a) (y_class b) &&
      compiles (move_construct (members_at (t_smf t) (y_depth a))) &&
      compiles (move_assign (members_at (t_smf t) (y_depth a)))
  | FTiny => l_adl l && Nat.eqb (y_impl a) (y_impl b) && t_mc (t_smf t) && t_sw t
  end.
(** The conversion of an operand to the parameter: [T &] binds directly with identity;
    [TinyOptionalImpl<D, F> &] with identity or a derived-to-base conversion, which is
    worse the longer it is. *)
Definition conversion (f : sfn) (y : sw_type) : nat :=
  match f with FStd => 0 | FTiny => y_depth y end.
(** Partial ordering of the templates: [TinyOptionalImpl<D, F> &] is more specialized
    than [T &]. *)
Definition more_specialized (f g : sfn) : bool :=
  match f, g with FTiny, FStd => true | _, _ => false end.
(** [f] is a better candidate than [g] ([over.match.best]): no conversion is worse, and
    one is better or the template is more specialized. *)
Definition better (a b : sw_type) (f g : sfn) : bool :=
  Nat.leb (conversion f a) (conversion g a) && Nat.leb (conversion f b) (conversion g b) &&
  (Nat.ltb (conversion f a) (conversion g a) || Nat.ltb (conversion f b) (conversion g b) ||
   (Nat.eqb (conversion f a) (conversion g a) && Nat.eqb (conversion f b) (conversion g b) &&
    more_specialized f g)).
Definition sfn_eqb (f g : sfn) : bool :=
  match f, g with FStd, FStd | FTiny, FTiny => true | _, _ => false end.
(** The function called: the viable candidate that is better than all the others; [None]:
    no viable one, or ambiguous. *)
Definition called (l : lookup) (t : swap_traits) (a b : sw_type) : option sfn :=
  let cs := filter (viable l t a b) [FStd; FTiny] in
  find (fun f => forallb (fun g => sfn_eqb f g || better a b f g) cs) cs.

(** Is the expression noexcept?  The generic function: [utility.swap]; the library's:
    that of the member function (optional.h:1656-1657, 1850). *)
Definition call_noexcept (l : lookup) (t : swap_traits) (a b : sw_type) : bool :=
  match called l t a b with
  | None => false
  | Some FStd =>
      nothrow (move_construct (members_at (t_smf t) (y_depth a))) &&
      nothrow (move_assign (members_at (t_smf t) (y_depth a)))
  | Some FTiny => t_nmc (t_smf t) && t_nsw t
  end.

(** ** std::optional *)

(** The same expression with two std::optional<T>: std::swap for optionals participates if
    T is move constructible and swappable ([optional.specalg]); it is more specialized
    than the generic one.  [del]: the standard library declares a deleted overload for the
    other types T (libstdc++); the others then fall back to the generic one.  The result:
    [None]: ill-formed; [Some true]: std::optional's own swap; [Some false]: the generic
    one. *)
Definition std_movable (t : traits) : bool := std_move_construct t && std_move_assign t.
Definition std_called (del : bool) (t : swap_traits) : option bool :=
  if t_mc (t_smf t) && t_sw t then Some true
  else if del then None
  else if std_movable (t_smf t) then Some false else None.
Definition std_noexcept (del : bool) (t : swap_traits) : bool :=
  match std_called del t with
  | None => false
  | Some true => t_nmc (t_smf t) && t_nsw t
  | Some false => std_nothrow_move_construct (t_smf t) && std_nothrow_move_assign (t_smf t)
  end.

(** ** C54: the choice *)

Lemma members_at_std t d :
  compiles (move_construct (members_at t d)) = std_move_construct t /\
  compiles (move_assign (members_at t d)) = std_move_assign t /\
  nothrow (move_construct (members_at t d)) = std_nothrow_move_construct t /\
  nothrow (move_assign (members_at t d)) = std_nothrow_move_assign t.
Proof.
  destruct (C43_as_std_optional t (members_at t d)) as (_ & H2 & _ & H4 & _ & H6 & _ & H8).
  - destruct d as [|k]; [left; reflexivity|right; exists k; reflexivity].
  - auto.
Qed.

(** Two optionals of one type.  Everything is decided by: is it TinyOptionalImpl itself,
    what is visible, can the optional be moved, can the payload be moved and swapped. *)
Theorem C54_function_called :
  forall l t y,
    let std_ok := l_std l && std_movable (t_smf t) in
    let tiny_ok := l_adl l && t_mc (t_smf t) && t_sw t in
    called l t y y =
      match y_depth y with
      | 0 => if tiny_ok then Some FTiny else if std_ok then Some FStd else None
      | Datatypes.S _ => if std_ok then Some FStd else if tiny_ok then Some FTiny else None
      end.
Proof.
  intros l t y. cbn zeta. unfold called, viable, better, std_movable. rewrite !Nat.eqb_refl, !andb_true_r.
  destruct (members_at_std (t_smf t) (y_depth y)) as (-> & -> & _ & _).
  destruct (y_depth y) as [|d] eqn:Hd; cbn [filter];
    destruct (l_std l), (l_adl l), (std_move_construct (t_smf t)), (std_move_assign (t_smf t)),
      (t_mc (t_smf t)), (t_sw t); cbn; rewrite ?Hd; cbn; reflexivity.
Qed.

(** So for tiny::optional and classes derived from it, [using std::swap; swap(a, b)]
    calls the library's function only if the optional cannot be moved; std::optional
    calls its own whenever the payload can be moved and swapped. *)
Theorem C54_library_swap_bypassed :
  forall t y d del, y_depth y = Datatypes.S d -> std_movable (t_smf t) = true ->
    called using_std t y y = Some FStd /\
    (t_mc (t_smf t) = true -> t_sw t = true -> std_called del t = Some true).
Proof.
  intros t y d del Hd Hm. rewrite C54_function_called, Hd, Hm. cbn. split; [reflexivity|].
  unfold std_called. intros -> ->. reflexivity.
Qed.
(** For the aliases of TinyOptionalImpl the choice is that of std::optional, if the
    standard library does not delete the overload. *)
Theorem C54_alias_as_std :
  forall t y, y_depth y = 0 ->
    called using_std t y y =
      option_map (fun own : bool => if own then FTiny else FStd) (std_called false t).
Proof.
  intros t y Hd. rewrite C54_function_called, Hd. unfold std_called. cbn.
  destruct (t_mc (t_smf t) && t_sw t), (std_movable (t_smf t)); reflexivity.
Qed.
(** [std::swap(a, b)] is never the library's function. *)
Theorem C54_qualified :
  forall t a b, called qualified t a b <> Some FTiny.
Proof.
  intros t a b. unfold called. cbn [filter viable qualified l_adl l_std andb].
  destruct (Nat.eqb (y_class a) (y_class b) && _ && _); cbn; discriminate.
Qed.
(** Operands of different classes with a common TinyOptionalImpl (tiny::optional and a
    class derived from it): only the library's function is viable. *)
Theorem C54_mixed_classes :
  forall l t a b, y_class a <> y_class b -> y_impl a = y_impl b ->
    called l t a b = if l_adl l && t_mc (t_smf t) && t_sw t then Some FTiny else None.
Proof.
  intros l t a b Hc Hi. unfold called, viable. cbn [filter].
  rewrite (proj2 (Nat.eqb_neq _ _) Hc), Hi, Nat.eqb_refl, !andb_false_r, !andb_true_r. cbn.
  destruct (l_adl l && t_mc (t_smf t) && t_sw t); reflexivity.
Qed.

(** is_swappable of the optional: as for std::optional without a deleted overload; with
    it, there are more swappable optionals. *)
Definition is_swappable (t : swap_traits) (y : sw_type) : bool :=
  match called using_std t y y with Some _ => true | None => false end.
Definition std_swappable (del : bool) (t : swap_traits) : bool :=
  match std_called del t with Some _ => true | None => false end.
Theorem C54_swappable :
  forall t y,
    is_swappable t y = std_swappable false t /\
    (std_swappable true t = true -> is_swappable t y = true).
Proof.
  intros t y. unfold is_swappable, std_swappable, std_called. rewrite C54_function_called. cbn.
  destruct (y_depth y), (t_mc (t_smf t) && t_sw t), (std_movable (t_smf t)); cbn; auto.
Qed.
Theorem C54_swappable_deleted_refuted :
  exists t y, is_swappable t y = true /\ std_swappable true t = false.
Proof.
  exists (MkSwapTraits (MkTraits true true true true true true) false false), (MkSwType 0 0 1).
  split; reflexivity.
Qed.

(** noexcept, where both have the payload's moves and swap: the generic function does not
    ask for the payload's swap, the specified one not for the payload's assignment. *)
Theorem C54_noexcept :
  forall t y d del, y_depth y = Datatypes.S d ->
    t_mc (t_smf t) = true -> t_ma (t_smf t) = true -> t_sw t = true ->
    call_noexcept using_std t y y = t_nmc (t_smf t) && t_nma (t_smf t) /\
    std_noexcept del t = t_nmc (t_smf t) && t_nsw t.
Proof.
  intros t y d del Hd Hc Ha Hs. unfold call_noexcept. rewrite C54_function_called, Hd.
  unfold std_noexcept, std_called, std_movable, std_move_construct, std_move_assign. rewrite Hc, Ha, Hs. cbn [andb orb].
  split; [|reflexivity]. cbn [using_std l_std andb].
  destruct (members_at_std (t_smf t) (Datatypes.S d)) as (_ & _ & -> & ->).
  unfold std_nothrow_move_construct, std_nothrow_move_assign. rewrite Hc, Ha.
  destruct (t_nmc (t_smf t)), (t_nma (t_smf t)); reflexivity.
Qed.
(** The aliases of TinyOptionalImpl promise exactly what std::optional promises (if the
    standard library does not delete the overload); and where only the library's function
    can be called, it promises what the standard specifies for std::optional's. *)
Theorem C54_noexcept_as_std :
  forall t,
    (forall y, y_depth y = 0 -> call_noexcept using_std t y y = std_noexcept false t) /\
    (forall a b, y_class a <> y_class b -> y_impl a = y_impl b -> t_mc (t_smf t) = true -> t_sw t = true ->
       call_noexcept using_std t a b = std_noexcept false t).
Proof.
  intros t. unfold call_noexcept, std_noexcept. split.
  - intros y Hd. rewrite (C54_alias_as_std t y Hd).
    destruct (members_at_std (t_smf t) (y_depth y)) as (_ & _ & -> & ->).
    destruct (std_called false t) as [[|]|]; reflexivity.
  - intros a b Hc Hi Hm Hs. rewrite (C54_mixed_classes _ _ _ _ Hc Hi), Hm, Hs. unfold std_called.
    rewrite Hm, Hs. reflexivity.
Qed.
Theorem C54_noexcept_refuted :
  exists t1 t2 y, forall del,
    (* std::optional promises what tiny::optional does not *)
    (call_noexcept using_std t1 y y = false /\ std_noexcept del t1 = true) /\
    (* and conversely *)
    (call_noexcept using_std t2 y y = true /\ std_noexcept del t2 = false).
Proof.
  exists (MkSwapTraits (MkTraits true true true true true false) true true),
         (MkSwapTraits (MkTraits true true true true true true) true false), (MkSwType 0 0 1).
  intros del. repeat split.
Qed.

(** tiny::optional<std::string>, a class derived from it, optional_inplace, with a payload
    that can be moved and swapped; and tiny::optional with a payload that can be
    swapped but not assigned. *)
Example C54_choice_example :
  let str := MkSwapTraits (MkTraits true true true true true true) true true in
  let noassign := MkSwapTraits (MkTraits true true false false true false) true true in
  let opt := MkSwType 0 0 1 in let sub := MkSwType 1 0 2 in let alias := MkSwType 2 1 0 in
  called using_std str opt opt = Some FStd /\
  called using_std str sub sub = Some FStd /\
  called using_std str alias alias = Some FTiny /\
  called adl_only str opt opt = Some FTiny /\
  called qualified str alias alias = Some FStd /\
  called using_std str opt sub = Some FTiny /\
  called using_std noassign opt opt = Some FTiny /\
  called qualified noassign opt opt = None /\
  call_noexcept using_std str alias alias = true /\ call_noexcept using_std str opt sub = true.
Proof. repeat split. Qed.

(** ** C54: the outcome *)

(** The generic swap of two different optionals, from the operations of the payload. *)
Theorem C54_std_swap_outcome :
  forall W (E : env W) w p s i j k x y r s',
    env_ok E -> call_after E w p s (OStdSwap i j k) r s' -> i <> j ->
    opt_after E w p i x -> opt_after E w p j y ->
    mem s' k = None /\
    let P := ops E i in
    let ends (res : res unit) (a b : option rep) (w' : W) :=
      r = outcome res /\ peek E i s' = Some a /\ peek E j s' = Some b /\ world s' = w' in
    match x, y with
    | None, None => ends (ROk tt) None None (world s)
    | None, Some b =>   (* one move construction, the old value is destroyed *)
        let '((res, b1), w1) := po_move P b (world s) in
        match res with
        | RThrow e => ends (RThrow e) None (Some b1) w1
        | ROk a => ends (ROk tt) (Some a) None (po_dtor P b1 w1)
        end
    | Some a, None =>   (* two move constructions through the temporary *)
        let '((res, a1), w1) := po_move P a (world s) in
        match res with
        | RThrow e => ends (RThrow e) (Some a1) None w1
        | ROk v =>
            let '((res2, v1), w2) := po_move P v (po_dtor P a1 w1) in
            match res2 with
            | RThrow e => ends (RThrow e) None None (po_dtor P v1 w2)
            | ROk b => ends (ROk tt) None (Some b) (po_dtor P v1 w2)
            end
        end
    | Some a, Some b =>   (* one move construction, two move assignments *)
        let '((res, a1), w1) := po_move P a (world s) in
        match res with
        | RThrow e => ends (RThrow e) (Some a1) (Some b) w1
        | ROk v =>
            let '((res2, (a2, b2)), w2) := po_massign P a1 b w1 in
            match res2 with
            | RThrow e => ends (RThrow e) (Some a2) (Some b2) (po_dtor P v w2)
            | ROk _ =>
                let '((res3, (b3, v3)), w3) := po_massign P b2 v w2 in
                ends res3 (Some a2) (Some b3) (po_dtor P v3 w3)
            end
        end
    end.
Proof.
  intros W E w p s i j k x y r s' HE C N Hx Hy.
  destruct (call_spec_at E HE _ _ _ _ _ _ C) as (xs & t & t' & sr & Ht & R & Hs & R' & Hr).
  pose proof (opt_after_at E _ _ _ _ _ _ Hx Ht) as Hi.
  pose proof (opt_after_at E _ _ _ _ _ _ Hy Ht) as Hj.
  rewrite (rel_world E _ _ R), (rel_world E _ _ R').
  assert (ND : sr <> SUndef) by (intros ->; contradiction).
  destruct (std_swap_step E _ _ _ _ _ _ Hs ND) as (K1 & K2 & _).
  split; [exact (rel_fresh E _ _ _ R' K2)|]. clear K2.
  assert (N' : j <> i) by congruence.
  assert (Nik : i <> k) by congruence. assert (Njk : j <> k) by congruence.
  assert (Nki : k <> i) by congruence. assert (Nkj : k <> j) by congruence.
  cbn [sstep] in Hs. unfold s_std_swap, s_on_throw in Hs. sunfold Hs.
  destruct (Nat.eqb (e_tid E i) (e_tid E j)) eqn:Eij; [|sdone Hs Hr].
  assert (Hops : ops E j = ops E i).
  { unfold ops, ty. rewrite (proj1 (Nat.eqb_eq _ _) Eij). reflexivity. }
  destruct (Nat.eqb (e_tid E k) (e_tid E i)) eqn:Eki; [|seval Hs; sdone Hs Hr].
  assert (Hopk : ops E k = ops E i).
  { unfold ops, ty. rewrite (proj1 (Nat.eqb_eq _ _) Eki). reflexivity. }
  assert (Ejk : Nat.eqb (e_tid E j) (e_tid E k) = true).
  { apply Nat.eqb_eq. apply Nat.eqb_eq in Eij, Eki. congruence. }
  rewrite ?Hops, ?Hopk in Hs. seval Hs. cbn zeta.
  Ltac fin := match goal with Hs : (_, _) = (?sr, ?t'), Hr : match ?sr with _ => _ end, R' : rel _ _ _ ?t' |- _ =>
    injection Hs as <- <-; split; [exact Hr|]; split; [eapply peek_rel; [exact R'|]|
      split; [eapply peek_rel; [exact R'|]|reflexivity]]; cbn;
    repeat first [rewrite upd_same | rewrite upd_other by congruence]; congruence end.
  destruct x as [a|], y as [b|]; seval Hs.
  - destruct (po_move (ops E i) a (sworld t)) as [[res a1] w1]; seval Hs.
    destruct (storable E i a1); [|sdone Hs Hr]. seval Hs. destruct res as [v|e]; seval Hs; [|fin].
    destruct (storable E k v); [|sdone Hs Hr]. seval Hs.
    destruct (po_massign (ops E i) a1 b w1) as [[res2 [a2 b2]] w2]; seval Hs.
    destruct (storable E i a2); [|sdone Hs Hr]. seval Hs. destruct (storable E j b2); [|sdone Hs Hr]. seval Hs.
    destruct res2 as [[]|e2]; seval Hs; [|fin].
    destruct (po_massign (ops E i) b2 v w2) as [[res3 [b3 v3]] w3]; seval Hs.
    destruct (storable E j b3); [|sdone Hs Hr]. seval Hs. destruct (storable E k v3); [|sdone Hs Hr]. seval Hs.
    destruct res3 as [[]|e3]; seval Hs; fin.
  - destruct (po_move (ops E i) a (sworld t)) as [[res a1] w1]; seval Hs.
    destruct (storable E i a1); [|sdone Hs Hr]. seval Hs. destruct res as [v|e]; seval Hs; [|fin].
    destruct (storable E k v); [|sdone Hs Hr]. seval Hs.
    destruct (po_move (ops E i) v (po_dtor (ops E i) a1 w1)) as [[res2 v1] w2]; seval Hs.
    destruct (storable E k v1); [|sdone Hs Hr]. seval Hs.
    destruct res2 as [b|e2]; seval Hs; [|fin].
    destruct (storable E j b); [|sdone Hs Hr]. seval Hs. fin.
  - destruct (po_move (ops E i) b (sworld t)) as [[res b1] w1]; seval Hs.
    destruct (storable E j b1); [|sdone Hs Hr]. seval Hs. destruct res as [v|e]; seval Hs; [|fin].
    destruct (storable E i v); [|sdone Hs Hr]. seval Hs. fin.
  - fin.
Qed.

(** The generic swap of an optional with itself: also a self move assignment of the
    moved-from payload. *)
Theorem C54_std_swap_self :
  forall W (E : env W) w p s i k x r s',
    env_ok E -> call_after E w p s (OStdSwap i i k) r s' ->
    opt_after E w p i x ->
    mem s' k = None /\
    let P := ops E i in
    let ends (res : res unit) (a : option rep) (w' : W) := r = outcome res /\ peek E i s' = Some a /\ world s' = w' in
    match x with
    | None => ends (ROk tt) None (world s)
    | Some a =>
        let '((res, a1), w1) := po_move P a (world s) in
        match res with
        | RThrow e => ends (RThrow e) (Some a1) w1
        | ROk v =>
            let '((res2, a2), w2) := po_self_massign P a1 w1 in
            match res2 with
            | RThrow e => ends (RThrow e) (Some a2) (po_dtor P v w2)
            | ROk _ =>
                let '((res3, (a3, v3)), w3) := po_massign P a2 v w2 in
                ends res3 (Some a3) (po_dtor P v3 w3)
            end
        end
    end.
Proof.
  intros W E w p s i k x r s' HE C Hx.
  destruct (call_spec_at E HE _ _ _ _ _ _ C) as (xs & t & t' & sr & Ht & R & Hs & R' & Hr).
  pose proof (opt_after_at E _ _ _ _ _ _ Hx Ht) as Hi.
  rewrite (rel_world E _ _ R), (rel_world E _ _ R').
  assert (ND : sr <> SUndef) by (intros ->; contradiction).
  destruct (std_swap_step E _ _ _ _ _ _ Hs ND) as (K1 & K2 & _).
  split; [exact (rel_fresh E _ _ _ R' K2)|]. clear K2.
  assert (Nik : i <> k) by congruence. assert (Nki : k <> i) by congruence.
  cbn [sstep] in Hs. unfold s_std_swap, s_on_throw in Hs. sunfold Hs.
  destruct (Nat.eqb (e_tid E k) (e_tid E i)) eqn:Eki; [|seval Hs; sdone Hs Hr].
  assert (Hopk : ops E k = ops E i).
  { unfold ops, ty. rewrite (proj1 (Nat.eqb_eq _ _) Eki). reflexivity. }
  assert (Eik : Nat.eqb (e_tid E i) (e_tid E k) = true).
  { apply Nat.eqb_eq. apply Nat.eqb_eq in Eki. congruence. }
  rewrite ?Hopk in Hs. seval Hs. cbn zeta.
  Ltac fin1 := match goal with Hs : (_, _) = (?sr, ?t'), Hr : match ?sr with _ => _ end, R' : rel _ _ _ ?t' |- _ =>
    injection Hs as <- <-; split; [exact Hr|]; split; [eapply peek_rel; [exact R'|]|reflexivity]; cbn;
    repeat first [rewrite upd_same | rewrite upd_other by congruence]; congruence end.
  destruct x as [a|]; seval Hs; [|fin1].
  destruct (po_move (ops E i) a (sworld t)) as [[res a1] w1]; seval Hs.
  destruct (storable E i a1); [|sdone Hs Hr]. seval Hs. destruct res as [v|e]; seval Hs; [|fin1].
  destruct (storable E k v); [|sdone Hs Hr]. seval Hs.
  destruct (po_self_massign (ops E i) a1 w1) as [[res2 a2] w2]; seval Hs.
  destruct (storable E i a2); [|sdone Hs Hr]. seval Hs.
  destruct res2 as [[]|e2]; seval Hs; [|fin1].
  destruct (po_massign (ops E i) a2 v w2) as [[res3 [a3 v3]] w3]; seval Hs.
  destruct (storable E i a3); [|sdone Hs Hr]. seval Hs. destruct (storable E k v3); [|sdone Hs Hr]. seval Hs.
  destruct res3 as [[]|e3]; seval Hs; fin1.
Qed.

(** If it throws, both are as engaged as before, with one exception: the first was
    engaged, the second empty, and the move construction out of the temporary threw.
    Then both are empty. *)
Theorem C54_engagement_after_throw :
  forall W (E : env W) w p s i j k x y e s',
    env_ok E -> call_after E w p s (OStdSwap i j k) (Throw e) s' ->
    opt_after E w p i x -> opt_after E w p j y ->
    (has_value E i s' = (Ok (is_some x), s') /\ has_value E j s' = (Ok (is_some y), s')) \/
    (exists a v a1 v1 w1 w2,
       x = Some a /\ y = None /\
       po_move (ops E i) a (world s) = ((ROk v, a1), w1) /\
       po_move (ops E i) v (po_dtor (ops E i) a1 w1) = ((RThrow e, v1), w2) /\
       has_value E i s' = (Ok false, s') /\ has_value E j s' = (Ok false, s')).
Proof.
  intros W E w p s i j k x y e s' HE C Hx Hy.
  assert (V : forall l o, peek E l s' = Some o -> has_value E l s' = (Ok (is_some o), s')).
  { intros l o H. destruct (peek_has E _ _ _ H) as (s9 & H9).
    pose proof (has_value_same E _ _ _ _ H9) as ->. exact H9. }
  destruct (Nat.eq_dec i j) as [<-|N].
  - assert (y = x) as ->.
    { destruct Hx as (u1 & t1 & A1 & B1), Hy as (u2 & t2 & A2 & B2). congruence. }
    destruct (C54_std_swap_self W E w p s i k x _ s' HE C Hx) as (_ & H). cbn zeta in H. left.
    assert (G : exists o, peek E i s' = Some o /\ is_some o = is_some x).
    { destruct x as [a|]; [|destruct H as (? & H & _); eauto].
      destruct (po_move (ops E i) a (world s)) as [[[v|e1] a1] w1]; [|destruct H as (_ & H & _); eauto].
      destruct (po_self_massign (ops E i) a1 w1) as [[[u|e2] a2] w2]; [|destruct H as (_ & H & _); eauto].
      destruct (po_massign (ops E i) a2 v w2) as [[res3 [a3 v3]] w3]. destruct H as (_ & H & _). eauto. }
    destruct G as (o & G1 & G2). rewrite <- G2. split; apply V, G1.
  - destruct (C54_std_swap_outcome W E w p s i j k x y _ s' HE C N Hx Hy) as (_ & H). cbn zeta in H.
    assert (G : forall a b, peek E i s' = Some a /\ peek E j s' = Some b /\ True ->
                is_some a = is_some x -> is_some b = is_some y ->
                has_value E i s' = (Ok (is_some x), s') /\ has_value E j s' = (Ok (is_some y), s')).
    { intros a b (P1 & P2 & _) <- <-. split; apply V; assumption. }
    destruct x as [a|], y as [b|].
    + left. destruct (po_move (ops E i) a (world s)) as [[[v|e1] a1] w1].
      * destruct (po_massign (ops E i) a1 b w1) as [[[u|e2] [a2 b2]] w2].
        -- destruct (po_massign (ops E i) b2 v w2) as [[res3 [b3 v3]] w3].
           destruct H as (_ & P1 & P2 & _). eapply G; eauto.
        -- destruct H as (_ & P1 & P2 & _). eapply G; eauto.
      * destruct H as (_ & P1 & P2 & _). eapply G; eauto.
    + destruct (po_move (ops E i) a (world s)) as [[[v|e1] a1] w1] eqn:M1.
      * destruct (po_move (ops E i) v (po_dtor (ops E i) a1 w1)) as [[[u|e2] v1] w2] eqn:M2.
        -- destruct H as (H & _). discriminate.
        -- destruct H as (H & P1 & P2 & _). injection H as <-. right. exists a, v, a1, v1, w1, w2.
           repeat split; auto; [apply (V i _ P1)|apply (V j _ P2)].
      * left. destruct H as (_ & P1 & P2 & _). eapply G; eauto.
    + left. destruct (po_move (ops E i) b (world s)) as [[[v|e1] b1] w1].
      * destruct H as (H & _). discriminate.
      * destruct H as (_ & P1 & P2 & _). eapply G; eauto.
    + left. destruct H as (_ & P1 & P2 & _). eapply G; eauto.
Qed.

(** That exception exists, whereas the swap that std::optional specifies never changes
    which optionals are engaged when it throws (C13_throwing_swap). *)
Theorem C54_value_lost_refuted :
  exists (E : env sworld_t) w p s i j k e s' v,
    env_ok E /\
    opt_after E w p i (Some v) /\ opt_after E w p j None /\
    call_after E w p s (OStdSwap i j k) (Throw e) s' /\
    peek E i s' = Some None /\ peek E j s' = Some None /\
    (* while the member function keeps the value *)
    exists w2 s2 s2', call_after E w2 p s2 (OSwap i j) (Throw e) s2' /\
      has_value E i s2' = (Ok true, s2').
Proof.
  exists (sample true), (plan [None; None; Some 7]), [OInPlace 10 (mkP 1 2); ODefault 11].
  eexists _, 10, 11, 12, (UserExn 7), _, [Atom 1; Atom 2].
  split; [apply sample_ok|]. split; [ex_opt|]. split; [ex_opt|]. split; [ex_call|].
  split; [run_it|]. split; [run_it|].
  exists (plan [None; Some 7]). eexists _, _. split; [ex_call|run_it].
Qed.

(** Moving and move assigning transfer the value, without exceptions; nothing is assumed
    about the moved-from value, nor about the payload's swap. *)
Definition value_moving {W} (P : payops W) : Prop :=
  (forall v w, exists v' w', po_move P v w = ((ROk v, v'), w')) /\
  (forall d v w, exists v' w', po_massign P d v w = ((ROk tt, (v, v')), w')) /\
  (forall v w, exists v' w', po_self_massign P v w = ((ROk tt, v'), w')).

(** Then the generic function exchanges the contents; also with itself it keeps the
    value. *)
Theorem C54_std_swap_exchanges :
  forall W (E : env W) w p s i j k x y r s',
    env_ok E -> value_moving (ops E i) -> call_after E w p s (OStdSwap i j k) r s' ->
    opt_after E w p i x -> opt_after E w p j y ->
    r = Ok ObUnit /\ peek E i s' = Some y /\ peek E j s' = Some x /\
    mem s' k = None /\ forall l, l <> i -> l <> j -> l <> k -> mem s' l = mem s l.
Proof.
  intros W E w p s i j k x y r s' HE (Vm & Va & Vs) C Hx Hy.
  assert (Hloc : forall l, l <> i -> l <> j -> l <> k -> mem s' l = mem s l).
  { intros l Ni Nj Nk. destruct C as (_ & _ & Hst). pose proof (step_local E (OStdSwap i j k) s l) as L.
    rewrite Hst in L. apply L. cbn. intros [Hk|[Hk|[Hk|[]]]]; congruence. }
  destruct (Nat.eq_dec i j) as [<-|N].
  - assert (y = x) as ->.
    { destruct Hx as (u1 & t1 & A1 & B1), Hy as (u2 & t2 & A2 & B2). congruence. }
    destruct (C54_std_swap_self W E w p s i k x _ s' HE C Hx) as (H0 & H). cbn zeta in H.
    destruct x as [a|]; [|destruct H as (-> & H & _); auto].
    destruct (Vm a (world s)) as (a1 & w1 & M1). rewrite M1 in H.
    destruct (Vs a1 w1) as (a2 & w2 & M2). rewrite M2 in H.
    destruct (Va a2 a w2) as (v3 & w3 & M3). rewrite M3 in H. destruct H as (-> & H & _). auto.
  - destruct (C54_std_swap_outcome W E w p s i j k x y _ s' HE C N Hx Hy) as (H0 & H). cbn zeta in H.
    destruct x as [a|], y as [b|].
    + destruct (Vm a (world s)) as (a1 & w1 & M1). rewrite M1 in H.
      destruct (Va a1 b w1) as (b2 & w2 & M2). rewrite M2 in H.
      destruct (Va b2 a w2) as (v3 & w3 & M3). rewrite M3 in H. destruct H as (-> & P1 & P2 & _). auto.
    + destruct (Vm a (world s)) as (a1 & w1 & M1). rewrite M1 in H.
      destruct (Vm a (po_dtor (ops E i) a1 w1)) as (v1 & w2 & M2). rewrite M2 in H.
      destruct H as (-> & P1 & P2 & _). auto.
    + destruct (Vm b (world s)) as (b1 & w1 & M1). rewrite M1 in H. destruct H as (-> & P1 & P2 & _). auto.
    + destruct H as (-> & P1 & P2 & _). auto.
Qed.

(** The payload's own swap plays no role: with another one, every call of the generic
    function does the same in every state. *)
Definition with_swap {W} (E : env W) (f : rep -> rep -> W -> (res unit * (rep * rep)) * W)
  (g : rep -> W -> (res unit * rep) * W) (nt : bool) : env W :=
  MkEnv W
    (fun t => let T := e_tys E t in let P := ot_ops T in
       MkOptTy W (ot_dec T) (ot_man T)
         (MkPayOps W (po_copy P) (po_move P) (po_cassign P) (po_massign P) (po_self_cassign P)
            (po_self_massign P) f g (po_dtor P) (po_nt_copy P) (po_nt_move P) (po_nt_massign P) nt))
    (e_tid E) (e_dbg E).
Theorem C54_payload_swap_unused :
  forall W (E : env W) f g nt i j k s,
    step (with_swap E f g nt) (OStdSwap i j k) s = step E (OStdSwap i j k) s.
Proof. reflexivity. Qed.
(** ... whereas the specified swap of two engaged optionals is the payload's swap
    (C13_swap_outcome). *)
Theorem C54_member_swap_uses_it :
  exists (E : env sworld_t) f g i j s,
    step (with_swap E f g true) (OSwap i j) s <> step E (OSwap i j) s.
Proof.
  exists (sample true), (fun a b w => ((ROk tt, (a, b)), w)), (fun a w => ((ROk tt, a), w)), 0, 1.
  eexists (snd (run (sample true) [OInPlace 0 (mkP 1 2); OInPlace 1 (mkP 3 4)] (init_state quiet))).
  intros H. apply (f_equal (fun q => option_map cells (mem (snd q) 0))) in H. vm_compute in H. discriminate.
Qed.

Example C54_example dbg :
  value_moving (ops (sample dbg) 20) /\
  (exists s s', call_after (sample dbg) quiet [OInPlace 20 (mkBits 8 1); ODefault 21] s
                           (OStdSwap 20 21 22) (Ok ObUnit) s' /\
     opt_after (sample dbg) quiet [OInPlace 20 (mkBits 8 1); ODefault 21] 20 (Some (word 8 1)) /\
     opt_after (sample dbg) quiet [OInPlace 20 (mkBits 8 1); ODefault 21] 21 None) /\
  (exists s s', call_after (sample dbg) (plan [None; None; None; Some 7]) [OInPlace 0 (mkP 1 2); OInPlace 1 (mkP 3 4)] s
                           (OStdSwap 0 1 2) (Throw (UserExn 7)) s' /\
     peek (sample dbg) 1 s' = Some (Some [Atom 3; Atom 4])) /\
  (exists s s', call_after (sample dbg) quiet [OInPlace 10 (mkP 1 2)] s (OStdSwap 10 10 11) (Ok ObUnit) s').
Proof.
  split; [split; [|split]; intros; eexists _, _; reflexivity|].
  split; [eexists _, _; split; [ex_call|split; ex_opt]|].
  split; [eexists _, _; split; [ex_call|run_it]|].
  eexists _, _. ex_call.
Qed.
