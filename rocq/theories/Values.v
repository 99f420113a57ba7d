(** * Values: properties C14, C15, C19, C20, C21, C22, C23, C24 *)

From Coq Require Import List NArith ZArith Bool Arith Lia.
From Verif Require Import Cells CellsFacts Machine Optional Program Spec Laws Refine
  Contract SpecTac Effects Frame Lifetime Bits Manip Sample ExampleTac Histories Leaks Exceptions.
Import ListNotations.

Local Arguments put : simpl never.
Local Arguments sub : simpl never.

(** ** C14: copies are independent of their source *)

(** In every state and whatever the outcome, copying leaves every byte of the
    source's storage as it was. *)
Theorem C14_source_bytes_unchanged :
  forall W (E : env W) i j o (s : state W) r s',
    i <> j -> o = OCopyCtor i j \/ o = OCopyAssign i j ->
    step E o s = (r, s') -> mem s' j = mem s j.
Proof.
  intros W E i j o s r s' N Ho Hs. pose proof (step_local E o s j) as L. rewrite Hs in L. apply L.
  destruct Ho as [-> | ->]; cbn; intros [H|[]]; congruence.
Qed.

(** What the copy contains. *)
Theorem C14_copy_construct :
  forall W (E : env W) w p s i j x r s',
    env_ok E -> call_after E w p s (OCopyCtor i j) r s' -> opt_after E w p j x ->
    peek E j s' = Some x /\
    match x with
    | None => r = Ok ObUnit /\ peek E i s' = Some None
    | Some v =>
        match fst (po_copy (ops E j) v (world s)) with
        | ROk v' => r = Ok ObUnit /\ peek E i s' = Some (Some v')
        | RThrow e => r = Throw e /\ mem s' i = None
        end
    end.
Proof.
  intros W E w p s i j x r s' HE C Hx.
  destruct (call_spec_at E HE _ _ _ _ _ _ C) as (xs & t & t' & sr & Ht & R & Hs & R' & Hr).
  pose proof (opt_after_at E _ _ _ _ _ _ Hx Ht) as Hj. rewrite (rel_world E _ _ R).
  cbn [sstep] in Hs. sunfold Hs. destruct (Nat.eqb (e_tid E i) (e_tid E j)); [|sdone Hs Hr].
  destruct (objs t i) eqn:Hi; [seval Hs; sdone Hs Hr|].
  assert (N : i <> j) by congruence. seval Hs. destruct x as [v|]; seval Hs.
  - destruct (po_copy (ops E j) v (sworld t)) as [[v'|e] w']; seval Hs.
    + destruct (storable E i v'); [|sdone Hs Hr]. seval Hs. injection Hs as <- <-.
      split; [eapply peek_rel; [exact R'|cbn; rewrite upd_other by exact N; exact Hj]|].
      split; [exact Hr|eapply peek_rel; [exact R'|cbn; apply upd_same]].
    + injection Hs as <- <-. split; [eapply peek_rel; [exact R'|exact Hj]|].
      split; [exact Hr|]. eapply rel_fresh; [exact R'|exact Hi].
  - injection Hs as <- <-. split; [eapply peek_rel; [exact R'|cbn; rewrite upd_other by exact N; exact Hj]|].
    split; [exact Hr|eapply peek_rel; [exact R'|cbn; apply upd_same]].
Qed.

(** Afterwards, no history that does not modify [i] itself changes what [i] contains,
    whatever it does to the other optional. *)
Theorem C14_independent_afterwards :
  forall W (E : env W) (s : state W) i q,
    (forall o, In o q -> ~ In i (touches o)) ->
    mem (snd (run E q s)) i = mem s i /\ peek E i (snd (run E q s)) = peek E i s.
Proof.
  intros W E s i q H. pose proof (run_local E q s i H) as L. split; [exact L|].
  assert (G : forall s1 s2 : state W, mem s1 i = mem s2 i -> peek E i s1 = peek E i s2).
  { intros s1 s2 Hm. unfold peek, op_deref, assert_, has_value, fm_is_empty, load_payload, bind,
      get_region, ret, dead. rewrite Hm. destruct (mem s2 i) as [rg|] eqn:Hm2; [|reflexivity].
    destruct (flag_obj rg || pay_obj rg && negb (d_sep (dec E i))) eqn:Hf; [|reflexivity].
    destruct (m_is_empty (man E i) _) as [[]|] eqn:He; cbn; try reflexivity.
    destruct (e_dbg E); cbn; rewrite ?Hm, ?Hm2; cbn; rewrite ?Hf, ?He; cbn; rewrite ?Hm, ?Hm2;
      destruct (pay_obj rg); reflexivity. }
  apply G, L.
Qed.

Example C14_example dbg :
  exists s s',
    call_after (sample dbg) quiet [OInPlace 10 (mkP 1 2)] s (OCopyCtor 11 10) (Ok ObUnit) s' /\
    opt_after (sample dbg) quiet [OInPlace 10 (mkP 1 2)] 10 (Some [Atom 1; Atom 2]) /\
    peek (sample dbg) 11 (snd (run (sample dbg) [OAssign 10 (argP 8 8); OReset 10; ODtor 10] s'))
    = Some (Some [Atom 1; Atom 2]).
Proof. eexists _, _. split; [ex_call|split; [ex_opt|run_it]]. Qed.

(** ** C15: moved-from optionals stay engaged *)

Theorem C15_move_construct :
  forall W (E : env W) w p s i j x r s',
    env_ok E -> call_after E w p s (OMoveCtor i j) r s' -> opt_after E w p j x ->
    match x with
    | None => r = Ok ObUnit /\ peek E i s' = Some None /\ peek E j s' = Some None
    | Some v =>
        let '((res, v'), _) := po_move (ops E j) v (world s) in
        peek E j s' = Some (Some v') /\
        match res with
        | ROk x => r = Ok ObUnit /\ peek E i s' = Some (Some x)
        | RThrow e => r = Throw e /\ mem s' i = None
        end
    end.
Proof.
  intros W E w p s i j x r s' HE C Hx.
  destruct (call_spec_at E HE _ _ _ _ _ _ C) as (xs & t & t' & sr & Ht & R & Hs & R' & Hr).
  pose proof (opt_after_at E _ _ _ _ _ _ Hx Ht) as Hj. rewrite (rel_world E _ _ R).
  cbn [sstep] in Hs. sunfold Hs. destruct (Nat.eqb (e_tid E i) (e_tid E j)); [|sdone Hs Hr].
  destruct (objs t i) eqn:Hi; [seval Hs; sdone Hs Hr|].
  assert (N : i <> j) by congruence. assert (N' : j <> i) by congruence.
  seval Hs. destruct x as [v|]; seval Hs.
  - destruct (po_move (ops E j) v (sworld t)) as [[res v'] w']; seval Hs.
    destruct (storable E j v'); [|sdone Hs Hr]. seval Hs. destruct res as [x|e]; seval Hs.
    + destruct (storable E i x); [|sdone Hs Hr]. seval Hs. injection Hs as <- <-.
      split; [eapply peek_rel; [exact R'|cbn; rewrite upd_other by exact N; apply upd_same]|].
      split; [exact Hr|eapply peek_rel; [exact R'|cbn; apply upd_same]].
    + injection Hs as <- <-. split; [eapply peek_rel; [exact R'|cbn; apply upd_same]|].
      split; [exact Hr|]. eapply rel_fresh; [exact R'|cbn; rewrite upd_other by exact N'; exact Hi].
  - injection Hs as <- <-. split; [exact Hr|].
    split; (eapply peek_rel; [exact R'|]); cbn; [apply upd_same|rewrite upd_other by exact N; exact Hj].
Qed.

Theorem C15_move_assign_from_empty :
  forall W (E : env W) w p s i j x r s',
    env_ok E -> call_after E w p s (OMoveAssign i j) r s' ->
    opt_after E w p i x -> opt_after E w p j None ->
    r = Ok ObUnit /\ peek E i s' = Some None /\ peek E j s' = Some None.
Proof.
  intros W E w p s i j x r s' HE C Hx Hy.
  destruct (call_spec_at E HE _ _ _ _ _ _ C) as (xs & t & t' & sr & Ht & R & Hs & R' & Hr).
  pose proof (opt_after_at E _ _ _ _ _ _ Hx Ht) as Hi.
  pose proof (opt_after_at E _ _ _ _ _ _ Hy Ht) as Hj.
  cbn [sstep] in Hs. sunfold Hs. destruct (Nat.eqb (e_tid E i) (e_tid E j)); [|sdone Hs Hr].
  seval Hs. destruct x as [v|]; seval Hs; injection Hs as <- <-; (split; [exact Hr|]).
  - assert (N : i <> j) by congruence.
    split; (eapply peek_rel; [exact R'|]); cbn; [apply upd_same|rewrite upd_other by exact N; exact Hj].
  - split; (eapply peek_rel; [exact R'|]); assumption.
Qed.

(** In short, with [C11_move_assign_to_empty] and [C12_move_assign_engaged]:
    whatever the outcome, the source is engaged iff it was. *)
Theorem C15_source_keeps_engagement :
  forall W (E : env W) w p s i j o x r s',
    env_ok E -> call_after E w p s o r s' -> i <> j ->
    o = OMoveCtor i j \/ (o = OMoveAssign i j /\ exists y, opt_after E w p i y) ->
    opt_after E w p j x ->
    has_value E j s' = (Ok (is_some x), s').
Proof.
  intros W E w p s i j o x r s' HE C N Ho Hx.
  assert (G : forall y, peek E j s' = Some y -> is_some y = is_some x ->
              has_value E j s' = (Ok (is_some x), s')).
  { intros y Hy <-. destruct (peek_has E _ _ _ Hy) as (s2 & H2). rewrite H2.
    rewrite (has_value_same E _ _ _ _ H2). reflexivity. }
  destruct Ho as [->|(-> & y & Hy)].
  - pose proof (C15_move_construct W E w p s i j x r s' HE C Hx) as H. destruct x as [v|].
    + destruct (po_move (ops E j) v (world s)) as [[res v'] w']. apply (G _ (proj1 H) eq_refl).
    + apply (G _ (proj2 (proj2 H)) eq_refl).
  - destruct x as [v|].
    + destruct y as [d|].
      * pose proof (C12_move_assign_engaged W E w p s i j d v r s' HE C N Hy Hx) as H.
        destruct (po_massign (ops E j) d v (world s)) as [[res [d' v']] w'].
        apply (G _ (proj2 (proj2 H)) eq_refl).
      * pose proof (C11_move_assign_to_empty W E w p s i j v r s' HE C Hy Hx) as H.
        destruct (fst (po_move (ops E j) v (world s))) as [res v']. apply (G _ (proj2 H) eq_refl).
    + pose proof (C15_move_assign_from_empty W E w p s i j y r s' HE C Hy Hx) as H.
      apply (G _ (proj2 (proj2 H)) eq_refl).
Qed.

Example C15_example dbg :
  exists s s',
    call_after (sample dbg) quiet [OInPlace 10 (mkP 1 2); ODefault 11] s (OMoveAssign 11 10) (Ok ObUnit) s' /\
    opt_after (sample dbg) quiet [OInPlace 10 (mkP 1 2); ODefault 11] 10 (Some [Atom 1; Atom 2]) /\
    peek (sample dbg) 10 s' = Some (Some [Atom 99; Atom 2]).
Proof. eexists _, _. split; [ex_call|split; [ex_opt|run_it]]. Qed.

(** ** C19: self assignment and self swap *)

Section Quiet.
  Context {W : Type}.
  Variable E : env W.

  (** Code that neither creates nor destroys objects. *)
  Definition silent {A} (m : M W A) : Prop := forall s, trace (snd (m s)) = trace s.
  Lemma q_ret {A} (a : A) : silent (ret a).
  Proof. intros s. reflexivity. Qed.
  Lemma q_bind {A B} (m : M W A) (k : A -> M W B) : silent m -> (forall a, silent (k a)) -> silent (bind m k).
  Proof.
    intros Hm Hk s. specialize (Hm s). unfold bind. destruct (m s) as [[a|e|f] s']; cbn in *; try exact Hm.
    rewrite (Hk a s'). exact Hm.
  Qed.
  Lemma q_noexcept {A} b (m : M W A) : silent m -> silent (noexcept_if b m).
  Proof. intros H s. specialize (H s). unfold noexcept_if. destruct (m s) as [[a|e|f] s'], b; exact H. Qed.
  Lemma q_call {A} (f : W -> A * W) : silent (call f).
  Proof. intros s. unfold call. destruct (f (world s)). reflexivity. Qed.
  Lemma q_lift {A} (r : res A) : silent (@lift_res W A r).
  Proof. intros s. destruct r; reflexivity. Qed.
  Lemma q_has i : silent (has_value E i).
  Proof. intros s. destruct (has_value E i s) as [r s'] eqn:H. cbn. rewrite (has_value_same E _ _ _ _ H). reflexivity. Qed.
  Lemma q_same_has i j : silent (same_has E i j).
  Proof. apply q_bind; [apply q_has|intros a]. apply q_bind; [apply q_has|intros b]. apply q_ret. Qed.
  Lemma q_assert c : silent c -> silent (assert_ E c).
  Proof.
    intros H. unfold assert_. destruct (e_dbg E); [|apply q_ret]. apply q_bind; [exact H|].
    intros []; intros s; reflexivity.
  Qed.
  Lemma q_load i : silent (load_payload E i).
  Proof.
    intros s. unfold load_payload, bind, get_region, ret, dead. destruct (mem s i) as [r|]; [|reflexivity].
    destruct (pay_obj r); reflexivity.
  Qed.
  Lemma q_store i v : silent (store_payload E i v).
  Proof.
    intros s. unfold store_payload, bind, get_region, set_region, ret, dead.
    destruct (mem s i) as [r|]; [|reflexivity].
    destruct (pay_obj r); [|reflexivity]. destruct (Nat.eqb _ _); reflexivity.
  Qed.
  Ltac qs :=
    repeat first
      [ apply q_load | apply q_store | apply q_call | apply q_lift | apply q_ret
      | match goal with
        | |- silent (bind _ _) => apply q_bind; [|intros ?]
        | |- silent (if ?b then _ else _) => destruct b
        end ].
  Lemma q_assign_payload i a : silent (assign_payload E i a).
  Proof. unfold assign_payload. destruct (i_src (a_ini a)) as [j|]; qs. Qed.
  Lemma q_swap_payloads i j : silent (swap_payloads E i j).
  Proof. unfold swap_payloads. qs. Qed.

  (** The state after a call whose first step leads to [s1]. *)
  Lemma q_from {A B} (m : M W A) (k : A -> M W B) s l :
    trace (snd (m s)) = l -> (forall a, silent (k a)) -> trace (snd (bind m k s)) = l.
  Proof.
    intros Hm Hk. unfold bind. destruct (m s) as [[a|e|f] s']; cbn in *; try exact Hm.
    rewrite (Hk a s'). exact Hm.
  Qed.
  Lemma q_from_noexcept {A} b (m : M W A) s l :
    trace (snd (m s)) = l -> trace (snd (noexcept_if b m s)) = l.
  Proof. intros H. unfold noexcept_if. destruct (m s) as [[a|e|f] s'], b; exact H. Qed.
End Quiet.

(** The calls [o = o], [o = std::move(o)], [swap(o, o)], and [o = *o] / [o =
    std::move( *o)] / any other assignment from a reference to the payload, with the
    payload operation that they are supposed to apply. *)
Definition self_call {W} (E : env W) (i : loc) (o : op W) (f : rep -> W -> (res unit * rep) * W) : Prop :=
  (o = OCopyAssign i i /\ f = po_self_cassign (ops E i)) \/
  (o = OMoveAssign i i /\ f = po_self_massign (ops E i)) \/
  (o = OSwap i i /\ f = po_self_swap (ops E i)) \/
  (exists a, o = OAssign i a /\ i_src (a_ini a) = Some i /\ f = a_self a).

Theorem C19_self_engaged :
  forall W (E : env W) w p s i o f v r s',
    env_ok E -> self_call E i o f -> call_after E w p s o r s' -> opt_after E w p i (Some v) ->
    let '((res, v'), w') := f v (world s) in
    r = outcome res /\ peek E i s' = Some (Some v') /\ world s' = w' /\ trace s' = trace s.
Proof.
  intros W E w p s i o f v r s' HE Ho C Hx.
  destruct (call_spec_at E HE _ _ _ _ _ _ C) as (xs & t & t' & sr & Ht & R & Hs & R' & Hr).
  pose proof (opt_after_at E _ _ _ _ _ _ Hx Ht) as Hi. rewrite (rel_world E _ _ R).
  assert (Htr : trace s' = trace s).
  { pose proof C as (_ & _ & Hst). pose proof (has_value_true E s t i v R Hi) as Hh.
    assert (B : forall a, trace (snd (assign_value E i a s)) = trace s).
    { intros a. unfold assign_value. rewrite (bind_ok _ _ _ _ _ Hh).
      apply q_bind; [apply q_assign_payload|]. intros _. apply q_assert, q_has. }
    apply (f_equal snd) in Hst. cbn [snd] in Hst. rewrite <- Hst.
    destruct Ho as [(-> & _)|[(-> & _)|[(-> & _)|(a & -> & _ & _)]]]; cbn [step];
      (apply q_from; [|intros; apply q_ret]).
    - unfold assign_copy, same_type. rewrite Nat.eqb_refl, (bind_ok _ _ _ _ _ Hh).
      apply q_from; [apply B|]. intros _. apply q_assert, q_same_has.
    - unfold assign_move, same_type. rewrite Nat.eqb_refl. apply q_from_noexcept.
      rewrite (bind_ok _ _ _ _ _ Hh).
      apply q_from; [apply B|]. intros _. apply q_assert, q_same_has.
    - unfold swap, same_type. rewrite Nat.eqb_refl. apply q_from_noexcept.
      rewrite !(bind_ok _ _ _ _ _ Hh). cbn [Bool.eqb]. apply q_swap_payloads.
    - apply B. }
  assert (G : forall (F : rep -> W -> res unit * rep * W) (sm : @S W obs), F = f -> sstep (e_tid E) (ops E) (storable E) (is_value E) o = sm ->
    (forall t1, objs t1 = objs t -> sworld t1 = sworld t ->
      sm t1 = sunit (q <-- suser (F v);;; swrite (storable E) (is_value E) i (snd q);;; sres (fst q)) t1) ->
    let '((res, v'), w') := f v (sworld t) in
    r = outcome res /\ peek E i s' = Some (Some v') /\ world s' = w' /\ trace s' = trace s).
  { intros F sm <- Hsm Hq. rewrite Hsm, (Hq t eq_refl eq_refl) in Hs. clear Hq Hsm. sunfold Hs.
    destruct (F v (sworld t)) as [[res v'] w']. seval Hs. destruct (storable E i v'); [|sdone Hs Hr].
    seval Hs. rewrite (rel_world E _ _ R').
    destruct res; seval Hs; injection Hs as <- <-; (split; [exact Hr|]);
      (split; [eapply peek_rel; [exact R'|cbn; apply upd_same]|split; [reflexivity|exact Htr]]). }
  destruct Ho as [(-> & Hf)|[(-> & Hf)|[(-> & Hf)|(a & -> & Ha & Hf)]]];
    (eapply (G _ _ (eq_sym Hf)); [reflexivity|]); intros t1 Ht1 Hw1; cbn [sstep];
    rewrite <- Ht1 in Hi;
    unfold s_copy_assign, s_move_assign, s_swap, s_assign, s_assign_existing, same;
    rewrite ?Nat.eqb_refl, ?Ha, ?Nat.eqb_refl; unfold sunit, sbind, contents, sread; rewrite ?Hi; reflexivity.
Qed.

(** Empty: nothing at all happens. *)
Theorem C19_self_empty :
  forall W (E : env W) w p s i o r s',
    env_ok E -> In o [OCopyAssign i i; OMoveAssign i i; OSwap i i] ->
    call_after E w p s o r s' -> opt_after E w p i None ->
    r = Ok ObUnit /\ s' = s.
Proof.
  intros W E w p s i o r s' HE Ho C Hx.
  destruct (call_spec_at E HE _ _ _ _ _ _ C) as (xs & t & t' & sr & Ht & R & Hs & R' & Hr).
  pose proof (opt_after_at E _ _ _ _ _ _ Hx Ht) as Hi. pose proof C as (_ & _ & Hst).
  pose proof (has_value_false E s t i R Hi) as Hh.
  assert (Hsh : same_has E i i s = (Ok true, s)).
  { unfold same_has. rewrite !(bind_ok _ _ _ _ _ Hh). reflexivity. }
  assert (Hre : reset E i s = (Ok tt, s)).
  { unfold reset, noexcept_if. rewrite (bind_ok _ _ _ _ _ Hh). reflexivity. }
  pose proof (assert_true E s _ Hsh) as Has.
  assert (step E o s = (Ok ObUnit, s)) as H.
  { destruct Ho as [<-|[<-|[<-|[]]]]; cbn [step]; unfold unit_, assign_copy, assign_move, swap, same_type;
      rewrite Nat.eqb_refl.
    - unfold bind at 1. rewrite (bind_ok _ _ _ _ _ Hh), (bind_ok _ _ _ _ _ Hre), Has. reflexivity.
    - unfold bind at 1. unfold noexcept_if. rewrite (bind_ok _ _ _ _ _ Hh), (bind_ok _ _ _ _ _ Hre), Has. reflexivity.
    - unfold bind at 1. unfold noexcept_if. rewrite !(bind_ok _ _ _ _ _ Hh). reflexivity. }
  rewrite H in Hst. injection Hst as <- <-. auto.
Qed.

Definition own_payload (i : loc) : arg sworld_t :=
  MkArg (MkIni (Some i) true (fun v w => ((ROk v, v), w)) true)
        (fun _ v w => ((ROk tt, (v, v)), w)) (fun v w => ((ROk tt, v), w)).
Example C19_example dbg :
  exists s s' s2 s2',
    call_after (sample dbg) (plan [None; Some 3]) [OInPlace 10 (mkP 1 2)] s (OMoveAssign 10 10) (Throw (UserExn 3)) s' /\
    self_call (sample dbg) 10 (OMoveAssign 10 10) (po_self_massign p_ops) /\
    opt_after (sample dbg) (plan [None; Some 3]) [OInPlace 10 (mkP 1 2)] 10 (Some [Atom 1; Atom 2]) /\
    call_after (sample dbg) quiet [OInPlace 0 (mkP 1 2)] s2 (OAssign 0 (own_payload 0)) (Ok ObUnit) s2' /\
    self_call (sample dbg) 0 (OAssign 0 (own_payload 0)) (fun v w => ((ROk tt, v), w)).
Proof.
  eexists _, _, _, _. split; [ex_call|]. split; [right; left; split; reflexivity|]. split; [ex_opt|].
  split; [|right; right; right; eexists; split; [reflexivity|split; reflexivity]].
  split; [eapply contract_intro; [|run_it]|split; [ex_reaches|run_it]].
  repeat apply Forall_cons; cbn; try apply Forall_nil; [apply mkP_ok|intros _ v w; exact I].
Qed.

(** ** C20: emplace from a reference into the same optional *)

(** [o.emplace( *o)], [o.emplace(std::move( *o))] and every other emplace one of whose
    arguments refers to the payload of [o] itself: in every state of [o] and for
    every storage strategy the referenced object is dead when it is read. *)
Theorem C20_emplace_own_payload_undefined :
  forall W (E : env W) w p s i n x,
    env_ok E -> contract E w p -> reaches E w p s -> opt_after E w p i x ->
    In i (ini_uses n) -> (forall j, In j (ini_uses n) -> mem s j <> None) ->
    fst (step E (OEmplace i n) s) = Dead NoObject.
Proof.
  intros W E w p s i n x HE C Hr Hx Hn Hall.
  destruct (reaches_rel E HE w p s C Hr) as (xs & t & Ht & R).
  pose proof (opt_after_at E _ _ _ _ _ _ Hx Ht) as Hi.
  pose proof (refines_reset E HE i s t R) as RR.
  assert (exists t1, s_clear (ops E) (storable E) i t = (SOk tt, t1) /\ objs t1 i = Some (SOpt None) /\
            forall j, i <> j -> objs t1 j = objs t j) as (t1 & H1 & Hi1 & Ho1).
  { unfold s_clear, sbind, contents. rewrite Hi. destruct x as [v|]; cbn.
    - unfold sdestroy, suser. cbn. eexists. split; [reflexivity|]. cbn.
      split; [apply upd_same|intros j N; apply upd_other; congruence].
    - eexists. split; [reflexivity|]. auto. }
  rewrite H1 in RR. destruct RR as (s1 & Hs1 & R1).
  cbn [step]. unfold unit_, emplace. unfold bind at 1. rewrite (bind_ok _ _ _ _ _ Hs1).
  pose proof (rel_to_hole E _ _ _ R1 Hi1) as RH.
  destruct (invalidate_ok E HE _ _ _ RH) as (s2 & H2 & R2).
  assert (Li : load_payload E i s2 = (Dead NoObject, s2)).
  { destruct (hole_inv E _ _ _ _ R2) as ((c & Hm & _) & _). unfold load_payload, bind, get_region.
    rewrite Hm. reflexivity. }
  assert (Lj : forall j, In j (ini_uses n) ->
             load_payload E j s2 = (Dead NoObject, s2) \/ exists v, load_payload E j s2 = (Ok v, s2)).
  { intros j Hj. destruct (Nat.eq_dec i j) as [<-|N]; [left; exact Li|].
    assert (mem s2 j <> None) as Nm.
    { specialize (Hall j Hj).
      pose proof (rel_robj E _ _ _ j R2 N) as Q2. pose proof (rel_robj E _ _ _ j R I) as Q.
      rewrite Ho1 in Q2 by exact N. destruct (objs t j) as [[[v|]|v]|]; cbn in Q, Q2.
      - destruct Q2 as (c & -> & _). discriminate.
      - destruct Q2 as (c & -> & _). discriminate.
      - destruct Q2 as (-> & _). discriminate.
      - congruence. }
    unfold load_payload, bind, get_region, dead, ret. destruct (mem s2 j) as [r|]; [|congruence].
    destruct (pay_obj r); [right; eauto|left; reflexivity]. }
  assert (LM : forall l, (forall j, In j (map fst l) -> In j (ini_uses n)) -> In i (map fst l) ->
             load_more E l s2 = (Dead NoObject, s2)).
  { induction l as [|[j c] l IH]; intros Hl [].
    - cbn in H. subst j. cbn [load_more]. unfold bind at 1. rewrite Li. reflexivity.
    - cbn [load_more]. unfold bind at 1.
      destruct (Lj j (Hl j (or_introl eq_refl))) as [->|(v & ->)]; [reflexivity|].
      unfold bind. rewrite IH; [reflexivity| |exact H]. intros k Hk. apply Hl. right. exact Hk. }
  assert (HP : placement_new E i n s2 = (Dead NoObject, s2)).
  { unfold placement_new, run_ini. unfold ini_uses in *.
    assert (M : In i (map fst (i_more n)) -> load_more E (i_more n) s2 = (Dead NoObject, s2)).
    { apply LM. intros j Hj. apply in_or_app. auto. }
    destruct (i_src n) as [k|].
    - destruct (Lj k (or_introl eq_refl)) as [Hk|(v & Hk)].
      + unfold bind. rewrite Hk. reflexivity.
      + destruct Hn as [->|Hn]; [congruence|]. unfold bind. rewrite Hk, (M Hn). reflexivity.
    - unfold bind, ret. rewrite (M Hn). reflexivity. }
  assert (HC : construct_payload E i n s1 = (Dead NoObject, s2)).
  { unfold construct_payload, noexcept_if.
    rewrite (bind_ok _ _ _ _ _ (assert_true E s1 (not_ (has_value E i))
        (not_eq s1 _ false (hole_has_value E _ _ _ RH)))).
    rewrite (bind_ok _ _ _ _ _ H2). unfold bind. destruct (i_nothrow n).
    - rewrite HP. reflexivity.
    - unfold on_throw. rewrite HP. reflexivity. }
  unfold bind. rewrite HC. reflexivity.
Qed.

(** std::optional gives no meaning to it either. *)
Theorem C20_std_undefined :
  forall W (E : env W) w p n i x,
    opt_after E w p i x -> In i (ini_uses n) -> ~ contract E w (p ++ [OEmplace i n]).
Proof.
  intros W E w p n i x Hx Hn C.
  destruct C as (_ & xs & t' & C). unfold std_run in C. rewrite srun_app in C.
  destruct (srun (e_tid E) (ops E) (storable E) (is_value E) p (sinit_state w)) as [[ys|] t] eqn:Ht;
    [|discriminate].
  pose proof (opt_after_at E _ _ _ _ _ _ Hx Ht) as Hi. cbn [srun sstep] in C.
  assert (exists t1, s_clear (ops E) (storable E) i t = (SOk tt, t1) /\ objs t1 i = Some (SOpt None))
    as (t1 & H1 & Hi1).
  { unfold s_clear, sbind, contents. rewrite Hi. destruct x as [v|]; cbn.
    - unfold sdestroy, suser. cbn. eexists. split; [reflexivity|]. cbn. apply upd_same.
    - eexists. split; [reflexivity|exact Hi]. }
  assert (Ri : sread i t1 = (SUndef, t1)) by (unfold sread; rewrite Hi1; reflexivity).
  assert (LM : forall l, In i (map fst l) -> sread_more l t1 = (SUndef, t1)).
  { induction l as [|[j c] l IH]; intros [].
    - cbn in H. subst j. cbn. unfold sbind. rewrite Ri. reflexivity.
    - cbn. unfold sbind. destruct (sread j t1) as [[v|e|] u] eqn:Hj.
      + rewrite (sread_state _ _ _ _ Hj), (IH H). reflexivity.
      + destruct (sread_throws _ _ _ _ Hj).
      + rewrite (sread_state _ _ _ _ Hj). reflexivity. }
  assert (HS : sinit (storable E) (is_value E) n t1 = (SUndef, t1)).
  { unfold sinit, sbind. unfold ini_uses in Hn. destruct (i_src n) as [k|].
    - destruct (sread k t1) as [[v|e|] u] eqn:Hk.
      + pose proof (sread_state _ _ _ _ Hk) as ->. destruct Hn as [->|Hn]; [congruence|].
        rewrite (LM _ Hn). reflexivity.
      + destruct (sread_throws _ _ _ _ Hk).
      + rewrite (sread_state _ _ _ _ Hk). reflexivity.
    - unfold sret. rewrite (LM _ Hn). reflexivity. }
  unfold sunit, s_emplace in C. unfold sbind at 1 2 in C. rewrite H1 in C.
  unfold sbind in C. rewrite HS in C. discriminate.
Qed.

Example C20_example dbg :
  contract (sample dbg) quiet [OInPlace 10 (mkP 1 2)] /\
  opt_after (sample dbg) quiet [OInPlace 10 (mkP 1 2)] 10 (Some [Atom 1; Atom 2]) /\
  In 10 (ini_uses (copy_ini (sample dbg) 10)) /\
  fst (run (sample dbg) [OInPlace 10 (mkP 1 2); OEmplace 10 (copy_ini (sample dbg) 10)] (init_state quiet))
  = inr NoObject /\
  (* a constructor with two arguments *)
  In 10 (ini_uses (from_both 11 10)) /\
  fst (run (sample dbg) [OInPlace 10 (mkP 1 2); OInPlace 11 (mkP 3 4); OEmplace 10 (from_both 11 10)]
         (init_state quiet)) = inr NoObject /\
  peek (sample dbg) 10 (snd (run (sample dbg)
    [OInPlace 10 (mkP 1 2); OInPlace 11 (mkP 3 4); OInPlace 12 (mkP 5 6); OEmplace 10 (from_both 11 12)]
    (init_state quiet))) = Some (Some [Atom 3; Atom 6]) /\
  fst (run (sample dbg) [OInPlace 10 (mkP 1 2); OAssign 10 (copy_arg (sample dbg) 10)] (init_state quiet))
  = inl [ObUnit; ObUnit].
Proof.
  split; [ex_contract|split; [ex_opt|split; [left; reflexivity|split; [run_it|]]]].
  split; [right; left; reflexivity|]. split; [run_it|]. split; run_it.
Qed.

(** ** C21: reset *)

(** On an empty optional reset() does nothing, in every state of the machine. *)
Theorem C21_reset_empty_is_noop :
  forall W (E : env W) i (s : state W),
    has_value E i s = (Ok false, s) -> step E (OReset i) s = (Ok ObUnit, s).
Proof.
  intros W E i s H. cbn [step]. unfold unit_, reset, noexcept_if, bind at 1.
  rewrite (bind_ok _ _ _ _ _ H). reflexivity.
Qed.

(** On an engaged optional it runs the payload's destructor exactly once, creates
    and destroys nothing else but the flag, and a second reset() does nothing. *)
Theorem C21_reset_engaged :
  forall W (E : env W) w p s i v r s',
    env_ok E -> call_after E w p s (OReset i) r s' -> opt_after E w p i (Some v) ->
    r = Ok ObUnit /\ peek E i s' = Some None /\
    world s' = po_dtor (ops E i) v (world s) /\
    trace s' = (if d_sep (dec E i) then [] else [EvFlagBegin i]) ++ EvPayEnd i :: trace s /\
    step E (OReset i) s' = (Ok ObUnit, s').
Proof.
  intros W E w p s i v r s' HE C Hx.
  destruct (call_spec_at E HE _ _ _ _ _ _ C) as (xs & t & t' & sr & Ht & R & Hs & R' & Hr).
  pose proof (opt_after_at E _ _ _ _ _ _ Hx Ht) as Hi.
  cbn [sstep] in Hs. sunfold Hs. seval Hs. injection Hs as <- <-.
  split; [exact Hr|]. split; [eapply peek_rel; [exact R'|cbn; apply upd_same]|].
  split; [rewrite (rel_world E _ _ R'); cbn; rewrite (rel_world E _ _ R); reflexivity|].
  split.
  - pose proof C as (_ & _ & Hst). rewrite Hr in Hst. cbn [step] in Hst. unfold unit_, reset, noexcept_if in Hst.
    unfold bind at 1 in Hst. rewrite (bind_ok _ _ _ _ _ (has_value_true E s t i v R Hi)) in Hst.
    unfold bind at 1 in Hst.
    pose proof (rel_robj E _ _ _ i R I) as Hrr. rewrite Hi in Hrr. destruct Hrr as (c & Hm & _).
    unfold destroy_payload, bind, get_region, call, set_region, log in Hst. rewrite Hm in Hst. cbn in Hst.
    match type of Hst with context [fm_init E i ?S1] => set (s1 := S1) in * end.
    destruct (fm_init E i s1) as [[u|e|q] s2] eqn:H2; [| |discriminate].
    2:{ destruct (fm_init_not_throw E _ _ _ _ H2). }
    destruct (assert_ E (not_ (has_value E i)) s2) as [[u2|e|q] s3] eqn:H3; try discriminate.
    cbn in Hst. injection Hst as Hst. rewrite <- Hst.
    destruct (assert_same E (not_ (has_value E i)) s2 _ _ (pure_not _ (pure_has E i)) H3) as (-> & _).
    destruct u. destruct (fm_init_events E _ _ _ H2) as (-> & _). unfold flag_events. subst s1. cbn.
    destruct (d_sep (dec E i)); reflexivity.
  - apply C21_reset_empty_is_noop. eapply has_value_false; [exact R'|]. cbn. apply upd_same.
Qed.

(** A reset optional behaves like a newly constructed empty one in every later
    history [q]: replace reset() by destruction and default construction, and the
    client observes the same. *)
Theorem C21_reset_like_fresh :
  forall W (E : env W) w p i x q,
    env_ok E -> opt_after E w p i x -> contract E w (p ++ [OReset i] ++ q) ->
    exists xs ys s1 s2,
      run E (p ++ [OReset i] ++ q) (init_state w) = (inl (xs ++ [ObUnit] ++ ys), s1) /\
      run E (p ++ [ODtor i; ODefault i] ++ q) (init_state w) = (inl (xs ++ [ObUnit; ObUnit] ++ ys), s2) /\
      world s1 = world s2 /\
      forall j z, opt_after E w (p ++ [OReset i] ++ q) j z -> peek E j s1 = Some z /\ peek E j s2 = Some z.
Proof.
  intros W E w p i x q HE Hx C.
  pose proof (contract_app E _ _ _ C) as Cp.
  destruct (contract_rel E HE w p Cp) as (xs & s & t & Ht & Hr & R).
  pose proof (opt_after_at E _ _ _ _ _ _ Hx Ht) as Hi.
  set (w1 := match x with Some v => po_dtor (ops E i) v (sworld t) | None => sworld t end).
  (* reset *)
  assert (exists t1, sstep (e_tid E) (ops E) (storable E) (is_value E) (OReset i) t = (SOk ObUnit, t1) /\
          sworld t1 = w1 /\ objs t1 i = Some (SOpt None) /\ forall j, j <> i -> objs t1 j = objs t j)
    as (t1 & H1 & Hw1 & Hi1 & Hj1).
  { cbn [sstep]. unfold sunit, s_clear, sbind, contents. rewrite Hi. destruct x as [v|]; cbn.
    - unfold sdestroy, suser. cbn. eexists. split; [reflexivity|]. cbn. split; [reflexivity|].
      split; [apply upd_same|intros j N; apply upd_other; congruence].
    - eexists. split; [reflexivity|]. split; [reflexivity|]. split; [exact Hi|reflexivity]. }
  pose proof (refines_step E HE (OReset i) I s t R) as A1. rewrite H1 in A1. destruct A1 as (s1 & Hs1 & R1).
  (* destroy, construct *)
  assert (exists t2, sstep (e_tid E) (ops E) (storable E) (is_value E) (ODtor i) t = (SOk ObUnit, t2) /\
          sworld t2 = w1 /\ objs t2 i = None /\ forall j, j <> i -> objs t2 j = objs t j)
    as (t2 & H2 & Hw2 & Hi2 & Hj2).
  { cbn [sstep]. unfold sunit, s_dtor, sbind, contents. rewrite Hi. destruct x as [v|]; cbn.
    - unfold sdestroy, suser. cbn. eexists. split; [reflexivity|]. cbn. split; [reflexivity|].
      split; [apply upd_same|intros j N; apply upd_other; congruence].
    - eexists. split; [reflexivity|]. split; [reflexivity|]. cbn.
      split; [apply upd_same|intros j N; apply upd_other; congruence]. }
  pose proof (refines_step E HE (ODtor i) I s t R) as A2. rewrite H2 in A2. destruct A2 as (s2 & Hs2 & R2).
  pose proof (refines_step E HE (ODefault i) I s2 t2 R2) as A3. cbn [sstep] in A3.
  unfold sunit, s_new, sbind, fresh in A3. rewrite Hi2 in A3. cbn in A3. destruct A3 as (s3 & Hs3 & R3).
  assert (R3' : rel E NoHole s3 t1).
  { refine (rel_objs_ext E _ _ _ _ R3 _ _).
    - intros j. cbn. destruct (Nat.eq_dec j i) as [->|N].
      + rewrite upd_same, Hi1. reflexivity.
      + rewrite upd_other by congruence. rewrite Hj1, Hj2 by exact N. reflexivity.
    - cbn. congruence. }
  (* the rest *)
  destruct C as (Hp & zs & t9 & H9). apply Forall_app in Hp as (_ & Hp). apply Forall_app in Hp as (_ & Hq).
  unfold std_run in H9, Ht. rewrite srun_app, Ht in H9. rewrite srun_app in H9. cbn [srun] in H9. rewrite H1 in H9.
  cbn [option_map] in H9.
  pose proof (refines_run E HE q s1 t1 Hq R1) as Q1. pose proof (refines_run E HE q s3 t1 Hq R3') as Q3.
  destruct (srun (e_tid E) (ops E) (storable E) (is_value E) q t1) as [[ys|] t4] eqn:H4; [|discriminate].
  cbn in H9. injection H9 as _ <-. destruct Q1 as (sa & Qa & Ra). destruct Q3 as (sb & Qb & Rb).
  exists xs, ys, sa, sb. split; [|split; [|split]].
  - rewrite run_app, Hr, run_app. cbn [run]. rewrite Hs1. cbn. rewrite Qa. reflexivity.
  - rewrite run_app, Hr, run_app. cbn [run]. rewrite Hs2. cbn. rewrite Hs3. cbn. rewrite Qb. reflexivity.
  - rewrite (rel_world E _ _ Ra), (rel_world E _ _ Rb). reflexivity.
  - intros j z (us & tz & Hz & Hoz). unfold std_run in Hz. rewrite srun_app, Ht, srun_app in Hz.
    cbn [srun] in Hz. rewrite H1 in Hz. cbn [option_map] in Hz. rewrite H4 in Hz. cbn in Hz.
    injection Hz as _ <-. split; eapply peek_rel; eauto.
Qed.

Example C21_example dbg :
  exists s s',
    call_after (sample dbg) quiet [OInPlace 10 (mkP 1 2)] s (OReset 10) (Ok ObUnit) s' /\
    opt_after (sample dbg) quiet [OInPlace 10 (mkP 1 2)] 10 (Some [Atom 1; Atom 2]) /\
    contract (sample dbg) quiet ([OInPlace 10 (mkP 1 2)] ++ [OReset 10] ++ [OAssign 10 (argP 4 5); ODtor 10]).
Proof. eexists _, _. split; [ex_call|split; [ex_opt|cbn [app]; ex_contract]]. Qed.

(** ** C22: value(), operator* and operator-> *)

(** In every state of the machine in which has_value() can be asked: value() throws
    iff has_value() is false, and changes nothing. *)
Theorem C22_value_throws_iff_empty :
  forall W (E : env W) i (s : state W) b,
    has_value E i s = (Ok b, s) ->
    (value E i s = (Throw BadOptionalAccess, s) <-> b = false) /\
    (value E i s = (Ok tt, s) <-> b = true).
Proof.
  intros W E i s b H. unfold value. rewrite (bind_ok _ _ _ _ _ H).
  destruct b; cbn; unfold ret, throw; split; split; congruence.
Qed.

(** The whole call in histories: on an empty optional value() throws and nothing
    changes; with a value, no bad_optional_access is thrown by the library. *)
Theorem C22_value_in_histories :
  forall W (E : env W) w p s i c f o,
    env_ok E -> contract E w p -> reaches E w p s -> opt_after E w p i o ->
    match o with
    | None => step E (OAccess AccValue i c f) s = (Throw BadOptionalAccess, s)
    | Some v => acc E AccValue i s = (Ok tt, s) /\ load_payload E i s = (Ok v, s)
    end.
Proof.
  intros W E w p s i c f o HE C Hr Ho.
  destruct (reaches_rel E HE w p s C Hr) as (xs & t & Ht & R).
  pose proof (opt_after_at E _ _ _ _ _ _ Ho Ht) as Hi. destruct o as [v|].
  - split.
    + cbn. unfold value. rewrite (bind_ok _ _ _ _ _ (has_value_true E s t i v R Hi)). reflexivity.
    + apply (load_rel E s t i v R). apply sread_eq, Hi.
  - cbn [step acc]. unfold val_. unfold bind at 1. unfold value.
    unfold bind at 1. rewrite (bind_ok _ _ _ _ _ (has_value_false E s t i R Hi)). reflexivity.
Qed.

(** operator* and operator-> on an empty optional: a failed assertion in debug
    builds; without assertions the access that follows is undefined. *)
Theorem C22_unchecked_access_of_empty :
  forall W (E : env W) w p s i k c f,
    env_ok E -> contract E w p -> reaches E w p s -> opt_after E w p i None ->
    k = AccDeref \/ k = AccArrow ->
    step E (OAccess k i c f) s = (Dead (if e_dbg E then AssertFailed else NoObject), s).
Proof.
  intros W E w p s i k c f HE C Hr Ho Hk.
  destruct (reaches_rel E HE w p s C Hr) as (xs & t & Ht & R).
  pose proof (opt_after_at E _ _ _ _ _ _ Ho Ht) as Hi.
  pose proof (has_value_false E s t i R Hi) as Hh.
  pose proof (rel_robj E _ _ _ i R I) as Hrr. rewrite Hi in Hrr. destruct Hrr as (cc & Hm & _).
  cbn [step]. unfold val_, acc. unfold bind at 1. unfold bind at 1.
  assert (G : assert_ E (has_value E i) s = if e_dbg E then (Dead AssertFailed, s) else (Ok tt, s)).
  { unfold assert_. destruct (e_dbg E); [|reflexivity]. rewrite (bind_ok _ _ _ _ _ Hh). reflexivity. }
  destruct Hk as [-> | ->]; unfold op_deref, op_arrow; rewrite G; destruct (e_dbg E); try reflexivity;
    unfold use_payload, load_payload, bind, get_region; rewrite Hm; reflexivity.
Qed.

Example C22_example dbg :
  contract (sample dbg) quiet [OInPlace 10 (mkP 1 2); OReset 10] /\
  opt_after (sample dbg) quiet [OInPlace 10 (mkP 1 2); OReset 10] 10 None /\
  fst (run (sample dbg) [OInPlace 10 (mkP 1 2); OReset 10; OAccess AccDeref 10 true look] (init_state quiet))
  = inr (if dbg then AssertFailed else NoObject).
Proof. split; [ex_contract|split; [ex_opt|run_it]]. Qed.

(** ** C23: value_or *)

(** What a call returns that evaluates user code with this result. *)
Definition returned (r : res rep) : out obs :=
  match r with ROk v => Ok (ObVal v) | RThrow e => Throw e end.

Lemma value_or_default W (E : env W) s t s' t' i d sr r :
  rel E NoHole s t -> rel E NoHole s' t' -> objs t i = Some (SOpt None) ->
  sval (sinit (storable E) (is_value E) d) t = (sr, t') ->
  match sr with SOk x => r = Ok x | SThrow e => r = Throw e | SUndef => False end ->
  let '((res, _), w') := i_fun d (src_vals E d s) (world s) in
  r = returned res /\ world s' = w' /\ peek E i s' = Some None.
Proof.
  intros R R' Hi Hs Hr.
    unfold sval, sbind in Hs.
    destruct (sinit (storable E) (is_value E) d t) as [x t3] eqn:H3.
    pose proof (sinit_result E _ s t x t3 R H3) as Hx.
    pose proof (keeps_init E d t _ _ H3 i) as K. rewrite Hi in K.
    apply shape_opt in K as (o' & Ho' & K). destruct o'; [discriminate|].
    assert (Hw : x <> SUndef -> sworld t3 = snd (i_fun d (src_vals E d s) (world s))).
    { intros ND. apply (sinit_outcome E d s t x t3 R H3 ND). }
    destruct (i_fun d (src_vals E d s) (world s)) as [[res z'] w']. cbn in Hw, Hx.
    rewrite (rel_world E _ _ R').
    destruct x as [v|e|]; [| |injection Hs as <- <-; contradiction];
      specialize (Hx ltac:(discriminate)); specialize (Hw ltac:(discriminate)); cbn in Hs;
      injection Hs as <- <-; destruct res; try discriminate; injection Hx as <-;
      (split; [exact Hr|]); (split; [exact Hw|]); (eapply peek_rel; [exact R'|exact Ho']).
Qed.

(** The result, the contents afterwards, and the world afterwards: exactly one of
    the two alternatives has been evaluated, exactly once. *)
Theorem C23_value_or_copy :
  forall W (E : env W) w p s i d o r s',
    env_ok E -> call_after E w p s (OValueOrCopy i d) r s' -> opt_after E w p i o ->
    match o with
    | Some v => let (res, w') := po_copy (ops E i) v (world s) in
                r = returned res /\ world s' = w' /\ mem s' = mem s
    | None => let '((res, _), w') := i_fun d (src_vals E d s) (world s) in
              r = returned res /\ world s' = w' /\ peek E i s' = Some None
    end.
Proof.
  intros W E w p s i d o r s' HE C Ho.
  destruct (call_spec_at E HE _ _ _ _ _ _ C) as (xs & t & t' & sr & Ht & R & Hs & R' & Hr).
  pose proof (opt_after_at E _ _ _ _ _ _ Ho Ht) as Hi. destruct o as [v|].
  - assert (Hm : mem s' = mem s).
    { pose proof C as (_ & _ & Hst). cbn [step] in Hst. unfold val_, value_or_copy in Hst.
      unfold bind at 1 in Hst. rewrite (bind_ok _ _ _ _ _ (has_value_true E s t i v R Hi)) in Hst.
      unfold run_ini, copy_ini in Hst. cbn [i_src i_const i_fun i_more load_more store_more] in Hst. unfold bind in Hst.
      rewrite (load_rel E s t i v R (sread_eq _ _ _ Hi)) in Hst. unfold ret at 1 in Hst. cbn [joined] in Hst.
      unfold call in Hst.
      destruct (po_copy (ops E i) v (world s)) as [[x|e] w']; cbn in Hst; injection Hst as _ <-; reflexivity. }
    rewrite (rel_world E _ _ R). rewrite (rel_world E _ _ R'). cbn [sstep] in Hs. sunfold Hs. seval Hs.
    destruct (po_copy (ops E i) v (sworld t)) as [[x|e] w']; seval Hs; injection Hs as <- <-; auto.
  - eapply value_or_default; eauto. cbn [sstep] in Hs. unfold sval, s_value_or in *.
    unfold sbind at 1 in Hs. unfold sbind at 1 in Hs. unfold contents in Hs. rewrite Hi in Hs. exact Hs.
Qed.

Theorem C23_value_or_move :
  forall W (E : env W) w p s i d o r s',
    env_ok E -> call_after E w p s (OValueOrMove i d) r s' -> opt_after E w p i o ->
    match o with
    | Some v => let '((res, v'), w') := po_move (ops E i) v (world s) in
                r = returned res /\ world s' = w' /\ peek E i s' = Some (Some v')
    | None => let '((res, _), w') := i_fun d (src_vals E d s) (world s) in
              r = returned res /\ world s' = w' /\ peek E i s' = Some None
    end.
Proof.
  intros W E w p s i d o r s' HE C Ho.
  destruct (call_spec_at E HE _ _ _ _ _ _ C) as (xs & t & t' & sr & Ht & R & Hs & R' & Hr).
  pose proof (opt_after_at E _ _ _ _ _ _ Ho Ht) as Hi. destruct o as [v|].
  - rewrite (rel_world E _ _ R), (rel_world E _ _ R'). cbn [sstep] in Hs. sunfold Hs. seval Hs.
    destruct (po_move (ops E i) v (sworld t)) as [[res v'] w']; seval Hs.
    destruct (storable E i v'); [|sdone Hs Hr]. seval Hs.
    destruct res; seval Hs; injection Hs as <- <-; (split; [exact Hr|]); (split; [reflexivity|]);
      (eapply peek_rel; [exact R'|cbn; apply upd_same]).
  - eapply value_or_default; eauto. cbn [sstep] in Hs. unfold sval, s_value_or in *.
    unfold sbind at 1 in Hs. unfold sbind at 1 in Hs. unfold contents in Hs. rewrite Hi in Hs. exact Hs.
Qed.

Definition counting (x : Z) : ini sworld_t := mkP x x.
Example C23_example dbg :
  exists s s' s2 s2',
    call_after (sample dbg) quiet [OInPlace 30 (mkP 1 2)] s (OValueOrMove 30 (counting 5)) (Ok (ObVal [Atom 1; Atom 2])) s' /\
    opt_after (sample dbg) quiet [OInPlace 30 (mkP 1 2)] 30 (Some [Atom 1; Atom 2]) /\
    call_after (sample dbg) (plan [Some 9]) [ODefault 30] s2 (OValueOrCopy 30 (counting 5)) (Throw (UserExn 9)) s2' /\
    opt_after (sample dbg) (plan [Some 9]) [ODefault 30] 30 None.
Proof. eexists _, _, _, _. split; [ex_call|split; [ex_opt|split; [ex_call|ex_opt]]]. Qed.

(** ** C24: swap *)

(** Moving transfers the value and swapping exchanges the values, without
    exceptions; nothing is assumed about the moved-from value. *)
Definition value_preserving {W} (P : payops W) : Prop :=
  (forall v w, exists v' w', po_move P v w = ((ROk v, v'), w')) /\
  (forall a b w, exists w', po_swap P a b w = ((ROk tt, (b, a)), w')).

Theorem C24_swap_exchanges :
  forall W (E : env W) w p s i j x y r s',
    env_ok E -> value_preserving (ops E i) -> call_after E w p s (OSwap i j) r s' -> i <> j ->
    opt_after E w p i x -> opt_after E w p j y ->
    r = Ok ObUnit /\ peek E i s' = Some y /\ peek E j s' = Some x /\
    forall k, k <> i -> k <> j -> mem s' k = mem s k.
Proof.
  intros W E w p s i j x y r s' HE (Vm & Vs) C N Hx Hy.
  pose proof (C13_swap_outcome W E w p s i j x y r s' HE C N Hx Hy) as H.
  assert (Hloc : forall k, k <> i -> k <> j -> mem s' k = mem s k).
  { intros k Ni Nj. destruct C as (_ & _ & Hst). pose proof (step_local E (OSwap i j) s k) as L.
    rewrite Hst in L. apply L. cbn. intros [Hk|[Hk|[]]]; congruence. }
  assert (Hops : ops E i = ops E j).
  { destruct C as ((_ & zs & t2 & H2) & _ & _). unfold std_run in H2. rewrite srun_app in H2.
    destruct (srun (e_tid E) (ops E) (storable E) (is_value E) p (sinit_state w)) as [[us|] t1]; [|discriminate].
    cbn [srun sstep] in H2. unfold sunit, s_swap, same, sbind in H2.
    destruct (Nat.eqb_spec (e_tid E i) (e_tid E j)) as [He|]; [|discriminate].
    unfold ops, ty. rewrite He. reflexivity. }
  destruct x as [a|], y as [b|].
  - destruct (Vs a b (world s)) as (w' & Hw). rewrite Hw in H. destruct H as (H1 & H2 & H3). auto.
  - destruct (Vm a (world s)) as (v' & w' & Hw). rewrite Hw in H. destruct H as (H1 & H2 & H3). auto.
  - rewrite <- Hops in H. destruct (Vm b (world s)) as (v' & w' & Hw). rewrite Hw in H.
    destruct H as (H1 & H2 & H3). auto.
  - destruct H as (H1 & H2 & H3). auto.
Qed.

(** Swapping twice restores both. *)
Theorem C24_swap_twice :
  forall W (E : env W) w p i j x y s1 s2 r,
    env_ok E -> value_preserving (ops E i) -> i <> j ->
    opt_after E w p i x -> opt_after E w p j y ->
    call_after E w (p ++ [OSwap i j]) s1 (OSwap i j) r s2 ->
    r = Ok ObUnit /\ peek E i s2 = Some x /\ peek E j s2 = Some y.
Proof.
  intros W E w p i j x y s1 s2 r HE V N Hx Hy C.
  pose proof C as (Cc & Hr1 & _). pose proof (contract_app E _ _ _ Cc) as C1.
  pose proof (contract_app E _ _ _ C1) as C0.
  destruct (contract_rel E HE w p C0) as (xs & s & t & Ht & Hr & R).
  assert (exists r1 s1', call_after E w p s (OSwap i j) r1 s1') as (r1 & s1' & Ca).
  { destruct (step E (OSwap i j) s) as [r1 s1'] eqn:Hs. exists r1, s1'. split; [exact C1|].
    split; [exists xs; exact Hr|exact Hs]. }
  destruct (C24_swap_exchanges W E w p s i j x y r1 s1' HE V Ca N Hx Hy) as (_ & P1 & P2 & _).
  pose proof (call_reaches E HE _ _ _ _ _ _ Ca) as Hr1'.
  assert (s1' = s1) as ->.
  { destruct Hr1 as (u1 & H1), Hr1' as (u2 & H2). congruence. }
  assert (Hex : forall k z, k = i \/ k = j -> peek E k s1 = Some z -> opt_after E w (p ++ [OSwap i j]) k z).
  { intros k z Hk Hz. eapply call_opt_after; [exact HE|exact Ca|exact Hz|].
    destruct (call_spec_at E HE _ _ _ _ _ _ Ca) as (us & t0 & t1 & sr & Ht0 & R0 & Hs0 & R1 & Hr0).
    pose proof (opt_after_at E _ _ _ _ _ _ Hx Ht0) as Hi. pose proof (opt_after_at E _ _ _ _ _ _ Hy Ht0) as Hj.
    destruct (C24_swap_exchanges W E w p s i j x y r1 s1 HE V Ca N Hx Hy) as (-> & _).
    assert (exists z1, objs t1 k = Some (SOpt z1)) as (z1 & Hz1).
    { pose proof (rel_robj E _ _ _ k R1 I) as Hrr.
      assert (Hb : exists b, has_value E k s1 = (Ok b, s1)).
      { destruct (peek_has E _ _ _ Hz) as (s9 & H9). rewrite (has_value_same E _ _ _ _ H9) in H9. eauto. }
      assert (N' : j <> i) by congruence. clear Hz Hrr Hb.
      destruct sr as [o|e|]; [|discriminate|contradiction].
      cbn [sstep] in Hs0. sunfold Hs0. destruct (Nat.eqb (e_tid E i) (e_tid E j)); [|discriminate].
      seval Hs0. destruct x as [a|], y as [b|]; seval Hs0; repeat (scase1 Hs0; seval Hs0);
        try discriminate; injection Hs0 as <- <-; cbn; unfold upd;
        destruct Hk as [-> | ->]; rewrite ?Nat.eqb_refl, ?(proj2 (Nat.eqb_neq _ _) N), ?(proj2 (Nat.eqb_neq _ _) N');
        rewrite ?Hi, ?Hj; eauto. }
    exists z1. unfold opt_after, std_run. rewrite srun_app. unfold std_run in Ht0. rewrite Ht0. cbn [srun].
    rewrite Hs0. destruct sr as [o|e|]; [|discriminate|contradiction]. cbn. eauto. }
  destruct (C24_swap_exchanges W E w (p ++ [OSwap i j]) s1 i j y x r s2 HE V C N) as (H1 & H2 & H3 & _).
  - apply (Hex i y (or_introl eq_refl) P1).
  - apply (Hex j x (or_intror eq_refl) P2).
  - auto.
Qed.

Example C24_example dbg :
  value_preserving (ops (sample dbg) 20) /\
  exists s s', call_after (sample dbg) quiet [OInPlace 20 (mkBits 8 1); ODefault 21; OSwap 20 21] s
                          (OSwap 20 21) (Ok ObUnit) s' /\
    opt_after (sample dbg) quiet [OInPlace 20 (mkBits 8 1); ODefault 21] 20 (Some (word 8 1)) /\
    opt_after (sample dbg) quiet [OInPlace 20 (mkBits 8 1); ODefault 21] 21 None.
Proof.
  split; [split; [intros v w; exists v, w; reflexivity|intros a b w; exists w; reflexivity]|].
  eexists _, _. split; [ex_call|split; ex_opt].
Qed.
