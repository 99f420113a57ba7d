(** * Refine: the library refines std::optional, call by call

    [rel] relates machine states to abstract states; [refines m sm] says that the
    machine code [m] behaves as the abstract [sm] wherever the latter is defined. *)

From Coq Require Import List NArith ZArith Bool Arith Lia.
From Verif Require Import Cells CellsFacts Machine Optional Program Spec Laws.
Import ListNotations.

Local Arguments put : simpl never.
Local Arguments sub : simpl never.

Section Refine.
  Context {W : Type}.
  Variable E : env W.
  Hypothesis HE : env_ok E.

  Notation stor := (storable E).
  Notation isv := (is_value E).
  Notation tid := (e_tid E).
  Notation pops := (ops E).

  (** Region [r] represents abstract object [x] of variable [i]. *)
  Definition robj (i : loc) (r : option region) (x : option sobj) : Prop :=
    match x with
    | None => r = None
    | Some (SOpt None) =>
        exists c, r = Some (MkRegion c true false) /\ length c = d_ssize (dec E i) /\
                  m_is_empty (man E i) (flag_cells (dec E i) c) = Some true
    | Some (SOpt (Some v)) =>
        exists c, r = Some (MkRegion c (d_sep (dec E i)) true) /\
                  length c = d_ssize (dec E i) /\
                  sub 0 (d_psize (dec E i)) c = v /\
                  m_is_empty (man E i) (flag_cells (dec E i) c) = Some false
    | Some (SVar v) => r = Some (MkRegion v false true) /\ length v = d_psize (dec E i)
    end.

  (** Reserved storage without objects; [ready]: and a separate flag says
      "not empty". *)
  Definition raw (i : loc) (r : option region) : Prop :=
    exists c, r = Some (MkRegion c (d_sep (dec E i)) false) /\ length c = d_ssize (dec E i).
  Definition ready (i : loc) (r : option region) : Prop :=
    exists c, r = Some (MkRegion c (d_sep (dec E i)) false) /\ length c = d_ssize (dec E i) /\
              (d_sep (dec E i) = true ->
               m_is_empty (man E i) (flag_cells (dec E i) c) = Some false).

  (** A place where machine and abstract state are temporarily out of step. *)
  Inductive hole : Type :=
  | NoHole
  | Hole (i : loc) (P : option region -> Prop).

  Definition rel_at (h : hole) (s : state W) (t : sstate W) (j : loc) : Prop :=
    match h with
    | Hole i P =>
        if Nat.eqb i j
        then P (mem s i) /\ (objs t i = None \/ objs t i = Some (SOpt None))
        else robj j (mem s j) (objs t j)
    | NoHole => robj j (mem s j) (objs t j)
    end.

  Definition no_abandon (l : list event) : Prop := forall i, ~ In (EvPayAbandoned i) l.

  Definition rel (h : hole) (s : state W) (t : sstate W) : Prop :=
    world s = sworld t /\ no_abandon (trace s) /\ forall j, rel_at h s t j.

  Definition agrees {A} (h : hole) (r : out A * state W) (sr : sout A * sstate W) : Prop :=
    match sr with
    | (SOk a, t') => exists s', r = (Ok a, s') /\ rel h s' t'
    | (SThrow e, t') => exists s', r = (Throw e, s') /\ rel h s' t'
    | (SUndef, _) => True
    end.

  Definition refines {A} (h : hole) (m : M W A) (sm : @S W A) : Prop :=
    forall s t, rel h s t -> agrees h (m s) (sm t).

  (** ** Structural rules *)

  Lemma bind_ok {A B} (m : M W A) (k : A -> M W B) s a s' :
    m s = (Ok a, s') -> bind m k s = k a s'.
  Proof. intros H. unfold bind. rewrite H. reflexivity. Qed.
  Lemma bind_throw {A B} (m : M W A) (k : A -> M W B) s e s' :
    m s = (Throw e, s') -> bind m k s = (Throw e, s').
  Proof. intros H. unfold bind. rewrite H. reflexivity. Qed.

  Lemma refines_ret {A} h (a : A) : refines h (ret a) (sret a).
  Proof. intros s t R. exists s. split; [reflexivity|exact R]. Qed.

  Lemma refines_throw {A} h e : refines h (@throw W A e) (sthrow e).
  Proof. intros s t R. exists s. split; [reflexivity|exact R]. Qed.

  Lemma refines_undef {A} h (m : M W A) : refines h m sundef.
  Proof. intros s t R. exact I. Qed.

  Lemma refines_bind {A B} h (m : M W A) sm (k : A -> M W B) sk :
    refines h m sm -> (forall a, refines h (k a) (sk a)) ->
    refines h (bind m k) (sbind sm sk).
  Proof.
    intros Hm Hk s t R. specialize (Hm s t R). unfold agrees, bind, sbind in *.
    destruct (sm t) as [[a|e|] t'].
    - destruct Hm as (s' & -> & R'). apply Hk, R'.
    - destruct Hm as (s' & -> & R'). eauto.
    - exact I.
  Qed.

  Lemma refines_call {A} h (f : W -> A * W) : refines h (call f) (suser f).
  Proof.
    intros s t (Hw & Ht & Hj). unfold call, suser, agrees. rewrite Hw.
    destruct (f (sworld t)) as [a w']. eexists. split; [reflexivity|].
    split; [reflexivity|]. split; [exact Ht|]. exact Hj.
  Qed.

  Lemma refines_lift {A} h (r : res A) : refines h (lift_res r) (sres r).
  Proof. destruct r; [apply refines_ret|apply refines_throw]. Qed.

  (** ** State access lemmas *)

  Lemma upd_same {A} (f : loc -> option A) i x : upd f i x i = x.
  Proof. unfold upd. rewrite Nat.eqb_refl. reflexivity. Qed.
  Lemma upd_other {A} (f : loc -> option A) i x j : i <> j -> upd f i x j = f j.
  Proof. intros H. unfold upd. apply Nat.eqb_neq in H. rewrite H. reflexivity. Qed.

  Definition outside (h : hole) (j : loc) : Prop :=
    match h with NoHole => True | Hole i _ => i <> j end.

  Lemma rel_robj h s t j : rel h s t -> outside h j -> robj j (mem s j) (objs t j).
  Proof.
    intros (_ & _ & Hj) O. specialize (Hj j). destruct h as [|i P]; [exact Hj|].
    cbn in *. apply Nat.eqb_neq in O. rewrite O in Hj. exact Hj.
  Qed.

  Lemma rel_outside h s t j v :
    rel h s t -> objs t j = Some (SOpt (Some v)) \/ objs t j = Some (SVar v) -> outside h j.
  Proof.
    intros (_ & _ & Hj) O. destruct h as [|i P]; [exact I|]. cbn. intros ->.
    specialize (Hj j). cbn in Hj. rewrite Nat.eqb_refl in Hj. destruct Hj as (_ & [H|H]);
      rewrite H in O; destruct O; congruence.
  Qed.

  (** Changing one location consistently on both sides. *)
  Lemma rel_upd h s t i r x w l :
    rel h s t -> outside h i -> robj i r x -> no_abandon l ->
    rel h (MkState (upd (mem s) i r) w l) (MkS (upd (objs t) i x) w).
  Proof.
    intros (Hw & Ht & Hj) O Ho Hl. split; [reflexivity|]. split; [exact Hl|].
    intros j. specialize (Hj j). destruct h as [|k P]; cbn in *.
    - unfold upd. destruct (Nat.eqb_spec i j) as [->|N]; [exact Ho|exact Hj].
    - destruct (Nat.eqb_spec k j) as [->|N].
      + rewrite !upd_other by congruence. exact Hj.
      + unfold upd. destruct (Nat.eqb_spec i j) as [->|N2]; [exact Ho|exact Hj].
  Qed.

  Lemma ok_d i : decomp_ok (dec E i).
  Proof. apply (ok_dec _ (HE (e_tid E i))). Qed.
  Lemma ok_m i : manip_ok (dec E i) (man E i).
  Proof. apply (ok_man _ (HE (e_tid E i))). Qed.
  Lemma ok_p i : payops_ok (ops E i).
  Proof. apply (ok_ops _ (HE (e_tid E i))). Qed.

  Definition is_some {A} (o : option A) : bool := match o with Some _ => true | None => false end.

  (** has_value is exact and changes nothing. *)
  Lemma has_value_eq h s t i o :
    rel h s t -> outside h i -> objs t i = Some (SOpt o) ->
    has_value E i s = (Ok (is_some o), s).
  Proof.
    intros R O Ho. pose proof (rel_robj _ _ _ _ R O) as Hr. rewrite Ho in Hr.
    unfold has_value, fm_is_empty, bind, get_region, ret.
    destruct o as [v|]; cbn in Hr.
    - destruct Hr as (c & -> & _ & _ & He). cbn. unfold flag_cells in He. rewrite He.
      destruct (d_sep (dec E i)); reflexivity.
    - destruct Hr as (c & -> & _ & He). cbn. unfold flag_cells in He. rewrite He. reflexivity.
  Qed.

  Lemma assert_true (s : state W) (c : M W bool) : c s = (Ok true, s) -> assert_ E c s = (Ok tt, s).
  Proof.
    intros H. unfold assert_, bind. destruct (e_dbg E); [rewrite H|]; reflexivity.
  Qed.

  Lemma not_eq (s : state W) (c : M W bool) b : c s = (Ok b, s) -> not_ c s = (Ok (negb b), s).
  Proof. intros H. unfold not_, bind. rewrite H. reflexivity. Qed.

  Lemma refines_contents_bind {B} h i (k : bool -> M W B) (sk : option rep -> @S W B) :
    outside h i ->
    (forall s t o, rel h s t -> objs t i = Some (SOpt o) ->
                   agrees h (k (is_some o) s) (sk o t)) ->
    refines h (bind (has_value E i) k) (sbind (contents i) sk).
  Proof.
    intros O H s t R. unfold sbind, contents.
    destruct (objs t i) as [[o|v]|] eqn:Ho; try exact I.
    unfold bind. rewrite (has_value_eq _ _ _ _ _ R O Ho). apply H; assumption.
  Qed.

  (** Payload references. *)
  Lemma refines_load h i : refines h (load_payload E i) (sread i).
  Proof.
    intros s t R. unfold agrees, sread, load_payload, bind, get_region.
    destruct (objs t i) as [[[v|]|v]|] eqn:Ho; try exact I.
    - pose proof (rel_robj _ _ _ _ R (rel_outside _ _ _ _ _ R (or_introl Ho))) as Hr.
      rewrite Ho in Hr. destruct Hr as (c & -> & _ & Hv & _). cbn. rewrite Hv. exists s. split; [reflexivity|exact R].
    - pose proof (rel_robj _ _ _ _ R (rel_outside _ _ _ _ _ R (or_intror Ho))) as Hr.
      rewrite Ho in Hr. destruct Hr as (-> & L). cbn. rewrite <- L, sub_full. exists s. split; [reflexivity|exact R].
  Qed.

  Lemma stor_len i v : stor i v = true -> length v = d_psize (dec E i).
  Proof.
    unfold storable, storable_in. intros H. apply andb_true_iff in H as (H & _).
    apply Nat.eqb_eq, H.
  Qed.

  (** Writing a storable payload into storage that is ready or engaged. *)
  Lemma store_engaged i c v :
    length c = d_ssize (dec E i) -> stor i v = true ->
    (d_sep (dec E i) = true -> m_is_empty (man E i) (flag_cells (dec E i) c) = Some false) ->
    robj i (Some (MkRegion (put 0 v c) (d_sep (dec E i)) true)) (Some (SOpt (Some v))).
  Proof.
    intros L St Hs. pose proof (ok_d i) as D. pose proof (stor_len _ _ St) as Lv.
    pose proof (do_pay _ D). pose proof (do_flag _ D).
    exists (put 0 v c). split; [reflexivity|]. split; [|split].
    - rewrite length_put; lia.
    - apply sub_put_same'; lia.
    - unfold flag_cells in *. destruct (d_sep (dec E i)) eqn:Sep.
      + pose proof (do_sep _ D Sep). rewrite sub_put_disj; [auto|lia|lia|right; lia].
      + pose proof (do_inpl _ D Sep). rewrite sub_put_inside by lia.
        unfold storable, storable_in in St. apply andb_true_iff in St as (_ & St).
        rewrite Sep in St. cbn in St. unfold flag_cells in St.
        destruct (m_is_empty (man E i) (sub (d_foff (dec E i)) (d_fsize (dec E i)) v)) as [[|]|];
          congruence.
  Qed.

  Lemma refines_store h i v : refines h (store_payload E i v) (swrite stor isv i v).
  Proof.
    intros s t R. unfold agrees, swrite, store_payload, bind, get_region.
    destruct (objs t i) as [[[v0|]|v0]|] eqn:Ho; try exact I.
    - pose proof (rel_outside _ _ _ _ _ R (or_introl Ho)) as O.
      pose proof (rel_robj _ _ _ _ R O) as Hr.
      rewrite Ho in Hr. destruct Hr as (c & -> & L & Hv & He). cbn.
      destruct (stor i v) eqn:St; [|exact I].
      rewrite (proj2 (Nat.eqb_eq _ _) (stor_len _ _ St)). cbn. eexists. split; [reflexivity|].
      unfold set_region. destruct R as (Hw & Ht & Hj). rewrite <- Hw.
      apply rel_upd; [split; [|split]|..]; auto.
      apply store_engaged; auto.
    - pose proof (rel_outside _ _ _ _ _ R (or_intror Ho)) as O.
      pose proof (rel_robj _ _ _ _ R O) as Hr.
      rewrite Ho in Hr. destruct Hr as (-> & L). cbn.
      unfold is_value. destruct (Nat.eqb_spec (length v) (d_psize (dec E i))) as [Lv|]; [|exact I].
      cbn. eexists. split; [reflexivity|].
      destruct R as (Hw & Ht & Hj). rewrite <- Hw.
      apply rel_upd; [split; [|split]|..]; auto.
      rewrite put_full by lia. split; [reflexivity|exact Lv].
  Qed.

  Lemma refines_load_more h l : refines h (load_more E l) (sread_more l).
  Proof.
    induction l as [|[j c] l IH]; cbn; [apply refines_ret|].
    apply refines_bind; [apply refines_load|intros v].
    apply refines_bind; [exact IH|intros vs; apply refines_ret].
  Qed.
  Lemma refines_store_more h l : forall vs, refines h (store_more E l vs) (swrite_more stor isv l vs).
  Proof.
    induction l as [|[j c] l IH]; intros [|v vs]; cbn; try apply refines_ret.
    apply refines_bind; [|intros _; apply IH]. destruct c; [apply refines_ret|apply refines_store].
  Qed.

  Lemma refines_ini h n : refines h (run_ini E n) (sinit stor isv n).
  Proof.
    unfold run_ini, sinit. apply refines_bind.
    - destruct (i_src n); [apply refines_load|apply refines_ret].
    - intros src. apply refines_bind; [apply refines_load_more|]. intros more.
      apply refines_bind; [apply refines_call|]. intros p.
      apply refines_bind; [|intros _; apply refines_bind; [apply refines_store_more|intros _; apply refines_lift]].
      destruct (i_src n); [|apply refines_ret].
      destruct (i_const n); [apply refines_ret|apply refines_store].
  Qed.

  (** [sinit] does not create or destroy objects. *)
  Definition shape (o : option sobj) : nat :=
    match o with None => 0 | Some (SOpt None) => 1 | Some (SOpt (Some _)) => 2 | Some (SVar _) => 3 end.

  Lemma swrite_shape i v (t : sstate W) r t' j :
    swrite stor isv i v t = (r, t') -> shape (objs t' j) = shape (objs t j).
  Proof.
    unfold swrite, become, sset, sundef.
    destruct (objs t i) as [[[v0|]|v0]|] eqn:Ho; try (intros [= <- <-]; reflexivity).
    - destruct (stor i v); intros [= <- <-]; [|reflexivity]. cbn. unfold upd.
      destruct (Nat.eqb_spec i j) as [<-|]; [rewrite Ho|]; reflexivity.
    - destruct (isv i v); intros [= <- <-]; [|reflexivity]. cbn. unfold upd.
      destruct (Nat.eqb_spec i j) as [<-|]; [rewrite Ho|]; reflexivity.
  Qed.

  Lemma sread_state i (t : sstate W) r t' : sread i t = (r, t') -> t' = t.
  Proof. unfold sread. destruct (objs t i) as [[[v0|]|v0]|]; congruence. Qed.

  Lemma sread_throws i (t : sstate W) e t' : sread i t <> (SThrow e, t').
  Proof. unfold sread. destruct (objs t i) as [[[v0|]|v0]|]; congruence. Qed.
  Lemma swrite_throws i v (t : sstate W) e t' : swrite stor isv i v t <> (SThrow e, t').
  Proof.
    unfold swrite, become, sset, sundef. destruct (objs t i) as [[[v0|]|v0]|]; try congruence.
    - destruct (stor i v); congruence.
    - destruct (isv i v); congruence.
  Qed.
  Lemma sread_more_state l (t : sstate W) : forall r t', sread_more l t = (r, t') -> t' = t.
  Proof.
    induction l as [|[j c] l IH]; cbn; unfold sbind, sret; [congruence|]. intros r t'.
    destruct (sread j t) as [[v|e|] t1] eqn:H1; pose proof (sread_state _ _ _ _ H1) as ->; try congruence.
    destruct (sread_more l t) as [[vs|e|] t2] eqn:H2; rewrite (IH _ _ eq_refl); congruence.
  Qed.
  Lemma sread_more_throws l (t : sstate W) e t' : sread_more l t <> (SThrow e, t').
  Proof.
    revert t'. induction l as [|[j c] l IH]; cbn; unfold sbind, sret; [congruence|]. intros t'.
    destruct (sread j t) as [[v|e'|] t1] eqn:H1; pose proof (sread_state _ _ _ _ H1) as ->; try congruence.
    - destruct (sread_more l t) as [[vs|e'|] t2] eqn:H2; congruence.
    - exfalso. exact (sread_throws _ _ _ _ H1).
  Qed.
  Lemma swrite_more_shape l j : forall vs (t : sstate W) r t',
    swrite_more stor isv l vs t = (r, t') -> shape (objs t' j) = shape (objs t j).
  Proof.
    induction l as [|[k c] l IH]; intros [|v vs] t r t'; cbn; unfold sbind, sret; try congruence.
    destruct c; [apply IH|].
    destruct (swrite stor isv k v t) as [[[]|e|] t1] eqn:H1; intros H;
      try (injection H as <- <-); try (rewrite <- (swrite_shape _ _ _ _ _ j H1)); eauto.
  Qed.
  Lemma swrite_more_throws l e t' : forall vs (t : sstate W), swrite_more stor isv l vs t <> (SThrow e, t').
  Proof.
    induction l as [|[k c] l IH]; intros [|v vs] t; cbn; unfold sbind, sret; try congruence.
    destruct c; [apply IH|].
    destruct (swrite stor isv k v t) as [[[]|e'|] t1] eqn:H1; [apply IH| |congruence].
    exfalso. exact (swrite_throws _ _ _ _ _ H1).
  Qed.

  Lemma sinit_shape n (t : sstate W) r t' j :
    sinit stor isv n t = (r, t') -> shape (objs t' j) = shape (objs t j).
  Proof.
    unfold sinit, sbind. intros H.
    destruct (match i_src n with Some j0 => sread j0 | None => sret [] end t) as [r1 t1] eqn:H1.
    assert (t1 = t) as ->.
    { destruct (i_src n); [eapply sread_state, H1|]. unfold sret in H1. congruence. }
    destruct r1 as [src|e|]; try (injection H as <- <-; reflexivity).
    destruct (sread_more (i_more n) t) as [r1 t1] eqn:H3. pose proof (sread_more_state _ _ _ _ H3) as ->.
    destruct r1 as [more|e|]; try (injection H as <- <-; reflexivity).
    unfold suser in H. destruct (i_fun n (joined src more) (sworld t)) as [p w'].
    set (t2 := MkS (objs t) w') in *.
    destruct (match i_src n with
              | Some j0 => if i_const n then sret tt
                           else swrite stor isv j0 (fst (parted src more (snd p)))
              | None => sret tt end t2) as [r2 t3] eqn:H2.
    assert (shape (objs t3 j) = shape (objs t2 j)) as Hs.
    { destruct (i_src n) as [k|]; [destruct (i_const n)|];
        try (unfold sret in H2; injection H2 as <- <-; reflexivity).
      eapply swrite_shape, H2. }
    destruct r2; try (injection H as <- <-; exact Hs).
    destruct (swrite_more stor isv (i_more n) (snd (parted src more (snd p))) t3) as [r4 t4] eqn:H4.
    pose proof (swrite_more_shape _ j _ _ _ _ H4) as Hs4.
    assert (shape (objs t4 j) = shape (objs t2 j)) as Hs5 by congruence.
    destruct r4; [destruct (fst p)|..]; cbn in H; unfold sret, sthrow in H; injection H as <- <-; exact Hs5.
  Qed.

  (** ** Lifecycle of one storage *)

  Definition emptyr (i : loc) (r : option region) : Prop := robj i r (Some (SOpt None)).
  Definition gone (r : option region) : Prop := r = None.

  Definition vacant (t : sstate W) (i : loc) : Prop :=
    objs t i = None \/ objs t i = Some (SOpt None).

  Lemma hole_inv i P s t : rel (Hole i P) s t -> P (mem s i) /\ vacant t i.
  Proof.
    intros (_ & _ & Hj). specialize (Hj i). cbn in Hj. rewrite Nat.eqb_refl in Hj. exact Hj.
  Qed.

  (** Move from one hole to another by changing the machine at [i] only. *)
  Lemma hole_step i (P Q : option region -> Prop) s t r l :
    rel (Hole i P) s t -> Q r -> no_abandon l ->
    rel (Hole i Q) (MkState (upd (mem s) i r) (world s) l) t.
  Proof.
    intros (Hw & Ht & Hj) Hq Hl. split; [exact Hw|]. split; [exact Hl|].
    intros j. specialize (Hj j). cbn in *. destruct (Nat.eqb i j) eqn:Eij.
    - apply Nat.eqb_eq in Eij. subst j. rewrite upd_same. split; [exact Hq|apply Hj].
    - rewrite upd_other by (apply Nat.eqb_neq; exact Eij). exact Hj.
  Qed.

  Lemma rel_to_hole i s t :
    rel NoHole s t -> objs t i = Some (SOpt None) -> rel (Hole i (emptyr i)) s t.
  Proof.
    intros (Hw & Ht & Hj) Ho. split; [exact Hw|]. split; [exact Ht|].
    intros j. specialize (Hj j). cbn in *. destruct (Nat.eqb i j) eqn:Eij; [|exact Hj].
    apply Nat.eqb_eq in Eij. subst j. rewrite Ho in Hj. split; [exact Hj|right; exact Ho].
  Qed.

  Lemma hole_to_rel i s t :
    rel (Hole i (emptyr i)) s t -> objs t i = Some (SOpt None) -> rel NoHole s t.
  Proof.
    intros (Hw & Ht & Hj) Ho. split; [exact Hw|]. split; [exact Ht|].
    intros j. specialize (Hj j). cbn in *. destruct (Nat.eqb i j) eqn:Eij; [|exact Hj].
    apply Nat.eqb_eq in Eij. subst j. rewrite Ho. apply Hj.
  Qed.

  Lemma hole_fill i P s t x :
    rel (Hole i P) s t -> robj i (mem s i) x ->
    rel NoHole s (MkS (upd (objs t) i x) (sworld t)).
  Proof.
    intros (Hw & Ht & Hj) Hx. split; [exact Hw|]. split; [exact Ht|].
    intros j. specialize (Hj j). cbn in *. destruct (Nat.eqb i j) eqn:Eij.
    - apply Nat.eqb_eq in Eij. subst j. rewrite upd_same. exact Hx.
    - rewrite upd_other by (apply Nat.eqb_neq; exact Eij). exact Hj.
  Qed.

  Lemma hole_gone i s t :
    rel (Hole i gone) s t -> objs t i = None -> rel NoHole s t.
  Proof.
    intros (Hw & Ht & Hj) Ho. split; [exact Hw|]. split; [exact Ht|].
    intros j. specialize (Hj j). cbn in *. destruct (Nat.eqb i j) eqn:Eij; [|exact Hj].
    apply Nat.eqb_eq in Eij. subst j. rewrite Ho. apply Hj.
  Qed.

  Lemma hole_weaken i (P Q : option region -> Prop) s t :
    (forall r, P r -> Q r) -> rel (Hole i P) s t -> rel (Hole i Q) s t.
  Proof.
    intros H (Hw & Ht & Hj). split; [exact Hw|]. split; [exact Ht|].
    intros j. specialize (Hj j). cbn in *. destruct (Nat.eqb i j); [|exact Hj].
    destruct Hj as (A & B). auto.
  Qed.

  Lemma no_abandon_cons e l :
    (forall i, e <> EvPayAbandoned i) -> no_abandon l -> no_abandon (e :: l).
  Proof. intros He Hl k [K|K]; [exact (He k K)|exact (Hl k K)]. Qed.

  Lemma ready_raw i r : ready i r -> raw i r.
  Proof. intros (c & H1 & H2 & _). exists c. auto. Qed.

  Lemma hole_has_value i s t :
    rel (Hole i (emptyr i)) s t -> has_value E i s = (Ok false, s).
  Proof.
    intros R. destruct (hole_inv _ _ _ _ R) as ((c & Hm & _ & He) & _).
    unfold has_value, fm_is_empty, bind, get_region, ret. rewrite Hm. cbn.
    unfold flag_cells in He. rewrite He. reflexivity.
  Qed.

  Lemma alloc_ok i s t :
    rel NoHole s t -> objs t i = None ->
    exists s', alloc E i s = (Ok tt, s') /\ rel (Hole i (raw i)) s' t.
  Proof.
    intros (Hw & Ht & Hj) Ho. pose proof (Hj i) as Hi. cbn in Hi. rewrite Ho in Hi.
    unfold alloc. rewrite Hi. eexists. split; [reflexivity|].
    split; [exact Hw|]. split; [exact Ht|].
    intros j. specialize (Hj j). cbn in *. destruct (Nat.eqb i j) eqn:Eij.
    - apply Nat.eqb_eq in Eij. subst j. rewrite upd_same. split; [|left; exact Ho].
      eexists. split; [reflexivity|]. apply length_indets.
    - rewrite upd_other by (apply Nat.eqb_neq; exact Eij). exact Hj.
  Qed.

  Lemma invalidate_ok i s t :
    rel (Hole i (emptyr i)) s t ->
    exists s', fm_invalidate E i s = (Ok tt, s') /\ rel (Hole i (ready i)) s' t.
  Proof.
    intros R. destruct (hole_inv _ _ _ _ R) as ((c & Hm & L & He) & Hv).
    assert (Ht : no_abandon (trace s)) by apply R.
    pose proof (ok_d i) as D. pose proof (ok_m i) as F. pose proof (do_flag _ D) as Df.
    unfold fm_invalidate, bind, get_region. rewrite Hm. cbn. unfold flag_cells in He. rewrite He.
    rewrite orb_true_r.
    assert (Lc : length (sub (d_foff (dec E i)) (d_fsize (dec E i)) c) = d_fsize (dec E i))
      by (apply length_sub; lia).
    pose proof (mo_inval_len _ _ F _ Lc) as Li.
    assert (ready i (Some (MkRegion
      (put (d_foff (dec E i)) (m_inval (man E i) (sub (d_foff (dec E i)) (d_fsize (dec E i)) c)) c)
      (d_sep (dec E i)) false))) as Hready.
    { eexists. split; [reflexivity|]. split.
      - rewrite length_put; lia.
      - intros Sep. unfold flag_cells. rewrite sub_put_same' by lia.
        apply (mo_inval _ _ F); auto. }
    destruct (d_sep (dec E i)) eqn:Sep; cbn; eexists; (split; [reflexivity|]).
    - refine (hole_step i _ _ s t _ _ R Hready _); try exact Ht.
    - refine (hole_step i _ _ s t _ _ R Hready _); try exact Ht. apply no_abandon_cons; [congruence|exact Ht].
  Qed.

  Lemma init_ok i s t :
    rel (Hole i (raw i)) s t ->
    exists s', fm_init E i s = (Ok tt, s') /\ rel (Hole i (emptyr i)) s' t.
  Proof.
    intros R. destruct (hole_inv _ _ _ _ R) as ((c & Hm & L) & Hv).
    assert (Ht : no_abandon (trace s)) by apply R.
    pose proof (ok_d i) as D. pose proof (ok_m i) as F. pose proof (do_flag _ D) as Df.
    assert (Lc : length (sub (d_foff (dec E i)) (d_fsize (dec E i)) c) = d_fsize (dec E i))
      by (apply length_sub; lia).
    pose proof (mo_init_len _ _ F _ Lc) as Li.
    unfold fm_init, bind, get_region. rewrite Hm. cbn.
    assert (emptyr i (Some (MkRegion
      (put (d_foff (dec E i)) (m_init (man E i) (sub (d_foff (dec E i)) (d_fsize (dec E i)) c)) c)
      true false))) as Ho.
    { eexists. split; [reflexivity|]. split; [rewrite length_put; lia|].
      unfold flag_cells. rewrite sub_put_same' by lia. apply (mo_init _ _ F _ Lc). }
    destruct (d_sep (dec E i)) eqn:Sep; cbn; eexists; (split; [reflexivity|]).
    - refine (hole_step i _ _ s t _ _ R Ho _); try exact Ht.
    - refine (hole_step i _ _ s t _ _ R Ho _); try exact Ht. apply no_abandon_cons; [congruence|exact Ht].
  Qed.

  (** Placement new into ready storage: agrees with "evaluate, then contain". *)
  Lemma placement_agrees i n s t :
    rel (Hole i (ready i)) s t ->
    match sbind (sinit stor isv n) (fun v => become stor i (Some v)) t with
    | (SOk _, t') => exists s', placement_new E i n s = (Ok tt, s') /\ rel NoHole s' t'
    | (SThrow e, t') =>
        exists s', placement_new E i n s = (Throw e, s') /\ rel (Hole i (ready i)) s' t'
    | (SUndef, _) => True
    end.
  Proof.
    intros R. pose proof (refines_ini _ n s t R) as Hn. unfold agrees in Hn.
    unfold sbind, placement_new.
    destruct (sinit stor isv n t) as [[v|e|] t'].
    - destruct Hn as (s' & Hr & R'). rewrite (bind_ok _ _ _ _ _ Hr).
      clear Hr. unfold become. destruct (stor i v) eqn:St; [|exact I]. cbn.
      destruct (hole_inv _ _ _ _ R') as ((c & Hm & L & Hs) & Hv).
      unfold bind, get_region. rewrite Hm. cbn.
      rewrite (proj2 (Nat.eqb_eq _ _) (stor_len _ _ St)).
      assert (d_sep (dec E i) && negb (d_sep (dec E i)) = false) as ->
        by (destruct (d_sep (dec E i)); reflexivity).
      cbn. eexists. split; [reflexivity|].
      eapply hole_fill with (P := fun _ => True).
      + refine (hole_step i (ready i) _ s' t' _ _ R' I _).
        apply no_abandon_cons; [congruence|apply R'].
      + cbn [mem]. rewrite upd_same. apply store_engaged; auto.
    - destruct Hn as (s' & Hr & R'). rewrite (bind_throw _ _ _ _ _ Hr). eauto.
    - exact I.
  Qed.

  (** An initializer that is truthfully nothrow does not throw. *)
  Lemma sinit_nothrow n (t : sstate W) e t' :
    ini_ok n -> i_nothrow n = true -> sinit stor isv n t <> (SThrow e, t').
  Proof.
    intros Hok Nt Hi. specialize (Hok Nt). unfold sinit, sbind in Hi.
    destruct (match i_src n with Some j0 => sread j0 | None => sret [] end t)
      as [[src|e0|] t1] eqn:Hq.
    - destruct (sread_more (i_more n) t1) as [[more|e1|] t2] eqn:Hm; [|exact (sread_more_throws _ _ _ _ Hm)|congruence].
      pose proof (sread_more_state _ _ _ _ Hm) as ->. clear Hm.
      unfold suser in Hi. pose proof (Hok (joined src more) (sworld t1)) as Hnt.
      destruct (i_fun n (joined src more) (sworld t1)) as [p w']. cbn in Hnt.
      match type of Hi with match ?X with _ => _ end = _ => destruct X as [[?|?|] ?] eqn:Hx end.
      + destruct (swrite_more stor isv (i_more n) (snd (parted src more (snd p))) s) as [[?|?|] ?] eqn:Hy;
          [|exact (swrite_more_throws _ _ _ _ _ Hy)|congruence].
        unfold sres, sret in Hi. destruct (fst p); cbn in *; [congruence|exact Hnt].
      + unfold sret in Hx. destruct (i_src n); [destruct (i_const n)|]; cbn in Hx; try congruence.
        unfold swrite, become, sset, sundef in Hx. cbn in Hx.
        destruct (objs t1 l) as [[[?|]|?]|]; try congruence.
        * destruct (stor l _); congruence.
        * destruct (isv l _); congruence.
      + congruence.
    - unfold sret in Hq. destruct (i_src n); cbn in Hq; [|congruence].
      unfold sread in Hq. destruct (objs t l) as [[[?|]|?]|]; congruence.
    - congruence.
  Qed.

  Lemma become_not_throw i o (t : sstate W) e t' : become stor i o t <> (SThrow e, t').
  Proof.
    unfold become, sset, sundef. destruct o as [v|]; [destruct (stor i v)|]; congruence.
  Qed.

  (** ConstructPayload(FromFunction) on an empty optional. *)
  Lemma construct_hole i n s t :
    rel (Hole i (emptyr i)) s t -> ini_ok n ->
    match sbind (sinit stor isv n) (fun v => become stor i (Some v)) t with
    | (SOk _, t') => exists s', construct_payload E i n s = (Ok tt, s') /\ rel NoHole s' t'
    | (SThrow e, t') =>
        exists s', construct_payload E i n s = (Throw e, s') /\
                   rel (Hole i (emptyr i)) s' t' /\ shape (objs t' i) = shape (objs t i)
    | (SUndef, _) => True
    end.
  Proof.
    intros R Hok.
    destruct (invalidate_ok _ _ _ R) as (s1 & H1 & R1).
    pose proof (placement_agrees _ n _ _ R1) as HP.
    assert (Pre : forall k : M W unit,
      bind (assert_ E (not_ (has_value E i))) (fun _ => bind (fm_invalidate E i) (fun _ => k)) s
      = k s1).
    { intros k. rewrite (bind_ok _ _ _ _ _ (assert_true s (not_ (has_value E i))
        (not_eq s _ false (hole_has_value _ _ _ R)))).
      rewrite (bind_ok _ _ _ _ _ H1). reflexivity. }
    unfold construct_payload, noexcept_if. rewrite Pre. clear Pre.
    destruct (sbind (sinit stor isv n) (fun v => become stor i (Some v)) t) as [[u|e|] t'] eqn:HS;
      [..|exact I].
    - destruct HP as (s2 & HP & R2).
      assert (exists v, objs t' i = Some (SOpt (Some v))) as (v & Ho').
      { unfold sbind in HS. destruct (sinit stor isv n t) as [[v|?|] t2]; try discriminate.
        unfold become in HS. destruct (stor i v); [|discriminate]. cbn in HS.
        injection HS as <- <-. exists v. cbn. apply upd_same. }
      pose proof (assert_true _ _ (has_value_eq NoHole _ _ _ _ R2 I Ho')) as Hh.
      exists s2. split; [|exact R2]. destruct (i_nothrow n).
      + rewrite (bind_ok _ _ _ _ _ HP), Hh. reflexivity.
      + assert (on_throw (placement_new E i n) (fm_init E i) s1 = (Ok tt, s2)) as HP'
          by (unfold on_throw; rewrite HP; reflexivity).
        rewrite (bind_ok _ _ _ _ _ HP'), Hh. reflexivity.
    - destruct HP as (s2 & HP & R2).
      assert (Hi : sinit stor isv n t = (SThrow e, t')).
      { unfold sbind in HS. destruct (sinit stor isv n t) as [[v|e'|] t2] eqn:Hi; try congruence.
        destruct (become_not_throw _ _ _ _ _ HS). }
      destruct (i_nothrow n) eqn:Nt; [destruct (sinit_nothrow _ _ _ _ Hok Nt Hi)|].
      destruct (init_ok i s2 t') as (s3 & H3 & R3).
      { eapply hole_weaken; [apply ready_raw|exact R2]. }
      exists s3. split; [|split; [exact R3|eapply sinit_shape, Hi]].
      assert (on_throw (placement_new E i n) (fm_init E i) s1 = (Throw e, s3)) as HP'
        by (unfold on_throw; rewrite HP, H3; reflexivity).
      rewrite (bind_throw _ _ _ _ _ HP'). reflexivity.
  Qed.

  Lemma construct_agrees i n s t :
    rel NoHole s t -> objs t i = Some (SOpt None) -> ini_ok n ->
    agrees NoHole (construct_payload E i n s)
           (sbind (sinit stor isv n) (fun v => become stor i (Some v)) t).
  Proof.
    intros R Ho Hok. pose proof (construct_hole i n s t (rel_to_hole _ _ _ R Ho) Hok) as H.
    unfold agrees. destruct (sbind _ _ t) as [[[]|e|] t']; [exact H| |exact I].
    destruct H as (s' & H1 & H2 & H3). exists s'. split; [exact H1|].
    eapply hole_to_rel; [exact H2|]. rewrite Ho in H3.
    destruct (objs t' i) as [[[?|]|?]|]; cbn in H3; congruence.
  Qed.

  (** ** Default construction, destruction, reset *)

  Lemma noexcept_ok {A} b (m : M W A) s a s' : m s = (Ok a, s') -> noexcept_if b m s = (Ok a, s').
  Proof. intros H. unfold noexcept_if. rewrite H. reflexivity. Qed.

  Lemma storage_default_ok i s t :
    rel (Hole i (raw i)) s t ->
    exists s', storage_default E i s = (Ok tt, s') /\ rel (Hole i (emptyr i)) s' t.
  Proof.
    intros R. destruct (init_ok _ _ _ R) as (s1 & H1 & R1). exists s1. split; [|exact R1].
    apply noexcept_ok. rewrite (bind_ok _ _ _ _ _ H1). apply assert_true.
    apply (not_eq s1 _ false), (hole_has_value _ _ _ R1).
  Qed.

  Lemma refines_default i :
    refines NoHole (ctor_default E i) (s_new stor i None).
  Proof.
    intros s t R. unfold s_new, sbind, fresh.
    destruct (objs t i) eqn:Ho; [exact I|].
    destruct (alloc_ok _ _ _ R Ho) as (s1 & H1 & R1).
    destruct (storage_default_ok _ _ _ R1) as (s2 & H2 & R2).
    exists s2. split.
    - unfold ctor_default. rewrite (bind_ok _ _ _ _ _ H1). exact H2.
    - eapply hole_fill; [exact R2|]. apply (hole_inv _ _ _ _ R2).
  Qed.

  Lemma noexcept_refines {A} h b (m : M W A) sm :
    refines h m sm -> (b = true -> forall t e t', sm t <> (SThrow e, t')) ->
    refines h (noexcept_if b m) sm.
  Proof.
    intros H N s t R. specialize (H s t R). unfold agrees in *. unfold noexcept_if.
    destruct (sm t) as [[a|e|] t'] eqn:Hs; [| |exact I].
    - destruct H as (s' & -> & R'). eauto.
    - destruct H as (s' & -> & R'). destruct b; [destruct (N eq_refl _ _ _ Hs)|]. eauto.
  Qed.

  (** After the payload's destructor the storage is ready. *)
  Lemma destroy_ok i v s t :
    rel NoHole s t -> objs t i = Some (SOpt (Some v)) ->
    exists s', destroy_payload E i s = (Ok tt, s') /\
               rel (Hole i (ready i)) s'
                   (MkS (upd (objs t) i (Some (SOpt None))) (po_dtor (ops E i) v (sworld t))).
  Proof.
    intros R Ho. pose proof (rel_robj _ _ _ i R I) as Hr. rewrite Ho in Hr.
    destruct Hr as (c & Hm & L & Hv & He). destruct R as (Hw & Ht & Hj).
    pose proof (ok_d i) as D. pose proof (do_pay _ D). pose proof (do_flag _ D).
    unfold destroy_payload, bind, get_region. rewrite Hm. cbn. rewrite Hv, Hw.
    eexists. split; [reflexivity|]. split; [reflexivity|]. split.
    - apply no_abandon_cons; [congruence|exact Ht].
    - intros j. specialize (Hj j). cbn in *. destruct (Nat.eqb i j) eqn:Eij.
      + apply Nat.eqb_eq in Eij. subst j. rewrite !upd_same. split; [|right; reflexivity].
        eexists. split; [reflexivity|]. split.
        * rewrite length_put; [exact L|rewrite length_indets; lia].
        * intros Sep. pose proof (do_sep _ D Sep). unfold flag_cells in *.
          rewrite sub_put_disj; [exact He|lia|rewrite length_indets; lia|].
          rewrite length_indets. right. lia.
      + rewrite !upd_other by (apply Nat.eqb_neq; exact Eij). exact Hj.
  Qed.

  Lemma dealloc_empty i s t :
    rel (Hole i (emptyr i)) s t ->
    exists s', dealloc E i s = (Ok tt, s') /\ rel (Hole i gone) s' t.
  Proof.
    intros R. destruct (hole_inv _ _ _ _ R) as ((c & Hm & L & He) & Hv).
    assert (Ht : no_abandon (trace s)) by apply R.
    unfold dealloc, bind, get_region. rewrite Hm. cbn.
    destruct (d_sep (dec E i)); cbn; eexists; (split; [reflexivity|]).
    - refine (hole_step i _ gone s t _ _ R eq_refl Ht).
    - refine (hole_step i _ gone s t _ _ R eq_refl _). apply no_abandon_cons; [congruence|exact Ht].
  Qed.

  Lemma dealloc_ready i s t :
    rel (Hole i (ready i)) s t ->
    exists s', dealloc E i s = (Ok tt, s') /\ rel (Hole i gone) s' t.
  Proof.
    intros R. destruct (hole_inv _ _ _ _ R) as ((c & Hm & L & He) & Hv).
    assert (Ht : no_abandon (trace s)) by apply R.
    unfold dealloc, bind, get_region. rewrite Hm. cbn.
    destruct (d_sep (dec E i)); cbn; eexists; (split; [reflexivity|]);
      refine (hole_step i _ gone s t _ _ R eq_refl Ht).
  Qed.

  (** A hole that is gone, on a vacant abstract object: drop that object too. *)
  Lemma gone_drop i s t :
    rel (Hole i gone) s t -> rel NoHole s (MkS (upd (objs t) i None) (sworld t)).
  Proof. intros R. eapply hole_fill; [exact R|]. apply (hole_inv _ _ _ _ R). Qed.

  Lemma rel_objs_ext h s t t' :
    rel h s t -> (forall j, objs t' j = objs t j) -> sworld t' = sworld t -> rel h s t'.
  Proof.
    intros (Hw & Ht & Hj) Ho Hs. split; [congruence|]. split; [exact Ht|].
    intros j. specialize (Hj j). destruct h as [|i P]; cbn in *; rewrite ?Ho; exact Hj.
  Qed.

  (** Destructor of the storage of an empty optional that may not exist abstractly
      (used during unwinding). *)
  Lemma storage_dtor_empty i s t :
    rel (Hole i (emptyr i)) s t ->
    exists s', storage_dtor E i s = (Ok tt, s') /\ rel (Hole i gone) s' t.
  Proof.
    intros R. destruct (dealloc_empty _ _ _ R) as (s1 & H1 & R1). exists s1.
    split; [|exact R1]. apply noexcept_ok.
    rewrite (bind_ok _ _ _ _ _ (hole_has_value _ _ _ R)). exact H1.
  Qed.

  Lemma refines_dtor i : refines NoHole (dtor E i) (s_dtor pops i).
  Proof.
    intros s t R. unfold s_dtor, sbind, contents.
    destruct (objs t i) as [[[v|]|?]|] eqn:Ho; try exact I.
    - destruct (destroy_ok _ _ _ _ R Ho) as (s1 & H1 & R1).
      destruct (dealloc_ready _ _ _ R1) as (s2 & H2 & R2).
      unfold sdestroy, suser, sset, agrees. exists s2. split.
      + apply noexcept_ok. rewrite (bind_ok _ _ _ _ _ (has_value_eq NoHole _ _ _ _ R I Ho)).
        cbn [is_some]. rewrite (bind_ok _ _ _ _ _ H1). exact H2.
      + eapply rel_objs_ext; [apply (gone_drop _ _ _ R2)| |reflexivity].
        intros j. cbn. unfold upd. destruct (Nat.eqb i j); reflexivity.
    - destruct (storage_dtor_empty i s t (rel_to_hole _ _ _ R Ho)) as (s1 & H1 & R1).
      unfold sset, agrees. exists s1. split; [exact H1|]. apply (gone_drop _ _ _ R1).
  Qed.

  Lemma refines_reset i : refines NoHole (reset E i) (s_clear pops stor i).
  Proof.
    intros s t R. unfold s_clear, sbind, contents.
    destruct (objs t i) as [[[v|]|?]|] eqn:Ho; try exact I.
    - destruct (destroy_ok _ _ _ _ R Ho) as (s1 & H1 & R1).
      destruct (init_ok i s1 _ (hole_weaken _ _ _ _ _ (ready_raw i) R1)) as (s2 & H2 & R2).
      unfold sdestroy, suser, become, sset, agrees. exists s2. split.
      + apply noexcept_ok. rewrite (bind_ok _ _ _ _ _ (has_value_eq NoHole _ _ _ _ R I Ho)).
        cbn [is_some]. rewrite (bind_ok _ _ _ _ _ H1), (bind_ok _ _ _ _ _ H2).
        apply assert_true. apply (not_eq s2 _ false), (hole_has_value _ _ _ R2).
      + eapply hole_to_rel; [exact R2|]. cbn. apply upd_same.
    - exists s. split; [|exact R]. apply noexcept_ok.
      rewrite (bind_ok _ _ _ _ _ (has_value_eq NoHole _ _ _ _ R I Ho)). reflexivity.
  Qed.

  Lemma s_clear_not_throw i (t : sstate W) e t' : s_clear pops stor i t <> (SThrow e, t').
  Proof.
    unfold s_clear, sbind, contents. destruct (objs t i) as [[[v|]|?]|];
      unfold sdestroy, suser, become, sset, sret; cbn; congruence.
  Qed.

  (** ** Copies and moves *)

  Lemma scopy_eq j (t : sstate W) : sinit stor isv (copy_ini E j) t = scopy pops j t.
  Proof.
    unfold sinit, scopy, copy_ini, sbind. cbn.
    destruct (sread j t) as [[v|e|] t1]; try reflexivity.
    unfold suser. destruct (po_copy (ops E j) v (sworld t1)). reflexivity.
  Qed.

  Lemma smove_eq j (t : sstate W) : sinit stor isv (move_ini E j) t = smove pops stor isv j t.
  Proof. reflexivity. Qed.

  Lemma copy_ini_ok j : ini_ok (copy_ini E j).
  Proof.
    intros H v w. cbn in *. pose proof (py_copy _ (ok_p j) H v w) as K.
    destruct (po_copy (ops E j) v w). exact K.
  Qed.

  Lemma move_ini_ok j : ini_ok (move_ini E j).
  Proof. intros H v w. exact (py_move _ (ok_p j) H v w). Qed.

  Lemma refines_in_place i n :
    ini_ok n ->
    refines NoHole (ctor_in_place E i n)
      (sbind (fresh i) (fun _ => sbind (sinit stor isv n) (fun v => become stor i (Some v)))).
  Proof.
    intros Hok s t R. unfold sbind at 1, fresh.
    destruct (objs t i) eqn:Ho; [exact I|].
    destruct (alloc_ok _ _ _ R Ho) as (s1 & H1 & R1).
    destruct (init_ok _ _ _ R1) as (s2 & H2 & R2).
    pose proof (construct_hole i n s2 t R2 Hok) as HC.
    unfold agrees, ctor_in_place. rewrite (bind_ok _ _ _ _ _ H1).
    unfold on_throw. rewrite (bind_ok _ _ _ _ _ H2).
    destruct (sbind (sinit stor isv n) (fun v => become stor i (Some v)) t) as [[[]|e|] t'];
      [| |exact I].
    - destruct HC as (s3 & -> & R3). eauto.
    - destruct HC as (s3 & -> & R3 & Hs).
      destruct (dealloc_empty _ _ _ R3) as (s4 & -> & R4).
      exists s4. split; [reflexivity|]. eapply hole_gone; [exact R4|].
      rewrite Ho in Hs. destruct (objs t' i) as [[[?|]|?]|]; cbn in Hs; congruence.
  Qed.

  (** ** Rules for a given state *)

  Lemma agrees_bind {A B} h h' (m : M W A) sm (k : A -> M W B) sk s t :
    agrees h (m s) (sm t) ->
    (forall e t', sm t = (SThrow e, t') -> h = h') ->
    (forall a s' t', rel h s' t' -> sm t = (SOk a, t') -> agrees h' (k a s') (sk a t')) ->
    agrees h' (bind m k s) (sbind sm sk t).
  Proof.
    intros Hm Hh Hk. unfold agrees in Hm. unfold sbind.
    destruct (sm t) as [[a|e|] t'] eqn:Hs.
    - destruct Hm as (s' & Hm & R'). rewrite (bind_ok _ _ _ _ _ Hm). eauto.
    - destruct Hm as (s' & Hm & R'). rewrite (bind_throw _ _ _ _ _ Hm).
      rewrite <- (Hh _ _ eq_refl). exists s'. auto.
    - exact I.
  Qed.

  Lemma agrees_seq {A B} h (m : M W A) sm (k : A -> M W B) sk s t :
    agrees h (m s) (sm t) ->
    (forall a s' t', rel h s' t' -> sm t = (SOk a, t') -> agrees h (k a s') (sk a t')) ->
    agrees h (bind m k s) (sbind sm sk t).
  Proof. intros H K. eapply agrees_bind; eauto. Qed.

  (** An assertion (or other code without effect) after the call. *)
  Lemma agrees_then {A} h (m : M W unit) (k : unit -> M W A) (sm : @S W A) (f : unit -> A) s t sm0 :
    agrees h (m s) (sm0 t) ->
    (forall s' t', rel h s' t' -> sm0 t = (SOk tt, t') -> k tt s' = (Ok (f tt), s')) ->
    sm t = sbind sm0 (fun u => sret (f u)) t ->
    agrees h (bind m k s) (sm t).
  Proof.
    intros Hm Hk ->. eapply agrees_seq; [exact Hm|].
    intros [] s' t' R' Hs. rewrite (Hk _ _ R' Hs). exists s'. split; [reflexivity|exact R'].
  Qed.

  Lemma agrees_assert h (m : M W unit) (sm : @S W unit) (k : M W unit) s t :
    agrees h (m s) (sm t) ->
    (forall s' t', rel h s' t' -> sm t = (SOk tt, t') -> k s' = (Ok tt, s')) ->
    agrees h (bind m (fun _ => k) s) (sm t).
  Proof.
    intros Hm Hk. unfold agrees in *. destruct (sm t) as [[[]|e|] t']; [| |exact I].
    - destruct Hm as (s' & Hm & R'). exists s'. rewrite (bind_ok _ _ _ _ _ Hm). eauto.
    - destruct Hm as (s' & Hm & R'). exists s'. rewrite (bind_throw _ _ _ _ _ Hm). auto.
  Qed.

  Lemma agrees_noexcept {A} h b (m : M W A) s sr :
    agrees h (m s) sr -> (b = true -> forall e t', sr <> (SThrow e, t')) ->
    agrees h (noexcept_if b m s) sr.
  Proof.
    intros H N. unfold agrees in *. unfold noexcept_if.
    destruct sr as [[a|e|] t']; [| |exact I].
    - destruct H as (s' & -> & R'). eauto.
    - destruct H as (s' & -> & R'). destruct b; [destruct (N eq_refl _ _ eq_refl)|]. eauto.
  Qed.

  (** Abstract code that creates and destroys nothing. *)
  Definition keeps {A} (sm : @S W A) : Prop :=
    forall t r t', sm t = (r, t') -> forall j, shape (objs t' j) = shape (objs t j).

  Lemma keeps_ret {A} (a : A) : keeps (sret a).
  Proof. intros t r t' [= <- <-] j. reflexivity. Qed.
  Lemma keeps_user {A} (f : W -> A * W) : keeps (suser f).
  Proof.
    intros t r t'. unfold suser. destruct (f (sworld t)). intros [= <- <-] j. reflexivity.
  Qed.
  Lemma keeps_sres {A} (r : res A) : keeps (sres r).
  Proof. destruct r; intros t r' t' [= <- <-] j; reflexivity. Qed.
  Lemma keeps_bind {A B} (m : @S W A) (k : A -> @S W B) :
    keeps m -> (forall a, keeps (k a)) -> keeps (sbind m k).
  Proof.
    intros Hm Hk t r t' H j. unfold sbind in H. destruct (m t) as [[a|e|] t1] eqn:H1.
    - rewrite (Hk _ _ _ _ H j). apply (Hm _ _ _ H1).
    - injection H as <- <-. apply (Hm _ _ _ H1).
    - injection H as <- <-. apply (Hm _ _ _ H1).
  Qed.
  Lemma keeps_read i : keeps (sread i).
  Proof. intros t r t' H j. apply sread_state in H as ->. reflexivity. Qed.
  Lemma keeps_write i v : keeps (swrite stor isv i v).
  Proof. intros t r t' H j. eapply swrite_shape, H. Qed.
  Lemma keeps_init n : keeps (sinit stor isv n).
  Proof. intros t r t' H j. eapply sinit_shape, H. Qed.

  Ltac keeps_tac :=
    repeat first
      [ apply keeps_bind; [|intros ?]
      | apply keeps_ret | apply keeps_user | apply keeps_sres | apply keeps_read
      | apply keeps_write | apply keeps_init
      | match goal with |- keeps (if ?b then _ else _) => destruct b end
      | match goal with |- keeps (match ?b with Some _ => _ | None => _ end) => destruct b end ].

  Lemma keeps_assign_existing i a : keeps (s_assign_existing stor isv i a).
  Proof. unfold s_assign_existing. destruct (i_src (a_ini a)); keeps_tac. Qed.

  Lemma shape_engaged (t : sstate W) i v (t' : sstate W) :
    objs t i = Some (SOpt (Some v)) -> shape (objs t' i) = shape (objs t i) ->
    exists v', objs t' i = Some (SOpt (Some v')).
  Proof.
    intros H. rewrite H. cbn. destruct (objs t' i) as [[[v'|]|?]|]; cbn; try lia. eauto.
  Qed.

  Lemma has_value_true s t i v :
    rel NoHole s t -> objs t i = Some (SOpt (Some v)) -> has_value E i s = (Ok true, s).
  Proof. intros R H. exact (has_value_eq NoHole _ _ _ (Some v) R I H). Qed.
  Lemma has_value_false s t i :
    rel NoHole s t -> objs t i = Some (SOpt None) -> has_value E i s = (Ok false, s).
  Proof. intros R H. exact (has_value_eq NoHole _ _ _ None R I H). Qed.

  Lemma same_has_true s t i j a b :
    rel NoHole s t -> objs t i = Some (SOpt a) -> objs t j = Some (SOpt b) ->
    is_some a = is_some b -> same_has E i j s = (Ok true, s).
  Proof.
    intros R Hi Hj Hab. unfold same_has.
    rewrite (bind_ok _ _ _ _ _ (has_value_eq NoHole _ _ _ _ R I Hi)).
    rewrite (bind_ok _ _ _ _ _ (has_value_eq NoHole _ _ _ _ R I Hj)).
    rewrite Hab, Bool.eqb_reflx. reflexivity.
  Qed.

  (** ** Copy and move construction *)

  Lemma fresh_ops i j : tid i = tid j -> ops E i = ops E j.
  Proof. intros H. unfold ops, ty. rewrite H. reflexivity. Qed.

  Lemma become_engaged i v (t : sstate W) u t' :
    become stor i (Some v) t = (SOk u, t') ->
    u = tt /\ t' = MkS (upd (objs t) i (Some (SOpt (Some v)))) (sworld t).
  Proof.
    unfold become. destruct (stor i v); [|discriminate]. intros [= <- <-]. auto.
  Qed.

  Lemma ctor_body_agrees i j n (get : @S W rep) s t :
    (forall t, sinit stor isv n t = get t) -> ini_ok n ->
    rel (Hole i (emptyr i)) s t -> objs t i = None ->
    agrees NoHole
      (on_throw
         (b <- has_value E j ;;
          (if b then construct_payload E i n
           else assert_ E (not_ (has_value E i))) ;;
          assert_ E (same_has E i j))
         (storage_dtor E i) s)
      (sbind (contents j) (fun o =>
         match o with
         | None => become stor i None
         | Some _ => sbind get (fun v => become stor i (Some v))
         end) t).
  Proof.
    intros Hget Hok R Hi. unfold sbind at 1, contents.
    destruct (objs t j) as [[o|?]|] eqn:Hj; try exact I.
    assert (i <> j) as N by congruence.
    unfold on_throw. rewrite (bind_ok _ _ _ _ _ (has_value_eq _ _ _ _ _ R N Hj)).
    destruct o as [v|]; cbn [is_some].
    - pose proof (construct_hole i n s t R Hok) as HC.
      assert (sbind get (fun v => become stor i (Some v)) t =
              sbind (sinit stor isv n) (fun v => become stor i (Some v)) t) as ->
        by (unfold sbind; rewrite Hget; reflexivity).
      unfold agrees.
      destruct (sbind (sinit stor isv n) (fun v => become stor i (Some v)) t)
        as [[[]|e|] t'] eqn:HS; [| |exact I].
      + destruct HC as (s' & HC & R').
        assert (exists a, objs t' i = Some (SOpt (Some a))) as (a & Hi').
        { unfold sbind in HS. destruct (sinit stor isv n t) as [[x|?|] t2]; try discriminate.
          apply become_engaged in HS as (_ & ->). exists x. cbn. apply upd_same. }
        assert (exists b, objs t' j = Some (SOpt (Some b))) as (b & Hj').
        { unfold sbind in HS. destruct (sinit stor isv n t) as [[x|?|] t2] eqn:HI; try discriminate.
          apply become_engaged in HS as (_ & ->). cbn. rewrite upd_other by congruence.
          eapply shape_engaged; [exact Hj|]. eapply keeps_init, HI. }
        exists s'. split; [|exact R']. rewrite (bind_ok _ _ _ _ _ HC).
        rewrite (assert_true _ _ (same_has_true _ _ _ _ _ _ R' Hi' Hj' eq_refl)). reflexivity.
      + destruct HC as (s' & HC & R' & Hs).
        rewrite (bind_throw _ _ _ _ _ HC).
        destruct (storage_dtor_empty _ _ _ R') as (s2 & -> & R2).
        exists s2. split; [reflexivity|]. eapply hole_gone; [exact R2|].
        rewrite Hi in Hs. destruct (objs t' i) as [[[?|]|?]|]; cbn in Hs; congruence.
    - cbn. unfold sset.
      assert (assert_ E (not_ (has_value E i)) s = (Ok tt, s)) as Ha.
      { apply assert_true. apply (not_eq s _ false), (hole_has_value _ _ _ R). }
      exists s. split.
      + rewrite (bind_ok _ _ _ _ _ Ha).
        rewrite (assert_true s); [reflexivity|]. unfold same_has.
        rewrite (bind_ok _ _ _ _ _ (hole_has_value _ _ _ R)).
        rewrite (bind_ok _ _ _ _ _ (has_value_eq _ _ _ _ _ R N Hj)). reflexivity.
      + eapply hole_fill; [exact R|]. apply (hole_inv _ _ _ _ R).
  Qed.

  Lemma refines_copy_ctor i j :
    refines NoHole (ctor_copy E i j) (s_ctor_from tid stor (scopy pops j) i j).
  Proof.
    intros s t R. unfold s_ctor_from, same, ctor_copy, same_type.
    destruct (Nat.eqb (tid i) (tid j)); [|exact I].
    unfold sbind at 1, fresh. destruct (objs t i) eqn:Ho; [exact I|].
    destruct (alloc_ok _ _ _ R Ho) as (s1 & H1 & R1).
    destruct (storage_default_ok _ _ _ R1) as (s2 & H2 & R2).
    rewrite (bind_ok _ _ _ _ _ H1), (bind_ok _ _ _ _ _ H2).
    apply ctor_body_agrees; auto; [intros; apply scopy_eq|apply copy_ini_ok].
  Qed.

  Lemma s_ctor_not_throw (get : @S W rep) i j t e t' :
    (forall t1 e t1', get t1 <> (SThrow e, t1')) ->
    sbind (contents j) (fun o =>
         match o with
         | None => become stor i None
         | Some _ => sbind get (fun v => become stor i (Some v))
         end) t <> (SThrow e, t').
  Proof.
    intros Hg. unfold sbind, contents. destruct (objs t j) as [[[v|]|?]|]; try congruence.
    - destruct (get t) as [[x|?|] t1] eqn:Hx; try congruence; [apply become_not_throw|].
      exfalso. eapply Hg, Hx.
    - apply become_not_throw.
  Qed.

  Lemma refines_move_ctor i j :
    refines NoHole (ctor_move E i j) (s_ctor_from tid stor (smove pops stor isv j) i j).
  Proof.
    intros s t R. unfold s_ctor_from, same, ctor_move, same_type.
    destruct (Nat.eqb_spec (tid i) (tid j)) as [Ht|]; [|exact I].
    unfold sbind at 1, fresh. destruct (objs t i) eqn:Ho; [exact I|].
    destruct (alloc_ok _ _ _ R Ho) as (s1 & H1 & R1).
    destruct (storage_default_ok _ _ _ R1) as (s2 & H2 & R2).
    rewrite (bind_ok _ _ _ _ _ H1). apply agrees_noexcept.
    - rewrite (bind_ok _ _ _ _ _ H2).
      apply ctor_body_agrees; auto. apply move_ini_ok.
    - intros Nt e t'. apply s_ctor_not_throw. intros t1 e1 t1'.
      rewrite <- smove_eq. apply sinit_nothrow; [apply move_ini_ok|].
      cbn. rewrite <- (fresh_ops _ _ Ht). exact Nt.
  Qed.

  (** ** Assignment *)

  Lemma refines_assign_payload h i a :
    refines h (assign_payload E i a) (s_assign_existing stor isv i a).
  Proof.
    unfold assign_payload, s_assign_existing. destruct (i_src (a_ini a)) as [j|].
    - destruct (Nat.eqb i j).
      + repeat (apply refines_bind; [first [apply refines_load|apply refines_call|apply refines_store]|intros ?]).
        apply refines_lift.
      + apply refines_bind; [apply refines_load|intros d].
        apply refines_bind; [apply refines_load|intros v].
        apply refines_bind; [apply refines_call|intros p].
        apply refines_bind; [apply refines_store|intros _].
        apply refines_bind; [|intros _; apply refines_lift].
        destruct (i_const (a_ini a)); [apply refines_ret|apply refines_store].
    - repeat (apply refines_bind; [first [apply refines_load|apply refines_call|apply refines_store]|intros ?]).
      apply refines_lift.
  Qed.

  Lemma refines_assign i a :
    ini_ok (a_ini a) -> refines NoHole (assign_value E i a) (s_assign stor isv i a).
  Proof.
    intros Hok. apply refines_contents_bind; [exact I|]. intros s t o R Ho.
    destruct o as [v|]; cbn [is_some].
    - apply agrees_assert; [apply refines_assign_payload, R|].
      intros s' t' R' Hs. apply assert_true.
      destruct (shape_engaged t i v t' Ho) as (v' & Ho').
      { eapply keeps_assign_existing, Hs. }
      eapply has_value_true; eauto.
    - apply agrees_assert; [apply construct_agrees; auto|].
      intros s' t' R' Hs. apply assert_true. unfold sbind in Hs.
      destruct (sinit stor isv (a_ini a) t) as [[x|?|] t2]; try discriminate.
      apply become_engaged in Hs as (_ & ->).
      eapply has_value_true; [exact R'|]. cbn. apply upd_same.
  Qed.

  Lemma sbind_ok {A B} (m : @S W A) (k : A -> @S W B) t a t' :
    m t = (SOk a, t') -> sbind m k t = k a t'.
  Proof. intros H. unfold sbind. rewrite H. reflexivity. Qed.
  Lemma contents_eq (t : sstate W) i o :
    objs t i = Some (SOpt o) -> contents i t = (SOk o, t).
  Proof. intros H. unfold contents. rewrite H. reflexivity. Qed.
  Lemma sread_eq (t : sstate W) i v :
    objs t i = Some (SOpt (Some v)) -> sread i t = (SOk v, t).
  Proof. intros H. unfold sread. rewrite H. reflexivity. Qed.

  (** Copy/move assignment, from the common pattern. *)
  Lemma assign_from_agrees i j a s t :
    ini_ok (a_ini a) -> i_src (a_ini a) = Some j ->
    rel NoHole s t ->
    agrees NoHole
      ((b <- has_value E j ;;
        (if b then assign_value E i a else reset E i) ;;
        assert_ E (same_has E i j)) s)
      (sbind (contents j) (fun src =>
         match src with
         | Some _ => s_assign stor isv i a
         | None => s_clear pops stor i
         end) t).
  Proof.
    intros Hok Hsrc R. unfold sbind at 1, contents at 1.
    destruct (objs t j) as [[o|?]|] eqn:Hj; try exact I.
    rewrite (bind_ok _ _ _ _ _ (has_value_eq NoHole _ _ _ _ R I Hj)).
    destruct o as [v|]; cbn [is_some].
    - apply agrees_assert; [apply refines_assign; auto|].
      intros s' t' R' Hs. apply assert_true.
      assert (exists x, objs t' i = Some (SOpt (Some x))) as (x & Hi').
      { unfold s_assign, sbind at 1, contents in Hs.
        destruct (objs t i) as [[[d|]|?]|] eqn:Hi; try discriminate.
        - eapply shape_engaged; [exact Hi|]. eapply keeps_assign_existing, Hs.
        - unfold sbind in Hs. destruct (sinit stor isv (a_ini a) t) as [[x|?|] t2]; try discriminate.
          apply become_engaged in Hs as (_ & ->). exists x. cbn. apply upd_same. }
      assert (exists y, objs t' j = Some (SOpt (Some y))) as (y & Hj').
      { unfold s_assign, sbind at 1, contents in Hs.
        destruct (objs t i) as [[[d|]|?]|] eqn:Hi; try discriminate.
        - eapply shape_engaged; [exact Hj|]. eapply keeps_assign_existing, Hs.
        - unfold sbind in Hs.
          destruct (sinit stor isv (a_ini a) t) as [[z|?|] t2] eqn:HI; try discriminate.
          apply become_engaged in Hs as (_ & ->). cbn.
          rewrite upd_other by congruence.
          eapply shape_engaged; [exact Hj|]. eapply keeps_init, HI. }
      eapply same_has_true; eauto.
    - apply agrees_assert; [apply refines_reset; auto|].
      intros s' t' R' Hs. apply assert_true.
      unfold s_clear, sbind, contents in Hs.
      destruct (objs t i) as [[[d|]|?]|] eqn:Hi; try discriminate.
      + unfold sdestroy, suser, become, sset in Hs. cbn in Hs. injection Hs as <-.
        eapply (same_has_true _ _ _ _ None None); [exact R'|..|reflexivity].
        * cbn. apply upd_same.
        * cbn. destruct (Nat.eq_dec i j) as [->|N]; [apply upd_same|].
          rewrite upd_other by exact N. exact Hj.
      + injection Hs as <-.
        eapply (same_has_true _ _ _ _ None None); [exact R'|exact Hi|exact Hj|reflexivity].
  Qed.

  Lemma refines_copy_assign i j :
    refines NoHole (assign_copy E i j) (s_copy_assign tid pops stor isv i j).
  Proof.
    intros s t R. unfold s_copy_assign, same, assign_copy, same_type.
    destruct (Nat.eqb_spec (tid i) (tid j)) as [Ht|]; [|exact I].
    pose proof (assign_from_agrees i j (copy_arg E j) s t (copy_ini_ok j) eq_refl R) as H.
    match type of H with agrees _ _ ?X => match goal with |- agrees _ _ ?Y => assert (X = Y) as HXY end end.
    { destruct (objs t j) as [[src|?]|] eqn:Hj;
        [|unfold sbind, contents; rewrite Hj; reflexivity..].
      rewrite !(sbind_ok _ _ _ _ _ (contents_eq _ _ _ Hj)).
      destruct (objs t i) as [[dst|?]|] eqn:Hi;
        [|destruct src; unfold s_assign, s_clear, sbind, contents; rewrite Hi; reflexivity..].
      destruct src as [v|]; unfold s_assign, s_clear;
        rewrite !(sbind_ok _ _ _ _ _ (contents_eq _ _ _ Hi)); destruct dst as [d|]; try reflexivity.
      - unfold s_assign_existing. cbn [copy_arg a_ini copy_ini i_src i_const a_self a_assign].
        destruct (Nat.eqb i j) eqn:Eij.
        + apply Nat.eqb_eq in Eij. subst j. rewrite (sbind_ok _ _ _ _ _ (sread_eq _ _ _ Hi)).
          assert (v = d) as -> by congruence. reflexivity.
        + rewrite !(sbind_ok _ _ _ _ _ (sread_eq _ _ _ Hi)).
          rewrite (sbind_ok _ _ _ _ _ (sread_eq _ _ _ Hj)).
          unfold sbind, suser. destruct (po_cassign (ops E j) d v (sworld t)) as [[r d'] w'].
          cbn. destruct (swrite stor isv i d' (MkS (objs t) w')) as [[?|?|] ?]; reflexivity.
      - unfold sbind. cbn [a_ini copy_arg]. rewrite scopy_eq. reflexivity. }
    rewrite <- HXY. exact H.
  Qed.

  Lemma swrite_not_throw i v (t : sstate W) e t' : swrite stor isv i v t <> (SThrow e, t').
  Proof.
    unfold swrite. destruct (objs t i) as [[[?|]|?]|]; try congruence; [apply become_not_throw|].
    destruct (isv i v); unfold sset; congruence.
  Qed.

  Lemma s_move_assign_not_throw i j t e t' :
    po_nt_massign (ops E i) && po_nt_move (ops E i) = true ->
    s_move_assign tid pops stor isv i j t <> (SThrow e, t').
  Proof.
    intros Nt HS. apply andb_true_iff in Nt as (N1 & N2).
    unfold s_move_assign, same in HS. destruct (Nat.eqb_spec (tid i) (tid j)) as [Ht|]; [|discriminate].
    rewrite (fresh_ops _ _ Ht) in N1, N2.
    unfold sbind at 1, contents at 1 in HS.
    destruct (objs t j) as [[[v|]|?]|] eqn:Hj; try discriminate.
    + unfold sbind at 1, contents at 1 in HS.
      destruct (objs t i) as [[[d|]|?]|] eqn:Hi; try discriminate.
      * destruct (Nat.eqb i j) eqn:Eij.
        -- unfold sbind, suser in HS.
           pose proof (py_self_massign _ (ok_p j) N1 v (sworld t)) as K.
           destruct (po_self_massign (ops E j) v (sworld t)) as [p w'].
           destruct (swrite stor isv i (snd p) (MkS (objs t) w')) as [[u|?|] ?] eqn:HW.
           ++ destruct p as [[?|?] ?]; cbn in *; [discriminate|exact K].
           ++ eapply swrite_not_throw, HW.
           ++ discriminate.
        -- unfold sbind at 1, sread in HS. rewrite Hi in HS. unfold sbind, suser in HS.
           pose proof (py_massign _ (ok_p j) N1 d v (sworld t)) as K.
           destruct (po_massign (ops E j) d v (sworld t)) as [p w'].
           destruct (swrite stor isv i (fst (snd p)) (MkS (objs t) w')) as [[u|?|] t2] eqn:HW.
           ++ destruct (swrite stor isv j (snd (snd p)) t2) as [[u2|?|] t3] eqn:HW2.
              ** destruct p as [[?|?] ?]; cbn in *; [discriminate|exact K].
              ** eapply swrite_not_throw, HW2.
              ** discriminate.
           ++ eapply swrite_not_throw, HW.
           ++ discriminate.
      * unfold sbind in HS. rewrite <- smove_eq in HS.
        destruct (sinit stor isv (move_ini E j) t) as [[x|?|] t2] eqn:HI.
        -- eapply become_not_throw, HS.
        -- eapply sinit_nothrow; [apply move_ini_ok| |exact HI]. exact N2.
        -- discriminate.
    + unfold sbind at 1, contents at 1 in HS.
      destruct (objs t i) as [[[d|]|?]|] eqn:Hi; try discriminate.
  Qed.

  Lemma refines_move_assign i j :
    refines NoHole (assign_move E i j) (s_move_assign tid pops stor isv i j).
  Proof.
    intros s t R. unfold s_move_assign, same, assign_move, same_type.
    destruct (Nat.eqb_spec (tid i) (tid j)) as [Ht|]; [|exact I].
    pose proof (assign_from_agrees i j (move_arg E j) s t (move_ini_ok j) eq_refl R) as H.
    apply agrees_noexcept.
    - match type of H with agrees _ _ ?X => match goal with |- agrees _ _ ?Y => assert (X = Y) as HXY end end.
      { destruct (objs t j) as [[src|?]|] eqn:Hj;
          [|unfold sbind, contents; rewrite Hj; reflexivity..].
        rewrite !(sbind_ok _ _ _ _ _ (contents_eq _ _ _ Hj)).
        destruct (objs t i) as [[dst|?]|] eqn:Hi;
          [|destruct src; unfold s_assign, s_clear, sbind, contents; rewrite Hi; reflexivity..].
        destruct src as [v|]; unfold s_assign, s_clear;
          rewrite !(sbind_ok _ _ _ _ _ (contents_eq _ _ _ Hi)); destruct dst as [d|]; try reflexivity.
        unfold s_assign_existing. cbn [move_arg a_ini move_ini i_src i_const a_self a_assign].
        destruct (Nat.eqb i j) eqn:Eij.
        + apply Nat.eqb_eq in Eij. subst j. rewrite (sbind_ok _ _ _ _ _ (sread_eq _ _ _ Hi)).
          assert (v = d) as -> by congruence. reflexivity.
        + rewrite !(sbind_ok _ _ _ _ _ (sread_eq _ _ _ Hi)).
          rewrite (sbind_ok _ _ _ _ _ (sread_eq _ _ _ Hj)). reflexivity. }
      rewrite <- HXY. exact H.
    - intros Nt e t' HS. apply (s_move_assign_not_throw i j t e t' Nt).
      unfold s_move_assign, same. rewrite (proj2 (Nat.eqb_eq _ _) Ht). exact HS.
  Qed.

  Lemma refines_emplace i n :
    ini_ok n -> refines NoHole (emplace E i n) (s_emplace pops stor isv i n).
  Proof.
    intros Hok s t R. unfold emplace, s_emplace.
    eapply agrees_seq; [apply refines_reset, R|]. intros [] s1 t1 R1 H1.
    assert (objs t1 i = Some (SOpt None)) as Ho.
    { unfold s_clear, sbind, contents in H1.
      destruct (objs t i) as [[[d|]|?]|] eqn:Hi; try discriminate.
      - unfold sdestroy, suser, become, sset in H1. cbn in H1. injection H1 as <-.
        cbn. apply upd_same.
      - injection H1 as <-. exact Hi. }
    apply agrees_assert; [apply construct_agrees; auto|].
    intros s' t' R' Hs. apply assert_true. unfold sbind in Hs.
    destruct (sinit stor isv n t1) as [[x|?|] t2]; try discriminate.
    apply become_engaged in Hs as (_ & ->).
    eapply has_value_true; [exact R'|]. cbn. apply upd_same.
  Qed.

  (** ** Swap *)

  Lemma sbind_assoc {A B C} (a : @S W A) (b : A -> @S W B) (c : B -> @S W C) t :
    sbind (sbind a b) c t = sbind a (fun x => sbind (b x) c) t.
  Proof. unfold sbind. destruct (a t) as [[x|?|] t1]; reflexivity. Qed.

  Lemma move_clear_agrees i j s t x :
    rel NoHole s t -> objs t i = Some (SOpt (Some x)) -> objs t j = Some (SOpt None) ->
    agrees NoHole ((construct_payload E j (move_ini E i) ;; reset E i) s)
      (sbind (smove pops stor isv i) (fun v =>
         sbind (become stor j (Some v)) (fun _ => s_clear pops stor i)) t).
  Proof.
    intros R Hi Hj. rewrite <- sbind_assoc.
    eapply agrees_seq.
    - apply construct_agrees; auto. apply move_ini_ok.
    - intros [] s' t' R' _. apply refines_reset, R'.
  Qed.

  Lemma move_clear_not_throw i j t e t' :
    po_nt_move (ops E i) = true ->
    sbind (smove pops stor isv i) (fun v =>
         sbind (become stor j (Some v)) (fun _ => s_clear pops stor i)) t <> (SThrow e, t').
  Proof.
    intros Nt. unfold sbind. rewrite <- smove_eq.
    destruct (sinit stor isv (move_ini E i) t) as [[x|?|] t2] eqn:HI; try congruence.
    - destruct (become stor j (Some x) t2) as [[?|?|] ?] eqn:HB; try congruence.
      + apply s_clear_not_throw.
      + destruct (become_not_throw _ _ _ _ _ HB).
    - destruct (sinit_nothrow _ _ _ _ (move_ini_ok i) Nt HI).
  Qed.

  Lemma refines_swap i j : refines NoHole (swap E i j) (s_swap tid pops stor isv i j).
  Proof.
    intros s t R. unfold s_swap, same, swap, same_type.
    destruct (Nat.eqb_spec (tid i) (tid j)) as [Ht|]; [|exact I].
    unfold sbind at 1, contents at 1. destruct (objs t i) as [[a|?]|] eqn:Hi; try exact I.
    unfold sbind at 1, contents at 1. destruct (objs t j) as [[b|?]|] eqn:Hj; try exact I.
    apply agrees_noexcept.
    - rewrite (bind_ok _ _ _ _ _ (has_value_eq NoHole _ _ _ _ R I Hi)).
      rewrite (bind_ok _ _ _ _ _ (has_value_eq NoHole _ _ _ _ R I Hj)).
      destruct a as [x|], b as [y|]; cbn [is_some Bool.eqb].
      + unfold swap_payloads. destruct (Nat.eqb i j) eqn:Eij.
        * assert (load_payload E i s = (Ok x, s)) as HL.
          { pose proof (refines_load NoHole i s t R) as HL. unfold sread in HL. rewrite Hi in HL.
            unfold load_payload, bind, get_region in *. destruct HL as (s' & HL & _).
            destruct (mem s i) as [r|]; [|discriminate]. destruct (pay_obj r); [|discriminate].
            unfold ret in *. congruence. }
          rewrite (bind_ok _ _ _ _ _ HL).
          apply refines_bind; [apply refines_call| |exact R]. intros p.
          apply refines_bind; [apply refines_store|]. intros _. apply refines_lift.
        * assert (forall k z, objs t k = Some (SOpt (Some z)) -> load_payload E k s = (Ok z, s)) as HL.
          { intros k z Hk.
            pose proof (refines_load NoHole k s t R) as HL. unfold sread in HL. rewrite Hk in HL.
            unfold load_payload, bind, get_region in *. destruct HL as (s' & HL & _).
            destruct (mem s k) as [r|]; [|discriminate]. destruct (pay_obj r); [|discriminate].
            unfold ret in *. congruence. }
          rewrite (bind_ok _ _ _ _ _ (HL _ _ Hi)), (bind_ok _ _ _ _ _ (HL _ _ Hj)).
          apply refines_bind; [apply refines_call| |exact R]. intros p.
          apply refines_bind; [apply refines_store|]. intros _.
          apply refines_bind; [apply refines_store|]. intros _. apply refines_lift.
      + eapply move_clear_agrees; eauto.
      + eapply move_clear_agrees; eauto.
      + exists s. split; [reflexivity|exact R].
    - intros Nt e t' HS. apply andb_true_iff in Nt as (N1 & N2).
      destruct a as [x|], b as [y|].
      + destruct (Nat.eqb i j).
        * unfold sbind, suser in HS.
          pose proof (py_self_swap _ (ok_p i) N2 x (sworld t)) as K.
          destruct (po_self_swap (ops E i) x (sworld t)) as [p w'].
          destruct (swrite stor isv i (snd p) (MkS (objs t) w')) as [[?|?|] ?] eqn:HW.
          -- destruct p as [[?|?] ?]; cbn in *; [discriminate|exact K].
          -- eapply swrite_not_throw, HW.
          -- discriminate.
        * unfold sbind, suser in HS.
          pose proof (py_swap _ (ok_p i) N2 x y (sworld t)) as K.
          destruct (po_swap (ops E i) x y (sworld t)) as [p w'].
          destruct (swrite stor isv i (fst (snd p)) (MkS (objs t) w')) as [[?|?|] t2] eqn:HW.
          -- destruct (swrite stor isv j (snd (snd p)) t2) as [[?|?|] t3] eqn:HW2.
             ++ destruct p as [[?|?] ?]; cbn in *; [discriminate|exact K].
             ++ eapply swrite_not_throw, HW2.
             ++ discriminate.
          -- eapply swrite_not_throw, HW.
          -- discriminate.
      + eapply move_clear_not_throw; [exact N1|exact HS].
      + eapply move_clear_not_throw; [|exact HS]. rewrite <- (fresh_ops _ _ Ht). exact N1.
      + discriminate.
  Qed.

  (** ** The generic std::swap *)

  Lemma s_dtor_not_throw i (t : sstate W) e t' : s_dtor pops i t <> (SThrow e, t').
  Proof.
    unfold s_dtor, sbind, contents. destruct (objs t i) as [[[v|]|?]|]; try congruence;
      unfold sdestroy, suser, sset; congruence.
  Qed.

  Lemma refines_on_throw {A} (m : M W A) sm c sc :
    refines NoHole m sm -> refines NoHole c sc ->
    refines NoHole (on_throw m c) (s_on_throw sm sc).
  Proof.
    intros Hm Hc s t R. specialize (Hm s t R). unfold on_throw, s_on_throw. unfold agrees in Hm.
    destruct (sm t) as [[a|e|] t'].
    - destruct Hm as (s' & -> & R'). exists s'. auto.
    - destruct Hm as (s' & -> & R'). specialize (Hc s' t' R'). unfold agrees in Hc.
      destruct (sc t') as [[[]|e'|] t'']; try exact I.
      destruct Hc as (s'' & -> & R''). exists s''. auto.
    - exact I.
  Qed.

  Lemma refines_std_swap i j k :
    refines NoHole (std_swap E i j k) (s_std_swap tid pops stor isv i j k).
  Proof.
    intros s t R. unfold s_std_swap, same, std_swap, same_type.
    destruct (Nat.eqb_spec (tid i) (tid j)) as [Ht|]; [|exact I].
    unfold sbind at 1, contents. destruct (objs t j) as [[?|?]|]; try exact I.
    apply noexcept_refines; [| |exact R].
    - apply refines_bind; [apply refines_move_ctor|]. intros _.
      apply refines_bind; [|intros _; apply refines_dtor].
      apply refines_on_throw; [|apply refines_dtor].
      apply refines_bind; [apply refines_move_assign|]. intros _. apply refines_move_assign.
    - intros Nt t1 e t1' HS. apply andb_true_iff in Nt as (N1 & N2).
      unfold sbind at 1 in HS.
      destruct (s_ctor_from tid stor (smove pops stor isv i) k i t1) as [[[]|?|] t2] eqn:H1;
        [| |discriminate].
      + unfold sbind at 1, s_on_throw, sbind at 1 in HS.
        destruct (s_move_assign tid pops stor isv i j t2) as [[[]|?|] t3] eqn:H2; [| |discriminate].
        * destruct (s_move_assign tid pops stor isv j k t3) as [[[]|?|] t4] eqn:H3; [| |discriminate].
          -- eapply s_dtor_not_throw, HS.
          -- eapply s_move_assign_not_throw; [|exact H3]. rewrite <- (fresh_ops _ _ Ht). exact N2.
        * eapply s_move_assign_not_throw; [|exact H2]. exact N2.
      + revert H1. unfold s_ctor_from, same. destruct (Nat.eqb (tid k) (tid i)); [|discriminate].
        unfold sbind at 1, fresh. destruct (objs t1 k); [discriminate|].
        apply s_ctor_not_throw. intros t3 e3 t3'. rewrite <- smove_eq.
        apply sinit_nothrow; [apply move_ini_ok|]. exact N1.
  Qed.

  (** ** Observers *)

  Lemma load_eq k z s t :
    rel NoHole s t -> objs t k = Some (SOpt (Some z)) -> load_payload E k s = (Ok z, s).
  Proof.
    intros R Hk. pose proof (refines_load NoHole k s t R) as HL. unfold sread in HL.
    rewrite Hk in HL. unfold load_payload, bind, get_region in *. destruct HL as (s' & HL & _).
    destruct (mem s k) as [r|]; [|discriminate]. destruct (pay_obj r); [|discriminate].
    unfold ret in *. congruence.
  Qed.

  Lemma deref_eq i v s t :
    rel NoHole s t -> objs t i = Some (SOpt (Some v)) -> op_deref E i s = (Ok tt, s).
  Proof. intros R H. apply assert_true. eapply has_value_true; eauto. Qed.

  Lemma refines_access k i c f :
    refines NoHole (acc E k i ;; use_payload E i c f) (s_access stor isv k i c f).
  Proof.
    intros s t R. unfold s_access, sbind at 1, contents.
    destruct (objs t i) as [[[v|]|?]|] eqn:Hi; try exact I.
    - assert (acc E k i s = (Ok tt, s)) as Ha.
      { destruct k; cbn [acc]; [eapply deref_eq; eauto..|].
        unfold value. rewrite (bind_ok _ _ _ _ _ (has_value_true _ _ _ _ R Hi)). reflexivity. }
      rewrite (bind_ok _ _ _ _ _ Ha). unfold use_payload.
      rewrite (bind_ok _ _ _ _ _ (load_eq _ _ _ _ R Hi)).
      apply refines_bind; [apply refines_call| |exact R]. intros p.
      apply refines_bind; [|intros _; apply refines_lift].
      destruct c; [apply refines_ret|apply refines_store].
    - destruct k; try exact I. exists s. split; [|exact R].
      apply bind_throw. cbn [acc]. unfold value.
      rewrite (bind_ok _ _ _ _ _ (has_value_false _ _ _ R Hi)). reflexivity.
  Qed.

  Lemma refines_has i : refines NoHole (has_value E i) (s_has i).
  Proof.
    intros s t R. unfold s_has, sbind, contents.
    destruct (objs t i) as [[o|?]|] eqn:Hi; try exact I.
    exists s. split; [|exact R]. exact (has_value_eq NoHole _ _ _ _ R I Hi).
  Qed.

  Lemma refines_ext {A} h (m : M W A) (sm sm' : @S W A) :
    refines h m sm -> (forall t, sm t = sm' t) -> refines h m sm'.
  Proof. intros H He s t R. rewrite <- He. apply H, R. Qed.

  Lemma refines_value_or_copy i d :
    refines NoHole (value_or_copy E i d) (s_value_or stor isv (scopy pops i) i d).
  Proof.
    apply refines_contents_bind; [exact I|]. intros s t o R Ho.
    destruct o; cbn [is_some]; [|apply refines_ini, R].
    rewrite <- scopy_eq. apply refines_ini, R.
  Qed.
  Lemma refines_value_or_move i d :
    refines NoHole (value_or_move E i d) (s_value_or stor isv (smove pops stor isv i) i d).
  Proof.
    apply refines_contents_bind; [exact I|]. intros s t o R Ho.
    destruct o; cbn [is_some]; [|apply refines_ini, R].
    rewrite <- smove_eq. apply refines_ini, R.
  Qed.

  (** ** Monadic operations *)

  Lemma refines_build k o : refines NoHole (build_result E k o) (s_new stor k o).
  Proof.
    destruct o as [v|]; [|apply refines_default].
    eapply refines_ext; [apply refines_in_place|].
    - intros _ v0 w. exact I.
    - intros t. unfold s_new, sbind. destruct (fresh k t) as [[u|?|] [ob w]]; reflexivity.
  Qed.

  Lemma refines_and_then k i c f :
    refines NoHole (and_then E k i c f) (s_and_then stor isv k i c f).
  Proof.
    apply refines_contents_bind; [exact I|]. intros s t o R Ho.
    destruct o as [v|]; cbn [is_some]; [|apply refines_default, R].
    rewrite (bind_ok _ _ _ _ _ (deref_eq _ _ _ _ R Ho)).
    rewrite (bind_ok _ _ _ _ _ (load_eq _ _ _ _ R Ho)).
    apply refines_bind; [apply refines_call| |exact R]. intros p.
    apply refines_bind; [destruct c; [apply refines_ret|apply refines_store]|]. intros _.
    apply refines_bind; [apply refines_lift|]. intros x. apply refines_build.
  Qed.

  Lemma refines_transform k i c f nt :
    (nt = true -> forall v w, no_throw (fst (fst (f v w)))) ->
    refines NoHole (transform E k i c f nt) (s_transform stor isv k i c f).
  Proof.
    intros Hok. apply refines_contents_bind; [exact I|]. intros s t o R Ho.
    destruct o as [v|]; cbn [is_some]; [|apply refines_default, R].
    rewrite (bind_ok _ _ _ _ _ (deref_eq _ _ _ _ R Ho)).
    pose proof (refines_in_place k (MkIni (Some i) c f nt) Hok s t R) as H.
    match type of H with agrees _ _ ?X => match goal with |- agrees _ _ ?Y => assert (X = Y) as HXY end end.
    { destruct (objs t k) eqn:Hk; [unfold sbind, fresh; rewrite Hk; reflexivity|].
      assert (fresh k t = (SOk tt, t)) as Hf by (unfold fresh; rewrite Hk; reflexivity).
      rewrite !(sbind_ok _ _ _ _ _ Hf). unfold sinit. cbn [i_src i_fun i_const].
      rewrite sbind_assoc, (sbind_ok _ _ _ _ _ (sread_eq _ _ _ Ho)), sbind_assoc.
      unfold sbind. cbn [i_more sread_more swrite_more]. unfold sret at 1. cbn [joined parted fst snd]. destruct (suser (f v) t) as [[p|?|] t1]; try reflexivity.
      destruct ((if c then sret tt else swrite stor isv i (snd p)) t1) as [[?|?|] ?]; reflexivity. }
    rewrite <- HXY. exact H.
  Qed.

  Lemma refines_or_else k i mv f :
    refines NoHole (or_else E k i mv f) (s_or_else tid pops stor isv k i mv f).
  Proof.
    unfold or_else, s_or_else, same_type, same.
    destruct (Nat.eqb (tid k) (tid i)) eqn:Et; [|apply refines_undef].
    apply refines_contents_bind; [exact I|]. intros s t o R Ho.
    destruct o as [v|]; cbn [is_some].
    - destruct mv.
      + pose proof (refines_move_ctor k i s t R) as H. unfold s_ctor_from, same in H.
        rewrite Et in H. unfold sbind at 1, fresh in H. unfold sbind at 1, fresh.
        destruct (objs t k); [exact I|]. unfold sbind at 1, contents in H. rewrite Ho in H. exact H.
      + pose proof (refines_copy_ctor k i s t R) as H. unfold s_ctor_from, same in H.
        rewrite Et in H. unfold sbind at 1, fresh in H. unfold sbind at 1, fresh.
        destruct (objs t k); [exact I|]. unfold sbind at 1, contents in H. rewrite Ho in H. exact H.
    - apply refines_bind; [apply refines_call| |exact R]. intros r.
      apply refines_bind; [apply refines_lift|]. intros x. apply refines_build.
  Qed.

  (** ** Comparisons and hash *)

  Definition is_opt (o : operand) : bool :=
    match o with OpTiny _ | OpStd _ => true | _ => false end.

  Lemma operand_state L (t : sstate W) r t' : s_operand L t = (r, t') -> t' = t.
  Proof.
    destruct L; cbn; unfold contents, sret; [destruct (objs t i) as [[?|?]|]|..]; congruence.
  Qed.

  Lemma od_has_eq L s t x :
    rel NoHole s t -> is_opt L = true -> s_operand L t = (SOk x, t) ->
    od_has E L s = (Ok (is_some x), s).
  Proof.
    intros R HL H. destruct L; try discriminate; cbn in *.
    - unfold contents in H. destruct (objs t i) as [[o|?]|] eqn:Hi; try discriminate.
      injection H as <-. exact (has_value_eq NoHole _ _ _ _ R I Hi).
    - unfold sret in H. injection H as <-. destruct o; reflexivity.
  Qed.

  Lemma od_get_eq L s t v :
    rel NoHole s t -> is_opt L = true -> s_operand L t = (SOk (Some v), t) ->
    od_get E L s = (Ok v, s).
  Proof.
    intros R HL H. destruct L; try discriminate; cbn in *.
    - unfold contents in H. destruct (objs t i) as [[o|?]|] eqn:Hi; try discriminate.
      injection H as ->. rewrite (bind_ok _ _ _ _ _ (deref_eq _ _ _ _ R Hi)).
      eapply load_eq; eauto.
    - unfold sret in H. injection H as ->. reflexivity.
  Qed.

  Lemma refines_rel_call h c r a b :
    refines h (rel_call c r a b) (sbind (suser (c_rel c r a b)) (fun z => sres z)).
  Proof. apply refines_bind; [apply refines_call|]. intros z. apply refines_lift. Qed.
  Lemma refines_three_call h c a b :
    refines h (three_call c a b) (sbind (suser (c_three c a b)) (fun z => sres z)).
  Proof. apply refines_bind; [apply refines_call|]. intros z. apply refines_lift. Qed.

  Lemma cmp_opt_opt_agrees c r L R0 s t x y :
    rel NoHole s t -> is_opt L = true -> is_opt R0 = true ->
    s_operand L t = (SOk x, t) -> s_operand R0 t = (SOk y, t) ->
    agrees NoHole (cmp_opt_opt E c r L R0 s) (s_relate c r x y t).
  Proof.
    intros R HL HR Hx Hy.
    pose proof (od_has_eq _ _ _ _ R HL Hx) as Lx. pose proof (od_has_eq _ _ _ _ R HR Hy) as Ly.
    assert (D : forall a b q, x = Some a -> y = Some b ->
      agrees NoHole (deref_cmp E c q L R0 s) (s_relate c q x y t)).
    { intros a b q -> ->. unfold deref_cmp.
      rewrite (bind_ok _ _ _ _ _ (od_get_eq _ _ _ _ R HL Hx)).
      rewrite (bind_ok _ _ _ _ _ (od_get_eq _ _ _ _ R HR Hy)).
      apply refines_rel_call, R. }
    destruct r; unfold cmp_opt_opt;
      repeat (first [rewrite (bind_ok _ _ _ _ _ Lx) | rewrite (bind_ok _ _ _ _ _ Ly)]);
      destruct x as [a|], y as [b|]; cbn [is_some Bool.eqb negb xorb];
      repeat (first [rewrite (bind_ok _ _ _ _ _ Lx) | rewrite (bind_ok _ _ _ _ _ Ly)]);
      cbn [is_some Bool.eqb negb xorb];
      try (eapply D; reflexivity);
      (exists s; split; [reflexivity|exact R]).
  Qed.

  Lemma three_opt_opt_agrees c L R0 s t x y :
    rel NoHole s t -> is_opt L = true -> is_opt R0 = true ->
    s_operand L t = (SOk x, t) -> s_operand R0 t = (SOk y, t) ->
    agrees NoHole (three_opt_opt E c L R0 s) (s_relate3 c x y t).
  Proof.
    intros R HL HR Hx Hy.
    pose proof (od_has_eq _ _ _ _ R HL Hx) as Lx. pose proof (od_has_eq _ _ _ _ R HR Hy) as Ly.
    unfold three_opt_opt. rewrite (bind_ok _ _ _ _ _ Lx).
    destruct x as [a|], y as [b|]; cbn [is_some].
    - rewrite (bind_ok _ _ _ _ _ Ly). cbn [is_some].
      rewrite (bind_ok _ _ _ _ _ (od_get_eq _ _ _ _ R HL Hx)).
      rewrite (bind_ok _ _ _ _ _ (od_get_eq _ _ _ _ R HR Hy)).
      apply refines_three_call, R.
    - rewrite (bind_ok _ _ _ _ _ Ly). cbn [is_some].
      rewrite (bind_ok _ _ _ _ _ Lx), (bind_ok _ _ _ _ _ Ly). exists s. split; [reflexivity|exact R].
    - rewrite (bind_ok _ _ s false s eq_refl).
      rewrite (bind_ok _ _ _ _ _ Lx), (bind_ok _ _ _ _ _ Ly). exists s. split; [reflexivity|exact R].
    - rewrite (bind_ok _ _ s false s eq_refl).
      rewrite (bind_ok _ _ _ _ _ Lx), (bind_ok _ _ _ _ _ Ly). exists s. split; [reflexivity|exact R].
  Qed.

  Lemma refines_declared c r L R0 :
    refines NoHole (declared E c r L R0) (s_compare c r L R0).
  Proof.
    intros s t R. unfold s_compare. destruct (involved L R0) eqn:Hinv; [|exact I].
    unfold sbind at 1. destruct (s_operand L t) as [[x|?|] t1] eqn:Hx;
      try (destruct L; cbn in Hx; unfold contents, sret in Hx;
           try (destruct (objs t i) as [[?|?]|]); discriminate); [|exact I].
    assert (t1 = t) as -> by (eapply operand_state, Hx).
    unfold sbind at 1. destruct (s_operand R0 t) as [[y|?|] t2] eqn:Hy;
      try (destruct R0; cbn in Hy; unfold contents, sret in Hy;
           try (destruct (objs t i) as [[?|?]|]); discriminate); [|exact I].
    assert (t2 = t) as -> by (eapply operand_state, Hy).
    destruct L as [i|lo| |lv], R0 as [j|ro| |rv]; try discriminate;
      try (apply cmp_opt_opt_agrees; auto; fail); cbn [declared].
    - (* opt, null *)
      cbn in Hy. unfold sret in Hy. injection Hy as <-.
      cbn in Hx. unfold contents in Hx. destruct (objs t i) as [[o|?]|] eqn:Hi; try discriminate.
      injection Hx as <-. pose proof (has_value_eq NoHole _ _ _ _ R I Hi) as Hh.
      unfold s_relate, cmp_opt_null, not_.
      destruct r, o as [v|]; cbn [is_some] in Hh;
        rewrite ?(bind_ok _ _ _ _ _ Hh);
        try (rewrite (bind_ok _ _ s _ _ (bind_ok _ _ _ _ _ Hh)));
        (exists s; split; [try reflexivity; try exact Hh|exact R]).
    - (* opt, val *)
      cbn in Hy. unfold sret in Hy. injection Hy as <-.
      pose proof (od_has_eq (OpTiny i) _ _ _ R eq_refl Hx) as Hh. cbn [od_has] in Hh.
      unfold cmp_opt_val. rewrite (bind_ok _ _ _ _ _ Hh).
      destruct x as [a|]; cbn [is_some].
      + rewrite (bind_ok _ _ _ _ _ (od_get_eq (OpTiny i) _ _ _ R eq_refl Hx)). apply refines_rel_call, R.
      + exists s. split; [destruct r; reflexivity|exact R].
    - (* null, opt *)
      cbn in Hx. unfold sret in Hx. injection Hx as <-.
      cbn in Hy. unfold contents in Hy. destruct (objs t j) as [[o|?]|] eqn:Hi; try discriminate.
      injection Hy as <-. pose proof (has_value_eq NoHole _ _ _ _ R I Hi) as Hh.
      unfold s_relate, cmp_null_opt, not_.
      destruct r, o as [v|]; cbn [is_some] in Hh;
        rewrite ?(bind_ok _ _ _ _ _ Hh);
        try (rewrite (bind_ok _ _ s _ _ (bind_ok _ _ _ _ _ Hh)));
        (exists s; split; [try reflexivity; try exact Hh|exact R]).
    - (* val, opt *)
      cbn in Hx. unfold sret in Hx. injection Hx as <-.
      pose proof (od_has_eq (OpTiny j) _ _ _ R eq_refl Hy) as Hh. cbn [od_has] in Hh.
      unfold cmp_val_opt. rewrite (bind_ok _ _ _ _ _ Hh).
      destruct y as [a|]; cbn [is_some].
      + rewrite (bind_ok _ _ _ _ _ (od_get_eq (OpTiny j) _ _ _ R eq_refl Hy)). apply refines_rel_call, R.
      + exists s. split; [destruct r; reflexivity|exact R].
  Qed.

  Lemma flip_reverse o : flip o = reverse o.
  Proof. destruct o; reflexivity. Qed.

  Lemma three_null_agrees i s t o :
    rel NoHole s t -> objs t i = Some (SOpt o) ->
    three_opt_null E i s = (Ok (match o with Some _ => OGreater | None => OEquiv end), s).
  Proof.
    intros R Hi. unfold three_opt_null.
    rewrite (bind_ok _ _ _ _ _ (has_value_eq NoHole _ _ _ _ R I Hi)). destruct o; reflexivity.
  Qed.

  Lemma three_val_agrees c i v s t o :
    rel NoHole s t -> objs t i = Some (SOpt o) ->
    agrees NoHole (three_opt_val E c i v s) (s_relate3 c o (Some v) t).
  Proof.
    intros R Hi. unfold three_opt_val.
    rewrite (bind_ok _ _ _ _ _ (has_value_eq NoHole _ _ _ _ R I Hi)).
    destruct o as [a|]; cbn [is_some].
    - cbn [od_get]. rewrite (bind_ok (bind _ _) _ s a s).
      2:{ rewrite (bind_ok _ _ _ _ _ (deref_eq _ _ _ _ R Hi)). eapply load_eq; eauto. }
      apply refines_three_call, R.
    - exists s. split; [reflexivity|exact R].
  Qed.

  Lemma agrees_flip (m : M W ordering) sm s t :
    agrees NoHole (m s) (sm t) ->
    agrees NoHole ((o <- m ;; ret (flip o)) s) (sbind sm (fun o => sret (reverse o)) t).
  Proof.
    intros H. eapply agrees_seq; [exact H|]. intros a s' t' R' _.
    exists s'. rewrite flip_reverse. split; [reflexivity|exact R'].
  Qed.

  Lemma operand_tiny_none i (t : sstate W) :
    (forall o, objs t i <> Some (SOpt o)) -> s_operand (OpTiny i) t = (SUndef, t).
  Proof.
    intros H. cbn. unfold contents. destruct (objs t i) as [[o|?]|]; try reflexivity.
    destruct (H o eq_refl).
  Qed.

  Lemma refines_three g c L R0 :
    refines NoHole (three_way E g c L R0) (s_three g c L R0).
  Proof.
    intros s t R.
    assert (Op : forall i, (exists o, objs t i = Some (SOpt o) /\ s_operand (OpTiny i) t = (SOk o, t))
                        \/ s_operand (OpTiny i) t = (SUndef, t)).
    { intros i. cbn. unfold contents. destruct (objs t i) as [[o|?]|]; eauto. }
    destruct L as [i|lo| |lv].
    - (* tiny on the left *)
      cbn [s_three]. unfold sbind at 1.
      destruct (Op i) as [(x & Hi & Hx)|Hx]; rewrite Hx; [|exact I].
      unfold sbind at 1. destruct R0 as [j|ro| |rv].
      + destruct (Op j) as [(y & Hj & Hy)|Hy]; rewrite Hy; [|exact I].
        cbn [three_way]. eapply three_opt_opt_agrees; eauto.
      + cbn [s_operand]. unfold sret at 1. cbn [three_way]. eapply three_opt_opt_agrees; eauto.
      + cbn [s_operand]. unfold sret at 1. cbn [three_way].
        unfold agrees. rewrite (three_null_agrees _ _ _ _ R Hi).
        destruct x; exists s; (split; [reflexivity|exact R]).
      + cbn [s_operand]. unfold sret at 1. cbn [three_way]. apply three_val_agrees; auto.
    - destruct R0 as [j|ro| |rv]; cbn [s_three]; try exact I.
      cbn [s_operand]. unfold sbind at 1, sret at 1. unfold sbind at 1.
      change (contents j t) with (s_operand (OpTiny j) t).
      destruct (Op j) as [(y & Hj & Hy)|Hy]; rewrite Hy; [|exact I].
      cbn [three_way]. destruct g.
      + eapply three_opt_opt_agrees; eauto.
      + apply agrees_flip. eapply three_opt_opt_agrees; eauto.
    - destruct R0 as [j|ro| |rv]; cbn [s_three]; try exact I.
      cbn [s_operand]. unfold sbind at 1, sret at 1. unfold sbind at 1.
      change (contents j t) with (s_operand (OpTiny j) t).
      destruct (Op j) as [(y & Hj & Hy)|Hy]; rewrite Hy; [|exact I].
      cbn [three_way]. apply agrees_flip. unfold agrees.
      rewrite (three_null_agrees _ _ _ _ R Hj).
      destruct y; exists s; (split; [reflexivity|exact R]).
    - destruct R0 as [j|ro| |rv]; cbn [s_three]; try exact I.
      cbn [s_operand]. unfold sbind at 1, sret at 1. unfold sbind at 1.
      change (contents j t) with (s_operand (OpTiny j) t).
      destruct (Op j) as [(y & Hj & Hy)|Hy]; rewrite Hy; [|exact I].
      cbn [three_way]. apply agrees_flip. apply three_val_agrees; auto.
  Qed.

  Lemma refines_declared3 c L R0 :
    route_defined (RtRewritten false) RLt L R0 = true ->
    refines NoHole (declared3 E c L R0)
      (if involved L R0 then sbind (s_operand L) (fun x => sbind (s_operand R0) (fun y => s_relate3 c x y))
       else sundef).
  Proof.
    intros Hd. pose proof (refines_three true c L R0) as H.
    destruct L as [i|lo| |lv], R0 as [j|ro| |rv]; try discriminate; exact H.
  Qed.

  (** The specification of the rewritten expression. *)
  Lemma s_compare_rewritten rev (c : cmpops W) r L R0 t :
    cmp_ok (RtRewritten rev) c r L R0 ->
    s_compare c r L R0 t =
    (let A := if rev then R0 else L in
     let B := if rev then L else R0 in
     match r with
     | REq => s_compare c REq A B t
     | RNe => sbind (s_compare c REq A B) (fun b => sret (negb b)) t
     | _ => sbind (if involved A B then sbind (s_operand A) (fun x => sbind (s_operand B) (fun y => s_relate3 c x y))
                   else sundef)
                  (fun o => sret (ord_test r (if rev then flip o else o))) t
     end).
  Proof.
    intros (Hd & Hc). unfold s_compare.
    assert (Hi : involved R0 L = involved L R0) by (destruct L, R0; reflexivity).
    assert (HA : involved (if rev then R0 else L) (if rev then L else R0) = involved L R0)
      by (destruct rev; [exact Hi|reflexivity]).
    cbv zeta. rewrite HA. destruct (involved L R0) eqn:Hinv; [|destruct r; reflexivity].
    assert (Ox : forall A, (exists x, s_operand A t = (SOk x, t)) \/ s_operand A t = (SUndef, t)).
    { intros [i|o| |v]; cbn; unfold sret; eauto. unfold contents.
      destruct (objs t i) as [[o|?]|]; eauto. }
    assert (K : forall x y, s_operand L t = (SOk x, t) -> s_operand R0 t = (SOk y, t) ->
      forall a b w, x = Some a -> y = Some b -> payload_via c (RtRewritten rev) r a b w = c_rel c r a b w).
    { intros x y Hx Hy a b w -> ->. destruct Hc as [Hc|Hc]; [|apply Hc].
      destruct L, R0; try discriminate; cbn in Hx, Hy; unfold sret in Hx, Hy; discriminate. }
    clear Hc Hi HA Hd Hinv.
    destruct (Ox L) as [(x & Hx)|Hx], (Ox R0) as [(y & Hy)|Hy].
    2,3,4: destruct rev, r; unfold sbind; repeat (first [rewrite Hx | rewrite Hy]); reflexivity.
    specialize (K x y Hx Hy).
    destruct rev, r; unfold sbind; repeat (first [rewrite Hx | rewrite Hy]);
      unfold s_relate, s_relate3;
      (destruct x as [a|], y as [b|]; try reflexivity;
       specialize (K a b (sworld t) eq_refl eq_refl); cbn [payload_via] in K;
       unfold sbind, suser; rewrite <- K;
       first [destruct (c_three c _ _ (sworld t)) as [[z|e] w'] | destruct (c_rel c REq _ _ (sworld t)) as [[z|e] w']];
       reflexivity).
  Qed.

  Lemma refines_compare rt c r L R0 :
    cmp_ok rt c r L R0 ->
    refines NoHole (compare E rt c r L R0) (s_compare c r L R0).
  Proof.
    intros Hok. destruct rt as [|rev]; [apply refines_declared|].
    intros s t R. rewrite (s_compare_rewritten _ _ _ _ _ t Hok). cbv zeta.
    destruct Hok as (Hd & _).
    assert (N : forall A B (f : ordering -> bool),
      route_defined (RtRewritten false) RLt A B = true ->
      agrees NoHole (bind (declared3 E c A B) (fun o => ret (f o)) s)
        (sbind (if involved A B then sbind (s_operand A) (fun x => sbind (s_operand B) (fun y => s_relate3 c x y))
                   else sundef) (fun o => sret (f o)) t)).
    { intros A B f HD. eapply agrees_seq; [apply refines_declared3; auto|].
      intros a s' t' R' _. exists s'. split; [reflexivity|exact R']. }
    assert (Hd' : r <> REq -> r <> RNe ->
      route_defined (RtRewritten false) RLt (if rev then R0 else L) (if rev then L else R0) = true).
    { intros E1 E2. destruct r; try congruence; exact Hd. }
    cbn [compare]. destruct r.
    - apply refines_declared, R.
    - unfold not_. eapply agrees_seq; [apply refines_declared, R|].
      intros a s' t' R' _. exists s'. split; [reflexivity|exact R'].
    - apply (N _ _ (fun o => ord_test RLt (if rev then flip o else o))), Hd'; congruence.
    - apply (N _ _ (fun o => ord_test RLe (if rev then flip o else o))), Hd'; congruence.
    - apply (N _ _ (fun o => ord_test RGt (if rev then flip o else o))), Hd'; congruence.
    - apply (N _ _ (fun o => ord_test RGe (if rev then flip o else o))), Hd'; congruence.
  Qed.

  Lemma refines_hash h i : refines NoHole (hash E h i) (s_hash h i).
  Proof.
    apply refines_contents_bind; [exact I|]. intros s t o R Ho.
    destruct o as [v|]; cbn [is_some].
    - cbn [od_get]. rewrite (bind_ok (bind _ _) _ s v s).
      2:{ rewrite (bind_ok _ _ _ _ _ (deref_eq _ _ _ _ R Ho)). eapply load_eq; eauto. }
      apply refines_bind; [apply refines_call| |exact R]. intros x. apply refines_lift.
    - exists s. split; [reflexivity|exact R].
  Qed.

  (** ** One call, and whole histories *)

  Lemma refines_wrap {A} (m : M W A) sm (f : A -> obs) :
    refines NoHole m sm -> refines NoHole (bind m (fun a => ret (f a))) (sbind sm (fun a => sret (f a))).
  Proof. intros H. apply refines_bind; [exact H|]. intros a. apply refines_ret. Qed.

  Lemma refines_step o :
    op_ok o -> refines NoHole (step E o) (sstep tid pops stor isv o).
  Proof.
    intros Hok. destruct o; cbn [step sstep op_ok] in *;
      unfold unit_, bool_, val_, sunit, sbool, sval; apply refines_wrap.
    - apply refines_default.
    - apply noexcept_refines; [apply refines_default|].
      intros _ t e t'. unfold s_new, sbind, fresh. destruct (objs t i); [congruence|].
      apply become_not_throw.
    - apply refines_in_place, Hok.
    - apply refines_copy_ctor.
    - apply refines_move_ctor.
    - apply refines_dtor.
    - apply noexcept_refines; [apply refines_reset|]. intros _ t e t'. apply s_clear_not_throw.
    - apply refines_assign, Hok.
    - apply refines_copy_assign.
    - apply refines_move_assign.
    - apply refines_emplace, Hok.
    - apply refines_reset.
    - apply refines_swap.
    - apply refines_std_swap.
    - apply refines_has.
    - apply refines_has.
    - apply refines_access.
    - apply refines_value_or_copy.
    - apply refines_value_or_move.
    - apply refines_and_then.
    - apply refines_transform, Hok.
    - apply refines_or_else.
    - apply refines_compare, Hok.
    - apply refines_three.
    - apply refines_hash.
    - (* new variable *)
      intros s t R. unfold sbind, fresh. destruct (objs t i) eqn:Hi; [exact I|].
      unfold is_value. destruct (Nat.eqb (length v) (d_psize (dec E i))) eqn:Hl; [|exact I].
      pose proof (rel_robj _ _ _ i R I) as Hr. rewrite Hi in Hr. cbn in Hr.
      unfold var_new, bind. rewrite Hr, Hl. cbn. eexists. split; [reflexivity|].
      pose proof R as (Hw & Ht & Hj). rewrite <- Hw.
      refine (rel_upd NoHole s t i _ _ _ _ R I _ _).
      + cbn. split; [reflexivity|]. apply Nat.eqb_eq, Hl.
      + apply no_abandon_cons; [congruence|exact Ht].
    - (* drop variable *)
      intros s t R. unfold agrees. destruct (objs t i) as [[?|v]|] eqn:Hi; try exact I.
      pose proof (rel_robj _ _ _ i R I) as Hr. rewrite Hi in Hr. destruct Hr as (Hm & Hl).
      unfold sbind, sdestroy, suser, sset. cbn.
      unfold var_drop, bind, load_payload, get_region. cbn. unfold bind, get_region. rewrite Hm. cbn.
      rewrite <- Hl, sub_full. eexists. split; [reflexivity|].
      pose proof R as (Hw & Ht & Hj). rewrite <- Hw.
      refine (rel_upd NoHole s t i None None _ _ R I eq_refl _).
      apply no_abandon_cons; [congruence|exact Ht].
  Qed.

  Lemma rel_init w : rel NoHole (init_state w) (sinit_state w).
  Proof.
    split; [reflexivity|]. split; [intros i []|]. intros j. reflexivity.
  Qed.

  Lemma refines_run p s t :
    Forall op_ok p -> rel NoHole s t ->
    match srun tid pops stor isv p t with
    | (Some xs, t') => exists s', run E p s = (inl xs, s') /\ rel NoHole s' t'
    | (None, _) => True
    end.
  Proof.
    intros Hp. revert s t. induction Hp as [|o p Ho Hp IH]; intros s t R.
    - cbn. exists s. split; [reflexivity|exact R].
    - cbn [srun run]. pose proof (refines_step o Ho s t R) as H. unfold agrees in H.
      destruct (sstep tid pops stor isv o t) as [[x|e|] t1]; [| |exact I];
        destruct H as (s1 & -> & R1); specialize (IH s1 t1 R1);
        destruct (srun tid pops stor isv p t1) as [[xs|] t2]; try exact I; cbn;
        destruct IH as (s2 & -> & R2); eauto.
  Qed.
End Refine.
