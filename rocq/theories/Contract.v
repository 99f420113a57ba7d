(** * Contract: vocabulary of the property theorems

    A client history within the contract, what the API shows of an optional, and
    one more call at the end of such a history. *)

From Coq Require Import List NArith ZArith Bool Arith Lia.
From Verif Require Import Cells CellsFacts Machine Optional Program Spec Laws Refine.
Import ListNotations.

Local Arguments put : simpl never.
Local Arguments sub : simpl never.

Section Contract.
  Context {W : Type}.
  Variable E : env W.

  (** The history [p] executed with std::optional, starting without any variable. *)
  Definition std_run (w : W) (p : list (op W)) : option (list obs) * sstate W :=
    srun (e_tid E) (ops E) (storable E) (is_value E) p (sinit_state w).

  (** The client respects the contract: std::optional's preconditions hold, no
      value equal to the sentinel is stored, nothrow traits are truthful, and
      transform's callable throws only if the result's construction may. *)
  Definition contract (w : W) (p : list (op W)) : Prop :=
    Forall op_ok p /\ exists xs t, std_run w p = (Some xs, t).

  (** Executing the history [p] with tiny optionals leads to state [s]. *)
  Definition reaches (w : W) (p : list (op W)) (s : state W) : Prop :=
    exists xs, run E p (init_state w) = (inl xs, s).

  (** What has_value() and operator* show of optional [i]; [None] if the calls
      are undefined. *)
  Definition peek (i : loc) (s : state W) : option (option rep) :=
    match has_value E i s with
    | (Ok false, _) => Some None
    | (Ok true, _) =>
        match (op_deref E i ;; load_payload E i) s with
        | (Ok v, _) => Some (Some v)
        | _ => None
        end
    | _ => None
    end.

  (** After the history [p], which leads to [s], the call [o] (still within the
      contract) has the outcome [r] and leads to [s']. *)
  Definition call_after (w : W) (p : list (op W)) (s : state W) (o : op W)
    (r : out obs) (s' : state W) : Prop :=
    contract w (p ++ [o]) /\ reaches w p s /\ step E o s = (r, s').

  (** Where std::optional would stand after the history [p]: [i] is an optional
      containing [o]; [i] is a plain variable with value [v]; there is no variable
      [i]. *)
  Definition opt_after (w : W) (p : list (op W)) (i : loc) (o : option rep) : Prop :=
    exists xs t, std_run w p = (Some xs, t) /\ objs t i = Some (SOpt o).
  Definition var_after (w : W) (p : list (op W)) (i : loc) (v : rep) : Prop :=
    exists xs t, std_run w p = (Some xs, t) /\ objs t i = Some (SVar v).
  Definition fresh_after (w : W) (p : list (op W)) (i : loc) : Prop :=
    exists xs t, std_run w p = (Some xs, t) /\ objs t i = None.

  (** For concrete histories. *)
  Lemma contract_intro w p xs :
    Forall op_ok p -> fst (std_run w p) = Some xs -> contract w p.
  Proof.
    intros Hp H. split; [exact Hp|]. destruct (std_run w p) as [r t]. cbn in H. subst r. eauto.
  Qed.
  Lemma opt_after_intro w p i o :
    match std_run w p with (Some _, t) => objs t i | _ => None end = Some (SOpt o) ->
    opt_after w p i o.
  Proof.
    unfold opt_after. destruct (std_run w p) as [[xs|] t]; [eauto|discriminate].
  Qed.
  Lemma fresh_after_intro w p i :
    match std_run w p with (Some _, t) => objs t i | _ => Some (SOpt None) end = None ->
    fresh_after w p i.
  Proof.
    unfold fresh_after. destruct (std_run w p) as [[xs|] t]; [eauto|discriminate].
  Qed.
  Lemma reaches_intro w p xs :
    fst (run E p (init_state w)) = inl xs -> reaches w p (snd (run E p (init_state w))).
  Proof.
    intros H. exists xs. destruct (run E p (init_state w)) as [r s]. cbn in *. subst r. reflexivity.
  Qed.

  (** ** Consequences of the refinement *)

  Hypothesis HE : env_ok E.

  Notation srun' := (srun (e_tid E) (ops E) (storable E) (is_value E)).
  Notation sstep' := (sstep (e_tid E) (ops E) (storable E) (is_value E)).

  Lemma srun_app p q (t : sstate W) :
    srun' (p ++ q) t =
    match srun' p t with
    | (Some xs, t') => let (r, t'') := srun' q t' in (option_map (app xs) r, t'')
    | (None, t') => (None, t')
    end.
  Proof.
    revert t. induction p as [|o p IH]; intros t; cbn [app srun].
    - destruct (srun' q t) as [[xs|] t']; reflexivity.
    - destruct (sstep' o t) as [[x|e|] t1]; [| |reflexivity]; rewrite IH;
        destruct (srun' p t1) as [[xs|] t2]; cbn; try reflexivity;
        destruct (srun' q t2) as [[ys|] t3]; reflexivity.
  Qed.

  Lemma contract_app w p q : contract w (p ++ q) -> contract w p.
  Proof.
    intros (Hp & xs & t & H). split; [apply Forall_app in Hp; apply Hp|].
    unfold std_run in *. rewrite srun_app in H.
    destruct (srun' p (sinit_state w)) as [[ys|] t']; [eauto|discriminate].
  Qed.

  (** Every history within the contract runs. *)
  Lemma contract_rel w p :
    contract w p ->
    exists xs s t, std_run w p = (Some xs, t) /\ run E p (init_state w) = (inl xs, s) /\
                   rel E NoHole s t.
  Proof.
    intros (Hp & xs & t & H). pose proof (refines_run E HE p _ _ Hp (rel_init E w)) as R.
    unfold std_run in H. rewrite H in R. destruct R as (s & Hs & R). exists xs, s, t.
    split; [exact H|]. split; assumption.
  Qed.

  Lemma reaches_rel w p s :
    contract w p -> reaches w p s -> exists xs t, std_run w p = (Some xs, t) /\ rel E NoHole s t.
  Proof.
    intros C (xs & H). destruct (contract_rel w p C) as (ys & s' & t & H1 & H2 & R).
    rewrite H in H2. injection H2 as <- <-. eauto.
  Qed.

  Lemma call_spec w p s o r s' :
    call_after w p s o r s' ->
    exists t t' sr, rel E NoHole s t /\ sstep' o t = (sr, t') /\ rel E NoHole s' t' /\
      match sr with SOk x => r = Ok x | SThrow e => r = Throw e | SUndef => False end.
  Proof.
    intros (C & Hr & Hs). pose proof (contract_app _ _ _ C) as Cp.
    destruct (reaches_rel _ _ _ Cp Hr) as (xs & t & Ht & R).
    destruct C as (Ho & ys & t2 & H). apply Forall_app in Ho as (_ & Ho).
    apply Forall_inv in Ho. unfold std_run in *. rewrite srun_app, Ht in H. cbn [srun] in H.
    pose proof (refines_step E HE o Ho s t R) as A. unfold agrees in A.
    destruct (sstep' o t) as [[x|e|] t1] eqn:Hx.
    - destruct A as (s1 & A & R1). rewrite Hs in A. injection A as -> <-. exists t, t1, (SOk x). auto.
    - destruct A as (s1 & A & R1). rewrite Hs in A. injection A as -> <-. exists t, t1, (SThrow e). auto.
    - discriminate.
  Qed.

  Lemma peek_rel s t i o :
    rel E NoHole s t -> objs t i = Some (SOpt o) -> peek i s = Some o.
  Proof.
    intros R Ho. unfold peek. rewrite (has_value_eq E _ _ _ _ _ R I Ho).
    destruct o as [v|]; [|reflexivity]. cbn [is_some].
    unfold op_deref, bind.
    rewrite (assert_true E s (has_value E i)) by exact (has_value_true E s t i v R Ho).
    pose proof (refines_load E NoHole i s t R) as L. unfold agrees, sread in L. rewrite Ho in L.
    destruct L as (s' & -> & _). reflexivity.
  Qed.

  (** The same starting from the abstract state that the history leads to. *)
  Lemma call_spec_at w p s o r s' :
    call_after w p s o r s' ->
    exists xs t t' sr, std_run w p = (Some xs, t) /\ rel E NoHole s t /\
      sstep' o t = (sr, t') /\ rel E NoHole s' t' /\
      match sr with SOk x => r = Ok x | SThrow e => r = Throw e | SUndef => False end.
  Proof.
    intros C. destruct (call_spec _ _ _ _ _ _ C) as (t & t' & sr & R & Hs & R' & Hr).
    pose proof C as (Cc & Hre & _). apply contract_app in Cc.
    destruct (reaches_rel _ _ _ Cc Hre) as (xs & t1 & Ht & R1).
    pose proof C as ((Ho & _) & _ & Hst). apply Forall_app in Ho as (_ & Ho). apply Forall_inv in Ho.
    destruct C as ((_ & ys & t2 & H) & _ & _). unfold std_run in H. rewrite srun_app in H.
    pose proof Ht as Ht'. unfold std_run in Ht'. rewrite Ht' in H. cbn [srun] in H.
    pose proof (refines_step E HE o Ho s t1 R1) as A. unfold agrees in A.
    destruct (sstep' o t1) as [[x|e|] t3] eqn:Hx; [| |discriminate];
      destruct A as (s3 & A & R3); rewrite Hst in A; injection A as -> <-;
      exists xs, t1, t3; eexists; (split; [exact Ht|]); (split; [exact R1|]);
      (split; [exact Hx|]); (split; [exact R3|]); reflexivity.
  Qed.

  (** A call on a state reached by a history, from its abstract outcome. *)
  Lemma step_from w p s o xs t :
    contract w p -> reaches w p s -> op_ok o -> std_run w p = (Some xs, t) ->
    agrees E NoHole (step E o s) (sstep' o t).
  Proof.
    intros C Hr Ho Ht. destruct (reaches_rel _ _ _ C Hr) as (ys & t' & Ht' & R).
    rewrite Ht in Ht'. injection Ht' as <- <-. apply refines_step; assumption.
  Qed.

  Lemma opt_after_at w p i o xs t :
    opt_after w p i o -> std_run w p = (Some xs, t) -> objs t i = Some (SOpt o).
  Proof. intros (ys & t' & H & Ho) H'. rewrite H' in H. injection H as <- <-. exact Ho. Qed.
  Lemma fresh_after_at w p i xs t :
    fresh_after w p i -> std_run w p = (Some xs, t) -> objs t i = None.
  Proof. intros (ys & t' & H & Ho) H'. rewrite H' in H. injection H as <- <-. exact Ho. Qed.

  Lemma opt_after_peek w p s i o :
    contract w p -> reaches w p s -> opt_after w p i o -> peek i s = Some o.
  Proof.
    intros C Hr Ho. destruct (reaches_rel _ _ _ C Hr) as (xs & t & Ht & R).
    eapply peek_rel; [exact R|]. eapply opt_after_at; eauto.
  Qed.

  Lemma run_app p q (s : state W) :
    run E (p ++ q) s =
    match run E p s with
    | (inl xs, s') =>
        let (r, s'') := run E q s' in
        (match r with inl ys => inl (xs ++ ys) | inr f => inr f end, s'')
    | (inr f, s') => (inr f, s')
    end.
  Proof.
    revert s. induction p as [|o p IH]; intros s; cbn [app run].
    - destruct (run E q s) as [[ys|f] s']; reflexivity.
    - destruct (step E o s) as [[x|e|f] s1]; [| |reflexivity]; rewrite IH;
        destruct (run E p s1) as [[xs|f] s2]; try reflexivity;
        destruct (run E q s2) as [[ys|f] s3]; reflexivity.
  Qed.

  (** The call extends the history. *)
  Lemma call_reaches w p s o r s' : call_after w p s o r s' -> reaches w (p ++ [o]) s'.
  Proof.
    intros C. destruct (call_spec_at _ _ _ _ _ _ C) as (xs & t & t' & sr & _ & _ & _ & _ & Hr).
    destruct C as (_ & (ys & H) & Hs). unfold reaches. rewrite run_app, H. cbn [run]. rewrite Hs.
    destruct sr; [subst r..|contradiction]; eauto.
  Qed.
  Lemma call_opt_after w p s o r s' i x :
    call_after w p s o r s' -> peek i s' = Some x -> (exists y, opt_after w (p ++ [o]) i y) ->
    opt_after w (p ++ [o]) i x.
  Proof.
    intros C Hp (y & Hy). pose proof C as (Cc & _ & _).
    pose proof (opt_after_peek _ _ _ _ _ Cc (call_reaches _ _ _ _ _ _ C) Hy) as H. congruence.
  Qed.

  (** The abstract state after the call. *)
  Lemma call_std w p s o r s' xs t sr t' :
    call_after w p s o r s' -> std_run w p = (Some xs, t) -> sstep' o t = (sr, t') ->
    exists ys, std_run w (p ++ [o]) = (Some ys, t').
  Proof.
    intros ((_ & zs & t2 & H) & _) Ht Hs. unfold std_run in *. rewrite srun_app, Ht in *. cbn [srun] in *.
    rewrite Hs in *. destruct sr; [..|discriminate]; cbn in *; eauto.
  Qed.

  Lemma rel_world s t : rel E NoHole s t -> world s = sworld t.
  Proof. intros (H & _). exact H. Qed.
  Lemma rel_fresh s t i : rel E NoHole s t -> objs t i = None -> mem s i = None.
  Proof. intros R H. pose proof (rel_robj E _ _ _ i R I) as Hr. rewrite H in Hr. exact Hr. Qed.

  Lemma peek_has i s o :
    peek i s = Some o -> exists s', has_value E i s = (Ok (is_some o), s').
  Proof.
    unfold peek. destruct (has_value E i s) as [[[]|e|f] s'] eqn:H; try discriminate.
    - destruct ((op_deref E i;; load_payload E i) s) as [[v|e|f] s2]; try discriminate.
      intros [= <-]. eauto.
    - intros [= <-]. eauto.
  Qed.
End Contract.
