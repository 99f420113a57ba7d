(** * Configs: configuration macros do not change behaviour (C37)

    The same program compiled with different configuration macros, and with or without
    assertions. *)

From Coq Require Import List NArith ZArith Bool Arith Lia.
From Verif Require Import Cells CellsFacts Machine Optional Program Spec Laws Refine.
From Verif Require Import Bits Manip IntRange Select Selection Contract Sample Histories ExampleTac.
From Verif Require Import Sentinels Scalars.
Import ListNotations.

(** ** std::optional with a laxer contract gives the same results *)

Section Mono.
  Context {W : Type}.
  Variable tid : loc -> nat.
  Variables pops1 pops2 : loc -> payops W.
  Variables st1 st2 iv1 iv2 : loc -> rep -> bool.
  Hypothesis Hpops : forall i, pops1 i = pops2 i.
  Hypothesis Hst : forall i v, st1 i v = true -> st2 i v = true.
  Hypothesis Hiv : forall i v, iv1 i v = true -> iv2 i v = true.

  (** Whenever [m1] is defined, [m2] does the same. *)
  Definition le {A} (m1 m2 : @S W A) : Prop :=
    forall t, match m1 t with (SUndef, _) => True | r => m2 t = r end.

  Lemma le_refl {A} (m : @S W A) : le m m.
  Proof. intros t. destruct (m t) as [[]]; auto. Qed.
  Lemma le_undef {A} (m : @S W A) : le sundef m.
  Proof. intros t. exact I. Qed.
  Lemma le_bind {A B} (m1 m2 : @S W A) (k1 k2 : A -> @S W B) :
    le m1 m2 -> (forall a, le (k1 a) (k2 a)) -> le (sbind m1 k1) (sbind m2 k2).
  Proof.
    intros Hm Hk t. unfold sbind. specialize (Hm t).
    destruct (m1 t) as [[a|e|] t1]; [| |exact I]; rewrite Hm; [apply Hk|reflexivity].
  Qed.
  Lemma le_become i o : le (become st1 i o) (become st2 i o).
  Proof.
    unfold become. destruct o as [v|]; [|apply le_refl].
    destruct (st1 i v) eqn:H; [|apply le_undef]. rewrite (Hst i v H). apply le_refl.
  Qed.
  Lemma le_write i v : le (swrite st1 iv1 i v) (swrite st2 iv2 i v).
  Proof.
    intros t. unfold swrite. destruct (objs t i) as [[[x|]|x]|]; auto.
    - apply (le_become i (Some v) t).
    - destruct (iv1 i v) eqn:H; [|exact I]. rewrite (Hiv i v H). reflexivity.
  Qed.
  Ltac le_step :=
    match goal with
    | |- le ?m ?m => apply le_refl
    | |- le sundef _ => apply le_undef
    | |- le (become st1 _ _) _ => apply le_become
    | |- le (swrite st1 iv1 _ _) _ => apply le_write
    | |- le (sbind _ _) (sbind _ _) => apply le_bind; [|intros]
    | |- le (if ?b then _ else _) _ => destruct b
    | |- le (match ?x with _ => _ end) _ => destruct x
    end.
  Ltac go := repeat (rewrite ?Hpops; le_step).

  Lemma le_write_more l : forall vs, le (swrite_more st1 iv1 l vs) (swrite_more st2 iv2 l vs).
  Proof.
    induction l as [|[j c] l IH]; intros [|v vs]; cbn [swrite_more]; try apply le_refl.
    apply le_bind; [go|intros _; apply IH].
  Qed.
  Lemma le_init n : le (sinit st1 iv1 n) (sinit st2 iv2 n).
  Proof. unfold sinit. go. apply le_write_more. Qed.
  Lemma le_copy j : le (scopy pops1 j) (scopy pops2 j).
  Proof. unfold scopy. go. Qed.
  Lemma le_move j : le (smove pops1 st1 iv1 j) (smove pops2 st2 iv2 j).
  Proof. unfold smove. go. Qed.
  Lemma le_destroy i v : le (sdestroy pops1 i v) (sdestroy pops2 i v).
  Proof. unfold sdestroy. go. Qed.
  Lemma le_clear i : le (s_clear pops1 st1 i) (s_clear pops2 st2 i).
  Proof. unfold s_clear, sdestroy. go. Qed.
  Lemma le_same {A} i j (m1 m2 : @S W A) : le m1 m2 -> le (same tid i j m1) (same tid i j m2).
  Proof. intros H. unfold same. destruct (Nat.eqb _ _); [exact H|apply le_undef]. Qed.

  Lemma le_on_throw {A} (m1 m2 : @S W A) c1 c2 :
    le m1 m2 -> le c1 c2 -> le (s_on_throw m1 c1) (s_on_throw m2 c2).
  Proof.
    intros Hm Hc t. specialize (Hm t). unfold s_on_throw.
    destruct (m1 t) as [[a|e|] t1]; [rewrite Hm; reflexivity| |exact I]. rewrite Hm.
    specialize (Hc t1). destruct (c1 t1) as [[?|?|] t2]; [rewrite Hc; reflexivity|exact I|exact I].
  Qed.

  Ltac le_step2 :=
    match goal with
    | |- le (s_on_throw _ _) _ => apply le_on_throw
    | |- le ?m ?m => apply le_refl
    | |- le sundef _ => apply le_undef
    | |- le (sinit st1 iv1 _) _ => apply le_init
    | |- le (scopy pops1 _) _ => apply le_copy
    | |- le (smove pops1 _ _ _) _ => apply le_move
    | |- le (sdestroy pops1 _ _) _ => apply le_destroy
    | |- le (s_clear pops1 _ _) _ => apply le_clear
    | |- le (same tid _ _ _) _ => apply le_same
    | |- le (become st1 _ _) _ => apply le_become
    | |- le (swrite st1 iv1 _ _) _ => apply le_write
    | |- le (sbind _ _) (sbind _ _) => apply le_bind; [|intros]
    | |- le (if iv1 ?i ?v then _ else _) _ =>
        let H := fresh in destruct (iv1 i v) eqn:H; [rewrite (Hiv i v H)|]
    | |- le (if ?b then _ else _) _ => destruct b
    | |- le (match ?x with _ => _ end) _ => destruct x
    end.
  Ltac go2 := repeat (rewrite ?Hpops; le_step2).

  Lemma le_step o : le (sstep tid pops1 st1 iv1 o) (sstep tid pops2 st2 iv2 o).
  Proof.
    destruct o; cbn [sstep];
      unfold sunit, sval, s_new, s_ctor_from, s_dtor, s_assign, s_assign_existing, s_copy_assign,
        s_move_assign, s_emplace, s_swap, s_std_swap, s_access, s_value_or, s_and_then, s_transform, s_or_else;
      unfold s_new, s_ctor_from, s_move_assign, s_dtor; go2.
    intros t. destruct (objs t i) as [[o|v]|]; auto.
    apply (le_bind _ _ _ _ (le_destroy i v) (fun _ => le_refl _) t).
  Qed.
  Lemma le_run p t xs t' :
    srun tid pops1 st1 iv1 p t = (Some xs, t') -> srun tid pops2 st2 iv2 p t = (Some xs, t').
  Proof.
    revert t xs t'. induction p as [|o p IH]; intros t xs t' H; cbn [srun] in *; [exact H|].
    pose proof (le_step o t) as L.
    destruct (sstep tid pops1 st1 iv1 o t) as [[x|e|] t1]; [| |discriminate]; rewrite L;
      destruct (srun tid pops1 st1 iv1 p t1) as [[ys|] t2] eqn:R; cbn in H; try discriminate;
      injection H as <- <-; rewrite (IH _ _ _ R); reflexivity.
  Qed.
End Mono.

(** ** Two builds of one program *)

(** Type [n] of the program is [optional<P, a, b>]; the builds use the configurations
    [cf1] and [cf2].  Simplification: the payload types themselves have the same size
    in both builds, i.e. they do not contain tiny optionals as members. *)
Definition same_type {W} (cf1 cf2 : config) (T1 T2 : optty W) : Prop :=
  ot_ops T1 = ot_ops T2 /\
  exists U P a b,
    universe_ok U /\
    optional_type U cf1 P a b = Chosen (ot_dec T1) (ot_man T1) /\
    optional_type U cf2 P a b = Chosen (ot_dec T2) (ot_man T2).
(** The two environments are builds of the same program; assertions may be enabled in
    one and disabled in the other. *)
Definition same_program {W} (cf1 cf2 : config) (E1 E2 : env W) : Prop :=
  e_tid E1 = e_tid E2 /\ forall n, same_type cf1 cf2 (e_tys E1 n) (e_tys E2 n).

(** The results, the user's world and all optionals are the same. *)
Definition same_behaviour {W} (E1 E2 : env W) (w : W) (p : list (op W)) : Prop :=
  exists xs s1 s2,
    run E1 p (init_state w) = (inl xs, s1) /\ run E2 p (init_state w) = (inl xs, s2) /\
    world s1 = world s2 /\
    forall i o, opt_after E1 w p i o -> peek E1 i s1 = Some o /\ peek E2 i s2 = Some o.

Lemma same_run W (E1 E2 : env W) w p xs t :
  env_ok E1 -> env_ok E2 -> Forall op_ok p ->
  std_run E1 w p = (Some xs, t) -> std_run E2 w p = (Some xs, t) -> same_behaviour E1 E2 w p.
Proof.
  intros HE1 HE2 Ho H1 H2.
  destruct (C01_history_refines_std W E1 w p xs t HE1 Ho H1) as (s1 & R1 & W1 & P1).
  destruct (C01_history_refines_std W E2 w p xs t HE2 Ho H2) as (s2 & R2 & W2 & P2).
  exists xs, s1, s2. repeat (split; [assumption|]). split; [congruence|].
  intros i o (ys & t' & H & Hi). rewrite H1 in H. injection H as <- <-.
  specialize (P1 i). specialize (P2 i). rewrite Hi in P1, P2. auto.
Qed.

Lemma psize_of U cf P a b d m :
  optional_type U cf P a b = Chosen d m -> d_psize d = size_of U (base P).
Proof.
  intros H. apply C32_selection_as_documented in H as (_ & H). destruct H; reflexivity.
Qed.

(** ** Without the tricks everything still compiles *)

(** Whatever compiles with the default configuration also compiles with
    TINY_OPTIONAL_USE_SEPARATE_BOOL_INSTEAD_OF_UB_TRICKS; the payload is the same, and
    every value that can be stored still can. *)
Theorem C37_still_compiles :
  forall U P a b d m,
    optional_type U default_config P a b = Chosen d m ->
    exists d' m',
      optional_type U no_ub_tricks P a b = Chosen d' m' /\
      d_psize d' = d_psize d /\
      forall v, storable_in d m v = true -> storable_in d' m' v = true.
Proof.
  intros U P a b d m H. apply C32_selection_as_documented in H as (HP & H).
  destruct H as [b Hf|b g Hf|v b g Hv Hf|c t off g Hm Hc Hf|c t off v g Hm Hc Hf|c t off b Hm Hc].
  - exists (dec_separate (size_of U (base P)) (u_align U (base P))), man_separate.
    split; [|auto]. apply C32_selection_as_documented. split; [exact HP|]. apply doc_std.
    unfold flag_manipulator in *. destruct (u_spec U P); [discriminate|reflexivity].
  - unfold flag_manipulator in Hf. destruct (u_spec U P) as [k|] eqn:K.
    + exists (dec_inplace (size_of U (base P))), g. split; [|auto].
      apply C32_selection_as_documented. split; [exact HP|]. apply doc_custom.
      unfold flag_manipulator. rewrite K. exact Hf.
    + exists (dec_separate (size_of U (base P)) (u_align U (base P))), man_separate.
      split; [apply C32_selection_as_documented; split; [exact HP|]; apply doc_std;
              unfold flag_manipulator; rewrite K; reflexivity|].
      split; [reflexivity|]. intros x. unfold storable_in. cbn.
      rewrite andb_true_r. intros Hx. apply andb_true_iff in Hx as (Hx & _). exact Hx.
  - exists (dec_inplace (size_of U (base P))), g. split; [|auto].
    apply C32_selection_as_documented. split; [exact HP|]. apply doc_sentinel; assumption.
  - exists (dec_separate (size_of U (base P)) (u_align U (base P))), man_separate.
    split; [apply C32_selection_as_documented; split; [exact HP|]; apply doc_member_disabled; auto|].
    split; [reflexivity|]. intros x. unfold storable_in. cbn.
    rewrite andb_true_r. intros Hx. apply andb_true_iff in Hx as (Hx & _). exact Hx.
  - exists (dec_separate (size_of U (base P)) (u_align U (base P))), man_separate.
    split; [apply C32_selection_as_documented; split; [exact HP|]; apply doc_member_disabled; auto|].
    split; [reflexivity|]. intros x. unfold storable_in. cbn.
    rewrite andb_true_r. intros Hx. apply andb_true_iff in Hx as (Hx & _). exact Hx.
  - discriminate Hm.
Qed.

(** Only sizes change, and only upwards. *)
Theorem C37_size_grows :
  forall U P a b d m d' m',
    universe_ok U ->
    optional_type U default_config P a b = Chosen d m ->
    optional_type U no_ub_tricks P a b = Chosen d' m' ->
    d_ssize d <= d_ssize d'.
Proof.
  intros U P a b d m d' m' HU H H'.
  destruct (C33_sizeof _ _ _ _ _ _ _ HU H') as (P1 & _ & S1 & S2).
  destruct (C33_sizeof _ _ _ _ _ _ _ HU H) as (P0 & _ & T1 & T2).
  destruct (C37_still_compiles _ _ _ _ _ _ H) as (e & k & He & _ & St).
  rewrite H' in He. injection He as <- <-.
  destruct (d_sep d) eqn:Sd.
  - assert (d_sep d' = true) as Sd'.
    { apply C32_selection_as_documented in H as (_ & H), H' as (_ & H').
      destruct H as [b Hf|b g Hf|v b g Hv Hf|c t off g Hm Hc Hf|c t off v g Hm Hc Hf|c t off b Hm Hc];
        try discriminate.
      inversion H' as [| ? ? Hg| | | |]; subst; [reflexivity|].
      unfold flag_manipulator in Hf, Hg. destruct (u_spec U P); discriminate. }
    destruct (T2 eq_refl) as (_ & _ & L). destruct (S2 Sd') as (D & G & _). apply L; assumption.
  - rewrite (T1 eq_refl). destruct (d_sep d') eqn:Sd'.
    + destruct (S2 eq_refl) as (_ & G & _). lia.
    + rewrite (S1 eq_refl). lia.
Qed.

(** ** ... and behaves the same *)

Theorem C37_same_behaviour :
  forall W (E1 E2 : env W) w p,
    env_ok E1 -> same_program default_config no_ub_tricks E1 E2 -> contract E1 w p ->
    contract E2 w p /\ same_behaviour E1 E2 w p.
Proof.
  intros W E1 E2 w p HE1 (Ht & HS) (Ho & xs & t & Hr).
  assert (HE2 : env_ok E2).
  { intros n. destruct (HS n) as (Hops & U & P & a & b & HU & H1 & H2).
    pose proof (HE1 n) as [D1 M1 O1]. rewrite Hops in O1.
    enough (decomp_ok (ot_dec (e_tys E2 n)) /\ manip_ok (ot_dec (e_tys E2 n)) (ot_man (e_tys E2 n)))
      by (split; tauto).
    pose proof (uo_align U HU (base P)) as Hal.
    apply C32_selection_as_documented in H1 as (_ & H1), H2 as (_ & H2).
    remember (ot_dec (e_tys E1 n)) as d1. remember (ot_man (e_tys E1 n)) as m1.
    inversion H2 as [b0 Hf E0 E3 E4 E5|b0 g Hf|v b0 g Hv Hf|c t0 off g Hm|c t0 off v g Hm
                    |c t0 off b0 Hm Hc]; subst a; try discriminate.
    - split; [apply dec_separate_ok, Hal|apply man_separate_ok].
    - inversion H1 as [? Hg|? g1 Hg| | | |]; subst.
      + unfold flag_manipulator in Hf, Hg. destruct (u_spec U P); discriminate.
      + unfold flag_manipulator in Hf, Hg. destruct (u_spec U P) as [k|]; [|discriminate].
        assert (ot_man (e_tys E2 n) = ot_man (e_tys E1 n)) as -> by congruence.
        assert (ot_dec (e_tys E1 n) = dec_inplace (size_of U (base P))) as <- by congruence. auto.
    - inversion H1 as [|?|? ? g1 Hv1 Hg| | |]; subst; try discriminate.
      unfold sentinel_for in *.
      assert (ot_man (e_tys E2 n) = ot_man (e_tys E1 n)) as -> by congruence.
      assert (ot_dec (e_tys E1 n) = dec_inplace (size_of U (base P))) as <- by congruence. auto.
    - split; [apply dec_separate_ok, Hal|apply man_separate_ok]. }
  assert (R2 : std_run E2 w p = (Some xs, t)).
  { unfold std_run in *. rewrite Ht in Hr. eapply le_run; [| | |exact Hr].
    - intros i. unfold ops, ty. rewrite Ht. apply (HS (e_tid E2 i)).
    - intros i v. unfold storable, dec, man, ty. rewrite Ht.
      destruct (HS (e_tid E2 i)) as (_ & U & P & a & b & _ & H1 & H2).
      destruct (C37_still_compiles _ _ _ _ _ _ H1) as (d' & m' & H3 & _ & St).
      rewrite H2 in H3. injection H3 as -> ->. apply St.
    - intros i v. unfold is_value, dec, ty. rewrite Ht.
      destruct (HS (e_tid E2 i)) as (_ & U & P & a & b & _ & H1 & H2).
      rewrite (psize_of _ _ _ _ _ _ _ H1), (psize_of _ _ _ _ _ _ _ H2). auto. }
  split; [split; eauto|]. eapply same_run; eauto.
Qed.

(** Any two configurations that both accept the program: if the program respects the
    contract in both builds, both behave the same. *)
Theorem C37_any_two_configurations :
  forall W cf1 cf2 (E1 E2 : env W) w p,
    env_ok E1 -> env_ok E2 -> same_program cf1 cf2 E1 E2 ->
    contract E1 w p -> contract E2 w p -> same_behaviour E1 E2 w p.
Proof.
  intros W cf1 cf2 E1 E2 w p HE1 HE2 (Ht & HS) (Ho & xs & t & H1) (_ & ys & u & H2).
  assert (Hps : forall i, d_psize (dec E1 i) = d_psize (dec E2 i)).
  { intros i. unfold dec, ty. rewrite Ht.
    destruct (HS (e_tid E2 i)) as (_ & U & P & a & b & _ & K1 & K2).
    rewrite (psize_of _ _ _ _ _ _ _ K1), (psize_of _ _ _ _ _ _ _ K2). reflexivity. }
  pose (st := fun (i : loc) (v : rep) => Nat.eqb (length v) (d_psize (dec E1 i))).
  assert (A1 : srun (e_tid E1) (ops E1) st st p (sinit_state w) = (Some xs, t)).
  { eapply le_run; [| | |exact H1]; auto. intros i v H. apply andb_true_iff in H. apply H. }
  assert (A2 : srun (e_tid E1) (ops E1) st st p (sinit_state w) = (Some ys, u)).
  { unfold std_run in H2. rewrite <- Ht in H2. eapply le_run; [| | |exact H2].
    - intros i. symmetry. unfold ops, ty. rewrite Ht. apply (HS (e_tid E2 i)).
    - intros i v H. apply andb_true_iff in H as (H & _). unfold st. rewrite Hps. exact H.
    - intros i v H. unfold st. rewrite Hps. exact H. }
  rewrite A1 in A2. injection A2 as <- <-. eapply same_run; eauto.
Qed.

(** One macro alone, TINY_OPTIONAL_USE_SEPARATE_BOOL_INSTEAD_OF_UNUSED_BITS, does not
    have this property: [optional<S, &S::d>] with a double member [d] does not compile
    any more, and neither does [optional_aip<double>]. *)
Theorem C37_unused_bits_alone_refuted :
  let cf := MkConfig false true in
  exists U,
    universe_ok U /\
    (exists P a d m, optional_type U default_config P a ADefault = Chosen d m /\
                     optional_type U cf P a ADefault = Rejected MissingSentinel) /\
    (exists P d m, optional_aip_default U default_config P = Chosen d m /\
                   optional_aip_default U cf P = Rejected NoDefaultSentinel).
Proof.
  exists sample_universe. split; [apply sample_universe_ok|]. split.
  - exists (plain (UClass 0)), (AVal member_d). eexists _, _. split; reflexivity.
  - exists (plain UDouble). eexists _, _. split; reflexivity.
Qed.

(** ** Example: the environment of Scalars.v without the tricks *)

Definition ty_of' (P : cvty) (a b : targ) : optty sworld_t :=
  match optional_type sample_universe no_ub_tricks P a b with
  | Chosen d m => MkOptTy _ d m t_ops
  | Rejected _ => ty_dbl
  end.
Definition scalar_env' (dbg : bool) : env sworld_t :=
  MkEnv _ (fun i => ty_of' (fst (scalar_args i)) (snd (scalar_args i)) ADefault) (fun i => i) dbg.
Definition scalar_history : list (op sworld_t) :=
  [ODefault 0; OEmplace 0 (mkBits 8 0x7ff8000000000000); ODefault 3; OAssign 3 (setBits 8 0);
   OHasValue 3; OAccess AccValue 0 true look; ONullopt 2; OHasValue 2; OInPlace 1 (mkBits 4 7);
   OReset 0; ODtor 0; ODtor 1; ODtor 2; ODtor 3].

Example C37_example dbg dbg' :
  same_program default_config no_ub_tricks (scalar_env dbg) (scalar_env' dbg') /\
  contract (scalar_env dbg) quiet scalar_history /\
  d_ssize (dec (scalar_env dbg) 0) = 8 /\ d_ssize (dec (scalar_env' dbg') 0) = 16.
Proof.
  split; [split; [reflexivity|]|split; [|split; reflexivity]].
  - intros i. pose proof (scalar_instantiates dbg i) as H. split.
    + unfold scalar_env, scalar_env', scalar_tys, ty_of, ty_of'. cbn [e_tys].
      repeat destruct (optional_type _ _ _ _ _); reflexivity.
    + exists sample_universe, (fst (scalar_args i)), (snd (scalar_args i)), ADefault.
      split; [apply sample_universe_ok|]. split; [exact H|].
      destruct (C37_still_compiles _ _ _ _ _ _ H) as (d & m & K & _).
      unfold scalar_env', ty_of'. cbn [e_tys]. rewrite K. reflexivity.
  - eapply contract_intro; [|run_it].
    repeat apply Forall_cons; try apply Forall_nil; cbn; auto using mkBits_ok.
Qed.
