(** * Sentinels: which values can be stored, and what happens to the others

    C04-C07 (double, float, bool, pointers), C08 (user supplied sentinels), C09 and
    C10 (storing the sentinel with and without assertions), C39 (default
    construction). *)

From Coq Require Import List NArith ZArith Bool Arith Lia.
From Coq Require Import Floats.SpecFloat.
From Verif Require Import Cells CellsFacts Machine Optional Program Spec Laws Refine.
From Verif Require Import Bits Manip IntRange Select Selection Contract Sample Histories ExampleTac.
Import ListNotations.

Local Arguments put : simpl never.
Local Arguments sub : simpl never.
Local Arguments word : simpl never.

(** ** Vocabulary *)

(** [o] is a call that stores the value [v] in the optional [i] after the history [p]:
    construction of a new one, emplace, or assignment, whether the optional is empty
    or not. *)
Inductive stores {W} (E : env W) (w : W) (p : list (op W)) (i : loc) (v : rep) : op W -> Prop :=
| st_construct n : delivers n v -> fresh_after E w p i -> stores E w p i v (OInPlace i n)
| st_emplace n x : delivers n v -> opt_after E w p i x -> stores E w p i v (OEmplace i n)
| st_assign a x : assigns a v -> opt_after E w p i x -> stores E w p i v (OAssign i a).

(** Whatever happened before, storing [v] gives an engaged optional containing [v]. *)
Definition engages {W} (E : env W) (i : loc) (v : rep) : Prop :=
  forall w p s o,
    contract E w p -> reaches E w p s -> op_ok o -> stores E w p i v o ->
    exists s', step E o s = (Ok ObUnit, s') /\
               has_value E i s' = (Ok true, s') /\
               forall k, (acc E k i ;; load_payload E i) s' = (Ok v, s').

(** Whatever happened before, storing [v] is stopped by an assertion, or, without
    assertions, gives an empty optional. *)
Definition swallows {W} (E : env W) (i : loc) (v : rep) : Prop :=
  forall w p s o,
    contract E w p -> reaches E w p s -> op_ok o -> stores E w p i v o ->
    if e_dbg E
    then fst (step E o s) = Dead AssertFailed
    else exists s', step E o s = (Ok ObUnit, s') /\ has_value E i s' = (Ok false, s').

Theorem storable_engages W (E : env W) i v : env_ok E -> storable E i v = true -> engages E i v.
Proof.
  intros HE Hs w p s o C R Hok St. apply (C03_read_back W E w p s i o v HE C R Hs Hok).
  destruct St as [n Hn Hf|n x Hn Hx|a x Ha Hx]; [left|right; left|right; right]; eauto.
Qed.

(** ** Storing a value that reads as "empty" *)

(** [v] has the payload's size, lives in an optional with an in-place flag, and the
    flag inside of it says "empty". *)
Definition looks_empty {W} (E : env W) (i : loc) (v : rep) : Prop :=
  length v = d_psize (dec E i) /\ d_sep (dec E i) = false /\
  m_is_empty (man E i) (flag_cells (dec E i) v) = Some true.

Section Swallow.
  Context {W : Type}.
  Variable E : env W.
  Hypothesis HE : env_ok E.
  Variable i : loc.
  Variable v : rep.
  Hypothesis HV : looks_empty E i v.

  (** State of the machine after the payload [v] was put in place. *)
  Definition after (s : state W) (w' : W) (l : list event) : state W :=
    MkState (upd (mem s) i (Some (MkRegion v false true))) w' l.

  Lemma has_value_after m w' l :
    m i = Some (MkRegion v false true) ->
    has_value E i (MkState m w' l) = (Ok false, MkState m w' l).
  Proof.
    intros Hm. destruct HV as (_ & Hsep & He).
    unfold has_value, fm_is_empty, bind, get_region. cbn. rewrite Hm. cbn. rewrite Hsep. cbn.
    unfold flag_cells in He. rewrite He. reflexivity.
  Qed.

  Lemma upd_upd {A} (f : loc -> option A) j x y : forall k, upd (upd f j x) j y k = upd f j y k.
  Proof. intros k. unfold upd. destruct (Nat.eqb j k); reflexivity. Qed.

  (** ConstructPayload on an empty optional, with an initializer that delivers [v]. *)
  Lemma construct_swallow n s c :
    delivers n v ->
    mem s i = Some (MkRegion c true false) -> length c = d_ssize (dec E i) ->
    m_is_empty (man E i) (flag_cells (dec E i) c) = Some true ->
    exists m w' l, m i = Some (MkRegion v false true) /\
      (l = EvPayBegin i :: EvFlagEnd i :: trace s) /\
      construct_payload E i n s =
        (if e_dbg E then Dead AssertFailed else Ok tt, MkState m w' l).
  Proof.
    intros (Hsrc & Hmore & Hn) Hm Hc He. destruct HV as (Hl & Hsep & Hve).
    assert (Hdec : d_ssize (dec E i) = d_psize (dec E i)) by (apply do_size; [apply HE|exact Hsep]).
    specialize (Hn [] (world s)).
    destruct (i_fun n [] (world s)) as [[r x] w1] eqn:Hf. cbn in Hn. subst r.
    set (c1 := put (d_foff (dec E i))
                 (m_inval (man E i) (sub (d_foff (dec E i)) (d_fsize (dec E i)) c)) c).
    assert (Hnv : has_value E i s = (Ok false, s)).
    { unfold has_value, fm_is_empty, bind, get_region. rewrite Hm. cbn.
      unfold flag_cells in He. rewrite He. reflexivity. }
    assert (Hlen1 : length c1 = d_ssize (dec E i)).
    { pose proof (ok_d E HE i) as D. pose proof (ok_m E HE i) as F. pose proof (do_flag _ D) as Df.
      assert (Lc : length (sub (d_foff (dec E i)) (d_fsize (dec E i)) c) = d_fsize (dec E i))
        by (apply length_sub; lia).
      pose proof (mo_inval_len _ _ F _ Lc) as Li.
      unfold c1. rewrite length_put; [exact Hc|lia]. }
    assert (Hput : put 0 v c1 = v).
    { apply put_full. rewrite Hlen1. congruence. }
    eexists (upd (upd (mem s) i (Some (MkRegion c1 false false))) i (Some (MkRegion v false true))),
            w1, _.
    split; [apply upd_same|]. split; [reflexivity|].
    unfold construct_payload, noexcept_if.
    assert (A1 : assert_ E (not_ (has_value E i)) s = (Ok tt, s)).
    { unfold assert_. destruct (e_dbg E); [|reflexivity].
      unfold not_, bind. rewrite Hnv. reflexivity. }
    assert (A2 : fm_invalidate E i s =
              (Ok tt, MkState (upd (mem s) i (Some (MkRegion c1 false false))) (world s)
                              (EvFlagEnd i :: trace s))).
    { unfold fm_invalidate, bind, get_region. rewrite Hm. cbn [flag_obj cells pay_obj].
      unfold flag_cells in He. rewrite He, Hsep. reflexivity. }
    set (s1 := MkState (upd (mem s) i (Some (MkRegion c1 false false))) (world s)
                              (EvFlagEnd i :: trace s)) in *.
    assert (A3 : placement_new E i n s1 =
              (Ok tt, MkState (upd (mem s1) i (Some (MkRegion v false true))) w1
                              (EvPayBegin i :: trace s1))).
    { assert (Hi : run_ini E n s1 = (Ok v, MkState (mem s1) w1 (trace s1))).
      { unfold run_ini, bind, call, ret, lift_res. rewrite Hsrc, Hmore. cbn. rewrite Hf. reflexivity. }
      unfold placement_new. rewrite (bind_ok _ _ _ _ _ Hi). unfold bind at 1, get_region. cbn [mem].
      unfold s1 at 1. cbn [mem]. rewrite upd_same. cbn [pay_obj flag_obj orb andb].
      rewrite (proj2 (Nat.eqb_eq _ _) Hl). unfold bind, set_region, log. cbn. rewrite Hput. reflexivity. }
    assert (A4 : (if i_nothrow n then placement_new E i n else on_throw (placement_new E i n) (fm_init E i)) s1
                 = (Ok tt, MkState (upd (mem s1) i (Some (MkRegion v false true))) w1
                              (EvPayBegin i :: trace s1))).
    { destruct (i_nothrow n); [exact A3|]. unfold on_throw. rewrite A3. reflexivity. }
    unfold bind. rewrite A1, A2, A4. unfold assert_. destruct (e_dbg E); [|reflexivity].
    unfold bind. rewrite has_value_after by apply upd_same. reflexivity.
  Qed.

  (** The outcome of every storing call. *)
  Lemma store_swallow w p s o :
    contract E w p -> reaches E w p s -> op_ok o -> stores E w p i v o ->
    exists m w' l, m i = Some (MkRegion v false true) /\
      step E o s = (if e_dbg E then Dead AssertFailed else Ok ObUnit, MkState m w' l).
  Proof.
    intros C R Hok St. destruct (reaches_rel E HE _ _ _ C R) as (xs & t & Ht & Rl).
    assert (K : forall n s1 t1, delivers n v -> rel E NoHole s1 t1 ->
              objs t1 i = Some (SOpt None) ->
              exists m w' l, m i = Some (MkRegion v false true) /\
                construct_payload E i n s1 =
                  (if e_dbg E then Dead AssertFailed else Ok tt, MkState m w' l)).
    { intros n s1 t1 Hn R1 Hi. pose proof (rel_robj E _ _ _ i R1 I) as Hr. rewrite Hi in Hr.
      destruct Hr as (c & Hm & Hl & He).
      destruct (construct_swallow n s1 c Hn Hm Hl He) as (m & w' & l & H1 & _ & H2). eauto. }
    assert (A : forall m w' l, m i = Some (MkRegion v false true) -> e_dbg E = false ->
              assert_ E (has_value E i) (MkState m w' l) = (Ok tt, MkState m w' l)).
    { intros m w' l _ Hd. unfold assert_. rewrite Hd. reflexivity. }
    destruct St as [n Hn Hf|n x Hn Hx|a x (Hn & Ha) Hx].
    - pose proof (fresh_after_at E _ _ _ _ _ Hf Ht) as Hi.
      destruct (alloc_ok E _ _ _ Rl Hi) as (s1 & H1 & R1).
      destruct (init_ok E HE _ _ _ R1) as (s2 & H2 & R2).
      destruct (hole_inv E _ _ _ _ R2) as ((c & Hm & Hl & He) & _).
      destruct (construct_swallow n s2 c Hn Hm Hl He) as (m & w' & l & Hmi & _ & HC).
      exists m, w', l. split; [exact Hmi|]. cbn [step]. unfold unit_, ctor_in_place.
      unfold bind. rewrite H1. unfold on_throw. rewrite H2, HC. destruct (e_dbg E); reflexivity.
    - pose proof (opt_after_at E _ _ _ _ _ _ Hx Ht) as Hi.
      pose proof (refines_reset E HE i s t Rl) as HR. unfold agrees in HR.
      assert (exists t1, s_clear (ops E) (storable E) i t = (SOk tt, t1) /\
                         objs t1 i = Some (SOpt None)) as (t1 & Hc & Hi1).
      { unfold s_clear, sbind, contents. rewrite Hi. destruct x as [v0|].
        - unfold sdestroy, suser, become, is_some. cbn. eexists. split; [reflexivity|]. cbn.
          apply upd_same.
        - cbn. eexists. split; [reflexivity|exact Hi]. }
      rewrite Hc in HR. destruct HR as (s1 & H1 & R1).
      destruct (K n s1 t1 Hn R1 Hi1) as (m & w' & l & Hmi & HC).
      exists m, w', l. split; [exact Hmi|]. cbn [step]. unfold unit_, emplace, bind. rewrite H1, HC.
      destruct (e_dbg E) eqn:Hd; [reflexivity|]. rewrite (A _ _ _ Hmi eq_refl). reflexivity.
    - pose proof (opt_after_at E _ _ _ _ _ _ Hx Ht) as Hi. cbn [step]. unfold unit_, assign, assign_value.
      destruct x as [v0|].
      + pose proof (has_value_true E s t i v0 Rl Hi) as Hh.
        pose proof (rel_robj E _ _ _ i Rl I) as Hr. rewrite Hi in Hr.
        destruct Hr as (c & Hm & Hl & Hv0 & _). destruct HV as (Hlv & Hsep & Hve).
        assert (Hdec : d_ssize (dec E i) = d_psize (dec E i)) by (apply do_size; [apply HE|exact Hsep]).
        destruct (Ha v0 [] (world s)) as (H1 & H2).
        destruct (a_assign a v0 [] (world s)) as [[r [d' x']] w1] eqn:Hf. cbn in H1, H2. subst r d'.
        exists (upd (mem s) i (Some (MkRegion v false true))), w1, (trace s).
        split; [apply upd_same|]. unfold bind at 1 2. rewrite Hh.
        unfold assign_payload. rewrite (proj1 Hn). unfold bind, load_payload, bind, get_region, call.
        rewrite Hm. cbn. rewrite Hv0, Hf. cbn. unfold store_payload, bind, get_region. cbn.
        rewrite Hm. cbn. rewrite (proj2 (Nat.eqb_eq _ _) Hlv). cbn.
        rewrite put_full by (rewrite Hl; congruence). rewrite Hsep.
        destruct (e_dbg E) eqn:Hd.
        * unfold assert_. rewrite Hd. unfold bind. rewrite has_value_after by apply upd_same. reflexivity.
        * unfold assert_. rewrite Hd. reflexivity.
      + pose proof (has_value_false E s t i Rl Hi) as Hh.
        destruct (K (a_ini a) s t Hn Rl Hi) as (m & w' & l & Hmi & HC).
        exists m, w', l. split; [exact Hmi|]. unfold bind. rewrite Hh, HC.
        destruct (e_dbg E) eqn:Hd; [reflexivity|]. rewrite (A _ _ _ Hmi eq_refl). reflexivity.
  Qed.
End Swallow.

Theorem looks_empty_swallows W (E : env W) i v : env_ok E -> looks_empty E i v -> swallows E i v.
Proof.
  intros HE HV w p s o C R Hok St.
  destruct (store_swallow E HE i v HV w p s o C R Hok St) as (m & w' & l & Hm & H). rewrite H.
  destruct (e_dbg E); [reflexivity|]. eexists. split; [reflexivity|].
  eapply has_value_after; eassumption.
Qed.

(** ** C09: with assertions, every attempt to store the sentinel is stopped *)

Theorem C09_debug_detects_sentinel :
  forall W (E : env W) w p s i v o,
    env_ok E -> e_dbg E = true -> contract E w p -> reaches E w p s -> op_ok o ->
    looks_empty E i v -> stores E w p i v o ->
    fst (step E o s) = Dead AssertFailed.
Proof.
  intros W E w p s i v o HE Hd C R Hok HV St.
  pose proof (looks_empty_swallows W E i v HE HV w p s o C R Hok St) as H. rewrite Hd in H. exact H.
Qed.

Definition setBits (n : nat) (x : N) : arg sworld_t :=
  MkArg (mkBits n x) (fun _ _ w => ((ROk tt, (word n x, [])), w)) (fun v w => ((ROk tt, v), w)).

Example C09_example dbg :
  looks_empty (sample dbg) 20 (word 8 sent_double) /\
  stores (sample dbg) quiet [ODefault 20; OEmplace 20 (mkBits 8 5)] 20 (word 8 sent_double)
         (OAssign 20 (setBits 8 sent_double)) /\
  looks_empty (sample dbg) 10 [Atom 0; Atom 7] /\
  contract (sample dbg) quiet [ODefault 20; OEmplace 20 (mkBits 8 5)].
Proof.
  split; [repeat split; destruct dbg; vm_compute; reflexivity|]. split.
  - eapply st_assign.
    + split; [split; [reflexivity|split; [reflexivity|intros; reflexivity]]|]. intros. split; reflexivity.
    + apply opt_after_intro. destruct dbg; vm_compute; reflexivity.
  - split; [repeat split|].
    eapply contract_intro; [op_oks|]. destruct dbg; vm_compute; reflexivity.
Qed.

(** ** C10: without assertions, the payload is lost *)

(** Storing the sentinel succeeds, has_value() is false; reset() and assigning
    nullopt then do nothing at all; the destructor runs no payload destructor, but
    releases the storage under the live payload. *)
Theorem C10_release_sentinel_leaks :
  forall W (E : env W) w p s i v o,
    env_ok E -> e_dbg E = false -> contract E w p -> reaches E w p s -> op_ok o ->
    looks_empty E i v -> stores E w p i v o ->
    exists s',
      step E o s = (Ok ObUnit, s') /\
      has_value E i s' = (Ok false, s') /\
      step E (OReset i) s' = (Ok ObUnit, s') /\
      step E (OAssignNull i) s' = (Ok ObUnit, s') /\
      exists s'', step E (ODtor i) s' = (Ok ObUnit, s'') /\
                  world s'' = world s' /\
                  trace s'' = EvPayAbandoned i :: trace s'.
Proof.
  intros W E w p s i v o HE Hd C R Hok HV St.
  destruct (store_swallow E HE i v HV w p s o C R Hok St) as (m & w' & l & Hm & H).
  rewrite Hd in H. exists (MkState m w' l). split; [exact H|].
  pose proof (has_value_after E i v HV m w' l Hm) as Hh. split; [exact Hh|].
  assert (Hr : reset E i (MkState m w' l) = (Ok tt, MkState m w' l)).
  { unfold reset, noexcept_if, bind. rewrite Hh. reflexivity. }
  split; [cbn [step]; unfold unit_, bind; rewrite Hr; reflexivity|].
  split; [cbn [step]; unfold unit_, assign_nullopt, noexcept_if, bind; rewrite Hr; reflexivity|].
  cbn [step]. unfold unit_, dtor, storage_dtor, noexcept_if, bind. rewrite Hh. cbn.
  unfold dealloc, bind, get_region. cbn. rewrite Hm. cbn. eexists. split; [reflexivity|].
  split; reflexivity.
Qed.

Example C10_example :
  exists s s' s'',
    reaches (sample false) quiet [ODefault 10; OEmplace 10 (mkP 3 4)] s /\
    step (sample false) (OAssign 10 (argP 0 7)) s = (Ok ObUnit, s') /\
    step (sample false) (ODtor 10) s' = (Ok ObUnit, s'') /\
    In (EvPayAbandoned 10) (trace s'').
Proof.
  eexists _, _, _. split; [eapply reaches_intro; vm_compute; reflexivity|].
  split; [vm_compute; reflexivity|]. split; [vm_compute; reflexivity|]. cbn. auto.
Qed.

(** ** C08: with a user supplied sentinel exactly the values equal to it are swallowed *)

(** Optional [i] is an [optional<P, a, b>]. *)
Definition instantiates {W} (U : universe) (cf : config) (E : env W) (i : loc)
  (P : cvty) (a b : targ) : Prop :=
  optional_type U cf P a b = Chosen (dec E i) (man E i).

Lemma sub_word n x : sub 0 n (word n x) = word n x.
Proof. rewrite <- (length_word n x) at 1. apply sub_full. Qed.
Lemma flag_inplace n x : flag_cells (dec_inplace n) (word n x) = word n x.
Proof. apply sub_word. Qed.

(** For a scalar stored in place, by what the manipulator says of its bytes. *)
Lemma scalar_engages W (E : env W) i n x :
  env_ok E -> dec E i = dec_inplace n -> m_is_empty (man E i) (word n x) = Some false ->
  engages E i (word n x).
Proof.
  intros HE Hd Hm. apply storable_engages; [exact HE|]. unfold storable, storable_in.
  rewrite Hd, flag_inplace, Hm. cbn. rewrite length_word, Nat.eqb_refl. reflexivity.
Qed.
Lemma scalar_swallows W (E : env W) i n x :
  env_ok E -> dec E i = dec_inplace n -> m_is_empty (man E i) (word n x) = Some true ->
  swallows E i (word n x).
Proof.
  intros HE Hd Hm. apply looks_empty_swallows; [exact HE|]. unfold looks_empty.
  rewrite Hd, flag_inplace. cbn. rewrite length_word. auto.
Qed.

(** Integers: any width, any signedness, any sentinel constant of any integral type
    that is accepted. *)
Theorem C08_integer_sentinel :
  forall W (E : env W) U cf c v k l z b i x,
    env_ok E -> universe_ok U -> const_ok U (VInt l z) ->
    instantiates U cf E i (MkTy c v (UInt k)) (AVal (VInt l z)) b ->
    in_range (u_int U k) x ->
    (x <> z -> engages E i (int_rep (u_int U k) x)) /\
    (x = z -> swallows E i (int_rep (u_int U k) x)).
Proof.
  intros W E U cf c v k l z b i x HE HU Hc H Hx.
  apply C32_selection_as_documented in H as (_ & H). inversion H as [| |? ? f Hv Hs Ha Hb Hd Hf| | |].
  subst. unfold sentinel_for, assignment_manip in Hs. cbn in Hs.
  destruct (is_integral_in_range (u_int U k) (u_int U l) z) eqn:R; [|discriminate].
  injection Hs as Hs. pose proof (uo_int U HU k) as Hk. pose proof (uo_int U HU l) as Hl.
  apply (is_integral_in_range_spec _ _ _ Hk Hl Hc) in R. rewrite conv_id in Hs by assumption.
  assert (M : m_is_empty (man E i) (int_rep (u_int U k) x) = Some (Z.eqb x z)).
  { rewrite <- Hs. cbn. unfold int_eqv, int_rep. rewrite unword_word by apply pattern_lt.
    rewrite value_pattern by assumption. reflexivity. }
  split; intros Hxz.
  - apply Z.eqb_neq in Hxz. rewrite Hxz in M. eapply scalar_engages; eauto.
  - apply Z.eqb_eq in Hxz. rewrite Hxz in M. eapply scalar_swallows; eauto.
Qed.

(** Floating point numbers: [x] is swallowed iff [x == s]. *)
Theorem C08_double_sentinel :
  forall W (E : env W) U cf c v s b i x,
    env_ok E -> (s < modulus 8)%N -> (x < modulus 8)%N ->
    instantiates U cf E i (MkTy c v UDouble) (AVal (VDouble s)) b ->
    (f_eqb binary64 x s = false -> engages E i (word 8 x)) /\
    (f_eqb binary64 x s = true -> swallows E i (word 8 x)).
Proof.
  intros W E U cf c v s b i x HE Hs Hx H.
  apply C32_selection_as_documented in H as (_ & H). inversion H as [| |? ? f Hv Hsf Ha Hb Hd Hf| | |].
  subst. unfold sentinel_for, assignment_manip in Hsf. cbn in Hsf. injection Hsf as Hsf.
  assert (M : m_is_empty (man E i) (word 8 x) = Some (f_eqb binary64 x s)).
  { rewrite <- Hsf. cbn [man_float man_assign m_is_empty]. unfold float_eqv.
    rewrite unword_word by exact Hx. reflexivity. }
  split; intros Hxz; rewrite Hxz in M; [eapply scalar_engages|eapply scalar_swallows]; eauto.
Qed.
Theorem C08_float_sentinel :
  forall W (E : env W) U cf c v s b i x,
    env_ok E -> (s < modulus 4)%N -> (x < modulus 4)%N ->
    instantiates U cf E i (MkTy c v UFloat) (AVal (VFloat s)) b ->
    (f_eqb binary32 x s = false -> engages E i (word 4 x)) /\
    (f_eqb binary32 x s = true -> swallows E i (word 4 x)).
Proof.
  intros W E U cf c v s b i x HE Hs Hx H.
  apply C32_selection_as_documented in H as (_ & H). inversion H as [| |? ? f Hv Hsf Ha Hb Hd Hf| | |].
  subst. unfold sentinel_for, assignment_manip in Hsf. cbn in Hsf. injection Hsf as Hsf.
  assert (M : m_is_empty (man E i) (word 4 x) = Some (f_eqb binary32 x s)).
  { rewrite <- Hsf. cbn [man_float man_assign m_is_empty]. unfold float_eqv.
    rewrite unword_word by exact Hx. reflexivity. }
  split; intros Hxz; rewrite Hxz in M; [eapply scalar_engages|eapply scalar_swallows]; eauto.
Qed.

