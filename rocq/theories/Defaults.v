(** * Defaults: is a default constructed optional empty? (C39)

    The claim of the documentation holds for every accepted sentinel that equals
    itself; it is refuted for NaN and for sentinel_flag_manipulator with a constant
    that no payload value equals. *)

From Coq Require Import List NArith ZArith Bool Arith Lia.
From Coq Require Import Floats.SpecFloat.
From Verif Require Import Cells CellsFacts Machine Optional Program Spec Laws Refine.
From Verif Require Import Bits Manip IntRange Select Selection Contract Sample Histories ExampleTac.
From Verif Require Import Sentinels Scalars.
Import ListNotations.

Local Arguments put : simpl never.
Local Arguments sub : simpl never.
Local Arguments word : simpl never.

(** Optional [i] is about to be constructed; its storage has arbitrary contents. *)
Definition uninitialized {W} (E : env W) (i : loc) (s : state W) : Prop :=
  exists c, mem s i = Some (MkRegion c (d_sep (dec E i)) false) /\ length c = d_ssize (dec E i).

(** The default constructor gives an empty optional. *)
Definition default_empty {W} (E : env W) (i : loc) : Prop :=
  forall s, uninitialized E i s ->
    exists s', storage_default E i s = (Ok tt, s') /\ has_value E i s' = (Ok false, s').
(** It gives an optional that claims to contain a value; with assertions enabled the
    program is stopped. *)
Definition default_engaged {W} (E : env W) (i : loc) : Prop :=
  forall s, uninitialized E i s ->
    if e_dbg E
    then fst (storage_default E i s) = Dead AssertFailed
    else exists s', storage_default E i s = (Ok tt, s') /\ has_value E i s' = (Ok true, s').

Lemma default_outcome W (E : env W) i s c e :
  decomp_ok (dec E i) ->
  mem s i = Some (MkRegion c (d_sep (dec E i)) false) -> length c = d_ssize (dec E i) ->
  length (m_init (man E i) (sub (d_foff (dec E i)) (d_fsize (dec E i)) c)) = d_fsize (dec E i) ->
  m_is_empty (man E i) (m_init (man E i) (sub (d_foff (dec E i)) (d_fsize (dec E i)) c)) = Some e ->
  exists s', storage_default E i s = (if e_dbg E && negb e then Dead AssertFailed else Ok tt, s') /\
             has_value E i s' = (Ok (negb e), s').
Proof.
  intros D Hm Hl Li He. pose proof (do_flag _ D) as Hf.
  assert (Hinit : exists s', fm_init E i s = (Ok tt, s') /\ has_value E i s' = (Ok (negb e), s')).
  { unfold fm_init, bind, get_region. rewrite Hm. cbn [flag_obj pay_obj cells].
    destruct (d_sep (dec E i)) eqn:Sep; cbn [negb andb orb]; unfold set_region, log, ret;
      (eexists; split; [reflexivity|]);
      unfold has_value, fm_is_empty, bind, get_region; cbn [mem]; unfold upd;
      rewrite Nat.eqb_refl; cbn [flag_obj pay_obj cells orb];
      (rewrite sub_put_same' by (auto; lia)); rewrite He; reflexivity. }
  destruct Hinit as (s' & H1 & H2). exists s'. split; [|exact H2].
  unfold storage_default, noexcept_if, bind. rewrite H1. unfold assert_, not_.
  destruct (e_dbg E); [|reflexivity]. unfold bind. rewrite H2. cbn. destruct e; reflexivity.
Qed.

(** The two outcomes exclude each other. *)
Lemma default_not_both W (E : env W) i :
  (exists s, uninitialized E i s) -> default_empty E i -> default_engaged E i -> False.
Proof.
  intros (s & Hs) H1 H2. destruct (H1 s Hs) as (s1 & A & B). specialize (H2 s Hs).
  rewrite A in H2. destruct (e_dbg E); [discriminate|].
  destruct H2 as (s2 & C & D). injection C as <-. congruence.
Qed.
Lemma some_uninitialized W (E : env W) i (w : W) :
  exists s, uninitialized E i s.
Proof.
  exists (MkState (fun _ => Some (MkRegion (indets (d_ssize (dec E i))) (d_sep (dec E i)) false)) w []).
  eexists. split; [reflexivity|]. apply length_indets.
Qed.

(** Every accepted combination of template arguments, unless a floating point sentinel
    is NaN. *)
Theorem C39_default_empty :
  forall W (E : env W) U cf P a b i,
    universe_ok U -> targ_ok U a -> targ_ok U b -> no_nan U (used_sentinel a b) ->
    instantiates U cf E i P a b -> default_empty E i.
Proof.
  intros W E U cf P a b i HU Ha Hb Hn H s (c & Hm & Hl).
  destruct (selected_lawful _ _ _ _ _ _ _ HU Ha Hb Hn H) as (D & F).
  assert (Lc : length (sub (d_foff (dec E i)) (d_fsize (dec E i)) c) = d_fsize (dec E i)).
  { apply length_sub. pose proof (do_flag _ D). lia. }
  destruct (default_outcome W E i s c true D Hm Hl (mo_init_len _ _ F _ Lc) (mo_init _ _ F _ Lc))
    as (s' & A & B).
  rewrite andb_false_r in A. eauto.
Qed.

(** A double or float sentinel, directly or of a member: the optional is empty after
    default construction iff the sentinel is not NaN; with NaN it never is. *)
Theorem C39_floating_sentinel :
  forall W (E : env W) U cf P a b i x f,
    universe_ok U -> targ_ok U a -> targ_ok U b ->
    (used_sentinel a b = AVal (VDouble x) /\ f = binary64 \/
     used_sentinel a b = AVal (VFloat x) /\ f = binary32) ->
    (is_member_object_pointer a = true -> cf_mem cf = true) ->
    instantiates U cf E i P a b ->
    (is_nan f x = false -> default_empty E i) /\ (is_nan f x = true -> default_engaged E i).
Proof.
  intros W E U cf P a b i x f HU Ha Hb Hx Hc H. split; intros Hn.
  - apply (C39_default_empty W E U cf P a b i HU Ha Hb); [|exact H]. destruct Hx as [(-> & ->)|(-> & ->)]; cbn; rewrite Hn; reflexivity.
  - intros s (c & Hm & Hl).
    assert (decomp_ok (dec E i) /\ d_sep (dec E i) = false /\ d_fsize (dec E i) = fm_bytes f /\
            man E i = man_float f x) as (D & Sep & Fs & M).
    { apply C32_selection_as_documented in H as (_ & H).
      inversion H as [? ? A1|? ? ? A1|v ? g A1 A2|c0 t off g A1 A2 A3|c0 t off v g A1 A2 A3
                     |c0 t off ? A1 A2]; subst a;
        unfold used_sentinel in Hx; try rewrite A1 in Hx; cbn in Hx;
        try (destruct Hx as [(Hx & _)|(Hx & _)]; discriminate Hx).
      - unfold sentinel_for, assignment_manip in A2.
        destruct Hx as [(Hx & ->)|(Hx & ->)]; injection Hx as ->; cbn in A2.
        + destruct (base P) eqn:B; cbn in A2; try discriminate A2. injection A2 as <-.
          repeat split; try reflexivity; cbn; lia.
        + destruct (base P) eqn:B; cbn in A2; try discriminate A2. injection A2 as <-.
          repeat split; try reflexivity; cbn; lia.
      - subst b. destruct Hx as [(Hx & _)|(Hx & _)]; discriminate Hx.
      - subst b. unfold sentinel_for, assignment_manip in A3.
        assert (decomp_ok (dec_member (size_of U (base P)) off (size_of U (base t)))) as D0.
        { apply dec_member_ok. subst P. exact Ha. }
        destruct Hx as [(Hx & ->)|(Hx & ->)]; injection Hx as ->; cbn in A3;
          (destruct (base t) eqn:B; cbn in A3; try discriminate A3; injection A3 as <-;
           split; [exact D0|repeat split]).
      - cbn in Hc. specialize (Hc eq_refl). congruence. }
    assert (X : (x < modulus (fm_bytes f))%N).
    { destruct Hx as [(Hx & ->)|(Hx & ->)]; unfold used_sentinel in Hx;
        destruct (is_member_object_pointer a); subst; assumption. }
    destruct (default_outcome W E i s c false D Hm Hl) as (s' & A & B).
    + rewrite M, Fs. apply length_word.
    + rewrite M. cbn [man_float man_assign m_is_empty m_init]. unfold float_eqv.
      rewrite unword_word by exact X. f_equal. unfold f_eqb, SFeqb.
      assert (f_value f x = S754_nan) as ->.
      { apply is_nan_value; [|exact Hn]. destruct Hx as [(_ & ->)|(_ & ->)];
          [apply binary64_ok|apply binary32_ok]. }
      reflexivity.
    + cbn [negb] in A, B. rewrite andb_true_r in A. rewrite A. destruct (e_dbg E); [reflexivity|eauto].
Qed.

(** The documented claim is wrong for NaN: [optional<double, NaN>] compiles (C++20) but
    is never empty. *)
Theorem C39_nan_sentinel_refuted :
  exists U cf P a b,
    universe_ok U /\ targ_ok U a /\ targ_ok U b /\ used_sentinel a b = a /\
    (exists d m, optional_type U cf P a b = Chosen d m) /\
    forall W (E : env W) i, instantiates U cf E i P a b ->
      default_engaged E i /\ (forall w : W, ~ default_empty E i).
Proof.
  exists sample_universe, default_config, (plain UDouble), (AVal (VDouble 0x7ff8000000000000)), ADefault.
  split; [apply sample_universe_ok|]. split; [reflexivity|]. split; [exact I|]. split; [reflexivity|].
  split; [eexists _, _; reflexivity|]. intros W E i H.
  destruct (C39_floating_sentinel W E sample_universe default_config (plain UDouble)
              (AVal (VDouble 0x7ff8000000000000)) ADefault i 0x7ff8000000000000 binary64)
    as (_ & K); auto; try reflexivity; try apply sample_universe_ok; try discriminate.
  specialize (K eq_refl). split; [exact K|]. intros w C.
  exact (default_not_both W E i (some_uninitialized W E i w) C K).
Qed.

(** ** sentinel_flag_manipulator<P, s> *)

Lemma conv_mod t u z :
  (0 < it_bytes t) -> (it_bytes t <= it_bytes u) -> conv t (conv u z) = conv t z.
Proof.
  intros Ht Hu. unfold conv. f_equal. unfold pattern at 1 3. f_equal.
  set (m := Z.of_N (modulus (it_bytes t))). set (n := Z.of_N (modulus (it_bytes u))).
  assert (Hm : (0 < m)%Z) by (unfold m; pose proof (modulus_pos (it_bytes t)); lia).
  assert (Hn : (0 < n)%Z) by (unfold n; pose proof (modulus_pos (it_bytes u)); lia).
  assert (Hd : exists q, n = (m * q)%Z).
  { exists (Z.of_N (modulus (it_bytes u - it_bytes t))). unfold m, n, modulus.
    rewrite <- N2Z.inj_mul, <- N.pow_add_r. f_equal. f_equal. lia. }
  destruct Hd as (q & Hq).
  assert (V : exists k, value_of u (pattern u z) = (z + k * n)%Z).
  { unfold value_of, pattern. fold n. rewrite Z2N.id by (apply Z.mod_pos_bound; lia).
    pose proof (Z.div_mod z n ltac:(lia)) as Dm.
    destruct (it_signed u && _); [exists (- (z / n) - 1)%Z|exists (- (z / n))%Z]; lia. }
  destruct V as (k & ->). rewrite Hq. replace (z + k * (m * q))%Z with (z + (k * q) * m)%Z by ring.
  apply Z.mod_add. lia.
Qed.
Lemma promote_bytes t : it_bytes t <= it_bytes (promote t).
Proof. unfold promote. destruct (Nat.ltb_spec (it_bytes t) 4); cbn; lia. Qed.
Lemma common_bytes a b : it_bytes a <= it_bytes (common a b).
Proof.
  unfold common. destruct (Bool.eqb (it_signed a) (it_signed b)) eqn:E1.
  - destruct (Nat.leb_spec (it_bytes b) (it_bytes a)); lia.
  - destruct (it_signed a).
    + destruct (Nat.leb_spec (it_bytes a) (it_bytes b)); lia.
    + destruct (Nat.leb_spec (it_bytes b) (it_bytes a)); lia.
Qed.

(** For integers: the optional is empty after default construction iff at least one
    payload value compares equal to the sentinel; otherwise it never is.  [t]: payload
    type; [ts], [z]: type and value of the constant. *)
Theorem C39_sentinel_flag_manipulator :
  forall W (E : env W) i t ts z,
    0 < it_bytes t ->
    dec E i = dec_inplace (it_bytes t) -> man E i = man_sentinel t ts z ->
    ((exists x, in_range t x /\ cpp_eq t ts x z = true) -> default_empty E i) /\
    ((forall x, in_range t x -> cpp_eq t ts x z = false) -> default_engaged E i).
Proof.
  intros W E i t ts z Ht Hd Hm.
  assert (D : decomp_ok (dec E i)) by (rewrite Hd; apply dec_inplace_ok).
  assert (K : forall s c, mem s i = Some (MkRegion c (d_sep (dec E i)) false) ->
            length c = d_ssize (dec E i) ->
            exists s', storage_default E i s =
                       (if e_dbg E && negb (cpp_eq t ts (conv t z) z) then Dead AssertFailed else Ok tt, s') /\
                       has_value E i s' = (Ok (negb (cpp_eq t ts (conv t z) z)), s')).
  { intros s c A B. apply (default_outcome W E i s c _ D A B).
    - rewrite Hm, Hd. apply length_word.
    - rewrite Hm. cbn [man_sentinel m_init m_is_empty]. unfold int_rep.
      rewrite unword_word by apply pattern_lt. unfold conv at 1.
      rewrite value_pattern; [reflexivity|exact Ht|]. apply conv_in_range, Ht. }
  split.
  - intros (x & Hx & Hq) s (c & A & B). destruct (K s c A B) as (s' & K1 & K2).
    assert (cpp_eq t ts (conv t z) z = true) as Hc.
    { unfold cpp_eq in *. apply Z.eqb_eq in Hq.
      set (u := common (promote t) (promote ts)) in *.
      assert (Hb : it_bytes t <= it_bytes u).
      { etransitivity; [apply promote_bytes|apply common_bytes]. }
      assert (conv t z = x) as ->; [|apply Z.eqb_eq, Hq].
      rewrite <- (conv_mod t u z Ht Hb), <- Hq, (conv_mod t u x Ht Hb).
      apply conv_id; assumption. }
    rewrite Hc in K1, K2. cbn in K1, K2. rewrite andb_false_r in K1. eauto.
  - intros Hq s (c & A & B). destruct (K s c A B) as (s' & K1 & K2).
    rewrite (Hq (conv t z) (conv_in_range t z Ht)) in K1, K2. cbn in K1, K2.
    rewrite andb_true_r in K1. rewrite K1. destruct (e_dbg E); [reflexivity|eauto].
Qed.

(** [sentinel_flag_manipulator<unsigned char, -1>]: it compiles, but the optional is
    never empty, since no unsigned char equals -1; but
    [sentinel_flag_manipulator<unsigned, -1>] works. *)
Theorem C39_sentinel_flag_manipulator_refuted :
  forall W (E : env W) i,
    let uchar := MkIty 1 false in
    dec E i = dec_inplace (it_bytes uchar) -> man E i = man_sentinel uchar int_type (-1) ->
    default_engaged E i.
Proof.
  intros W E i uchar Hd Hm.
  apply (C39_sentinel_flag_manipulator W E i uchar int_type (-1)); auto.
  intros x Hx. unfold cpp_eq. apply Z.eqb_neq. unfold in_range, it_min, it_max in Hx. cbn in Hx.
  change (common (promote uchar) (promote int_type)) with int_type.
  rewrite (conv_id int_type x); [|cbn; lia|unfold in_range, it_min, it_max; cbn; lia].
  change (conv int_type (-1)) with (-1)%Z. lia.
Qed.
Example C39_example W (E : env W) i :
  let uint := MkIty 4 false in
  dec E i = dec_inplace (it_bytes uint) -> man E i = man_sentinel uint int_type (-1) ->
  default_empty E i.
Proof.
  intros uint Hd Hm. apply (C39_sentinel_flag_manipulator W E i uint int_type (-1)); auto.
  - cbn. lia.
  - exists 4294967295%Z. split; [unfold in_range, it_min, it_max; cbn; lia|]. reflexivity.
Qed.
Example C39_example_uchar dbg :
  default_engaged
    (MkEnv sworld_t
       (fun _ => MkOptTy _ (dec_inplace 1) (man_sentinel (MkIty 1 false) int_type (-1)) t_ops)
       (fun i => i) dbg) 3.
Proof. apply C39_sentinel_flag_manipulator_refuted; reflexivity. Qed.
(** All optionals of [scalar_env] are instances of [C39_default_empty]. *)
Example C39_example_scalars dbg i : default_empty (scalar_env dbg) i.
Proof.
  eapply C39_default_empty with (5 := scalar_instantiates dbg i); [apply sample_universe_ok| |exact I|].
  - do 10 (destruct i as [|i]; [vm_compute; auto; split; discriminate|]). vm_compute. split; discriminate.
  - do 10 (destruct i as [|i]; [vm_compute; auto|]). vm_compute. auto.
Qed.
