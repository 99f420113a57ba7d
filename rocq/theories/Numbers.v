(** * Numbers: the bit patterns of the floating point formats

    Bits.v says which number a pattern denotes.  Here: the denoted numbers are those of
    the standard library's specification of the format (Floats.SpecFloat), all of them,
    and the classes (finite, infinite) of patterns are those of the numbers.  No code of
    the library is modelled in this file. *)

From Coq Require Import List NArith ZArith Bool Arith Lia.
From Coq Require Import Floats.SpecFloat.
From Verif Require Import Cells Bits.
Local Open Scope N_scope.

(** ** Every number has a pattern *)

(** The precision and the largest exponent of a format, in the terms of the standard
    library's specification of binary floating point numbers. *)
Definition f_prec (f : fmt) : Z := Z.of_N (fm_man f) + 1.
Definition f_emax (f : fmt) : Z := 2 ^ (Z.of_N (fm_exp f) - 1).

Lemma digits2_bounds p :
  (2 ^ (Z.pos (digits2_pos p) - 1) <= Z.pos p < 2 ^ Z.pos (digits2_pos p))%Z.
Proof.
  induction p as [p IH|p IH|]; cbn [digits2_pos]; [| |cbn; lia].
  all: rewrite Pos2Z.inj_succ;
    replace (Z.succ (Z.pos (digits2_pos p)) - 1)%Z with (Z.succ (Z.pos (digits2_pos p) - 1)) by lia;
    rewrite !Z.pow_succ_r by lia; lia.
Qed.
Lemma digits2_unique p d :
  (0 < d)%Z -> (2 ^ (d - 1) <= Z.pos p < 2 ^ d)%Z -> Z.pos (digits2_pos p) = d.
Proof.
  intros Hd H. pose proof (digits2_bounds p) as B.
  assert (A : forall a b, (0 < a)%Z -> (a < b)%Z -> (2 ^ a <= 2 ^ (b - 1))%Z)
    by (intros; apply Z.pow_le_mono_r; lia).
  destruct (Z.lt_trichotomy (Z.pos (digits2_pos p)) d) as [L|[E|L]]; [|exact E|].
  - pose proof (A _ _ (Pos2Z.is_pos _) L). lia.
  - pose proof (A _ _ Hd L). lia.
Qed.
Lemma digits2_le p d : (0 < d)%Z -> (Z.pos p < 2 ^ d)%Z -> (Z.pos (digits2_pos p) <= d)%Z.
Proof.
  intros Hd H. pose proof (digits2_bounds p) as B.
  destruct (Z.le_gt_cases (Z.pos (digits2_pos p)) d) as [L|L]; [exact L|].
  assert (2 ^ d <= 2 ^ (Z.pos (digits2_pos p) - 1))%Z by (apply Z.pow_le_mono_r; lia). lia.
Qed.

Lemma pow2_N n : Z.of_N (2 ^ n) = (2 ^ Z.of_N n)%Z.
Proof. apply N2Z.inj_pow. Qed.
Lemma emax_N f : 1 < fm_exp f -> f_emax f = Z.of_N (2 ^ (fm_exp f - 1)).
Proof. intros H. unfold f_emax. rewrite pow2_N. f_equal. lia. Qed.
Lemma exp_double f : 1 < fm_exp f -> 2 ^ fm_exp f = 2 * 2 ^ (fm_exp f - 1).
Proof. intros H. rewrite <- N.pow_succ_r'. f_equal. lia. Qed.
Lemma exp_lt f x : f_exp f x < 2 ^ fm_exp f.
Proof. apply N.mod_lt. apply N.pow_nonzero. lia. Qed.
Lemma exp_big f : 1 < fm_exp f -> 2 <= 2 ^ (fm_exp f - 1).
Proof.
  intros H. replace 2 with (2 ^ 1) at 1 by reflexivity. apply N.pow_le_mono_r; lia.
Qed.

(** What a pattern denotes is a number of the format. *)
Lemma f_value_valid f x :
  fmt_ok f -> valid_binary (f_prec f) (f_emax f) (f_value f x) = true.
Proof.
  intros (_ & Hm & He). unfold f_value.
  pose proof (man_lt f x) as ML. pose proof (exp_lt f x) as EL.
  pose proof (exp_double f He) as ED. pose proof (exp_big f He) as EB.
  pose proof (emax_N f He) as EN. unfold max_exp.
  assert (P1 : (0 < f_prec f)%Z) by (unfold f_prec; lia).
  destruct (N.eqb_spec (f_exp f x) (2 ^ fm_exp f - 1)) as [E|E].
  { destruct (f_man f x =? 0); reflexivity. }
  destruct (N.eqb_spec (f_exp f x) 0) as [E0|E0].
  - destruct (f_man f x) as [|p] eqn:Em; [reflexivity|]. cbn [valid_binary].
    assert (Hp : (Z.pos p < 2 ^ Z.of_N (fm_man f))%Z).
    { rewrite <- pow2_N. change (Z.pos p) with (Z.of_N (N.pos p)). lia. }
    apply digits2_le in Hp; [|lia].
    unfold bounded, canonical_mantissa, fexp, emin, f_prec in *. apply andb_true_intro. split.
    + apply Zeq_is_eq_bool. lia.
    + apply Z.leb_le. lia.
  - destruct (f_man f x + 2 ^ fm_man f) as [|p] eqn:Em; [reflexivity|]. cbn [valid_binary].
    assert (Hp : (2 ^ (f_prec f - 1) <= Z.pos p < 2 ^ f_prec f)%Z).
    { unfold f_prec. replace (Z.of_N (fm_man f) + 1 - 1)%Z with (Z.of_N (fm_man f)) by lia.
      replace (Z.of_N (fm_man f) + 1)%Z with (Z.succ (Z.of_N (fm_man f))) by lia.
      rewrite Z.pow_succ_r by lia. rewrite <- pow2_N.
      change (Z.pos p) with (Z.of_N (N.pos p)). lia. }
    apply digits2_unique in Hp; [|lia].
    unfold bounded, canonical_mantissa, fexp, emin. rewrite Hp. unfold f_prec in *.
    apply andb_true_intro. split.
    + apply Zeq_is_eq_bool. lia.
    + apply Z.leb_le. lia.
Qed.

(** The pattern of a sign, an exponent field and a mantissa field. *)
Definition f_pattern (f : fmt) (s : bool) (e m : N) : N :=
  ((if s then 1 else 0) * 2 ^ fm_exp f + e) * 2 ^ fm_man f + m.
Lemma f_pattern_parts f s e m :
  fmt_ok f -> e < 2 ^ fm_exp f -> m < 2 ^ fm_man f ->
  f_sign f (f_pattern f s e m) = s /\ f_exp f (f_pattern f s e m) = e /\
  f_man f (f_pattern f s e m) = m /\ f_pattern f s e m < modulus (fm_bytes f).
Proof.
  intros (Hf & _) He Hm. unfold f_sign, f_exp, f_man, f_pattern.
  assert (M0 : 2 ^ fm_man f <> 0) by (apply N.pow_nonzero; lia).
  assert (E0 : 2 ^ fm_exp f <> 0) by (apply N.pow_nonzero; lia).
  set (M := 2 ^ fm_man f) in *. set (X := 2 ^ fm_exp f) in *.
  assert (D : forall a, (a * M + m) / M = a).
  { intros a. rewrite N.div_add_l, N.div_small by assumption. lia. }
  assert (D2 : forall a, (a * X + e) / X = a).
  { intros a. rewrite N.div_add_l, N.div_small by assumption. lia. }
  repeat split.
  - rewrite N.pow_add_r. fold M X. rewrite <- N.div_div, D, D2 by assumption. destruct s; reflexivity.
  - rewrite D, N.add_comm, N.mod_add, N.mod_small by assumption. reflexivity.
  - rewrite N.add_comm, N.mod_add, N.mod_small by assumption. reflexivity.
  - unfold modulus. rewrite <- Hf, !N.pow_add_r. fold M X. change (2 ^ 1) with 2.
    assert ((if s then 1 else 0) <= 1) by (destruct s; lia).
    assert ((if s then 1 else 0) * X + e < 2 * X) by nia. nia.
Qed.

(** Every number of the format, both zeros, both infinities and NaN are denoted by a
    pattern. *)
Lemma f_value_onto f v :
  fmt_ok f -> valid_binary (f_prec f) (f_emax f) v = true ->
  exists x, x < modulus (fm_bytes f) /\ f_value f x = v.
Proof.
  intros Hok Hv. pose proof Hok as (_ & Hm & He).
  pose proof (exp_double f He) as ED. pose proof (exp_big f He) as EB.
  pose proof (emax_N f He) as EN.
  assert (M0 : 2 ^ fm_man f <> 0) by (apply N.pow_nonzero; lia).
  assert (K : forall s e m, e < 2 ^ fm_exp f -> m < 2 ^ fm_man f ->
    (let bias := (Z.of_N (2 ^ (fm_exp f - 1)) - 1 + Z.of_N (fm_man f))%Z in
     if e =? max_exp f then (if m =? 0 then S754_infinity s else S754_nan)
     else if e =? 0
     then match m with 0 => S754_zero s | N.pos p => S754_finite s p (1 - bias) end
     else match m + 2 ^ fm_man f with
          | 0 => S754_nan
          | N.pos p => S754_finite s p (Z.of_N e - bias)
          end) = v ->
    exists x, x < modulus (fm_bytes f) /\ f_value f x = v).
  { intros s e m H1 H2 H3. exists (f_pattern f s e m).
    destruct (f_pattern_parts f s e m Hok H1 H2) as (A & B & C & D). split; [exact D|].
    unfold f_value. rewrite A, B, C. exact H3. }
  destruct v as [s|s| |s p e]; cbn [valid_binary] in Hv.
  - apply (K s 0 0); [lia|lia|]. cbn zeta. destruct (N.eqb_spec 0 (max_exp f)) as [E|_]; [|reflexivity].
    unfold max_exp in E. lia.
  - apply (K s (max_exp f) 0); [unfold max_exp; lia|lia|]. cbn zeta. rewrite N.eqb_refl. reflexivity.
  - assert (1 < 2 ^ fm_man f) by (apply N.pow_gt_1; lia).
    apply (K false (max_exp f) 1); [unfold max_exp; lia|lia|]. cbn zeta. rewrite N.eqb_refl. reflexivity.
  - unfold bounded, canonical_mantissa in Hv. apply andb_prop in Hv. destruct Hv as (Hc & Hb).
    apply Zeq_bool_eq in Hc. apply Z.leb_le in Hb. unfold fexp, emin, f_prec in Hc, Hb.
    rewrite EN in Hc, Hb. set (X := 2 ^ (fm_exp f - 1)) in *.
    pose proof (digits2_bounds p) as B. set (d := digits2_pos p) in *.
    destruct (Z.eq_dec (Z.pos d) (Z.of_N (fm_man f) + 1)) as [Ed|Ed].
    + rewrite Ed in B.
      replace (Z.of_N (fm_man f) + 1 - 1)%Z with (Z.of_N (fm_man f)) in B by lia.
      replace (Z.of_N (fm_man f) + 1)%Z with (Z.succ (Z.of_N (fm_man f))) in B by lia.
      rewrite Z.pow_succ_r, <- pow2_N in B by lia.
      assert (B1 : 2 ^ fm_man f <= N.pos p < 2 * 2 ^ fm_man f) by lia.
      apply (K s (Z.to_N (e + (Z.of_N X - 1 + Z.of_N (fm_man f)))) (N.pos p - 2 ^ fm_man f)); [lia|lia|].
      cbn zeta. unfold max_exp.
      destruct (N.eqb_spec (Z.to_N (e + (Z.of_N X - 1 + Z.of_N (fm_man f)))) (2 ^ fm_exp f - 1)) as [E|_]; [lia|].
      destruct (N.eqb_spec (Z.to_N (e + (Z.of_N X - 1 + Z.of_N (fm_man f)))) 0) as [E|_]; [lia|].
      replace (N.pos p - 2 ^ fm_man f + 2 ^ fm_man f) with (N.pos p) by lia. f_equal. lia.
    + assert (Hd : (Z.pos d <= Z.of_N (fm_man f))%Z) by lia.
      assert (Hp : (Z.pos p < 2 ^ Z.of_N (fm_man f))%Z).
      { eapply Z.lt_le_trans; [apply B|]. apply Z.pow_le_mono_r; lia. }
      rewrite <- pow2_N in Hp.
      apply (K s 0 (N.pos p)); [lia|lia|]. cbn zeta.
      destruct (N.eqb_spec 0 (max_exp f)) as [E|_]; [unfold max_exp in E; lia|].
      rewrite N.eqb_refl. f_equal. lia.
Qed.

(** The classes of patterns are those of the numbers. *)
Lemma is_inf_value f x : is_inf f x = true <-> exists s, f_value f x = S754_infinity s.
Proof.
  unfold is_inf, f_value. destruct (f_exp f x =? max_exp f); cbn [andb].
  - destruct (f_man f x =? 0); split; intros H; try discriminate; try (destruct H; discriminate); eauto.
  - split; [discriminate|]. intros (s & H). destruct (f_exp f x =? 0).
    + destruct (f_man f x); discriminate.
    + destruct (f_man f x + 2 ^ fm_man f); discriminate.
Qed.
Lemma is_finite_value f x :
  is_finite f x = true <->
  exists s, f_value f x = S754_zero s \/ exists m e, f_value f x = S754_finite s m e.
Proof.
  unfold is_finite, f_value. destruct (f_exp f x =? max_exp f); cbn [negb].
  - split; [discriminate|]. intros (s & [H|(m & e & H)]); destruct (f_man f x =? 0); discriminate.
  - split; [intros _|reflexivity]. exists (f_sign f x). destruct (f_exp f x =? 0).
    + destruct (f_man f x); eauto.
    + destruct (f_man f x + 2 ^ fm_man f) eqn:E; eauto.
      assert (2 ^ fm_man f <> 0) by (apply N.pow_nonzero; lia). lia.
Qed.
