(** * IntRange: the compile time range check for integral sentinels

    [IsIntegralInRange] (optional.h:351-380) with the conversions of C++ that it
    performs, and its correctness (C34). *)

From Coq Require Import List NArith ZArith Bool Arith Lia.
From Verif Require Import Cells CellsFacts Machine Laws Bits Manip.
Import ListNotations.
Local Open Scope Z_scope.

(** ** Model *)

(** [std::common_type_t<A, B>]: the type of a conditional expression; the type
    itself if both are the same, else the usual arithmetic conversions after
    promotion.  Two types of the same width and signedness (e.g. long and long
    long) are identified. *)
Definition common_type (a b : ity) : ity :=
  if Nat.eqb (it_bytes a) (it_bytes b) && Bool.eqb (it_signed a) (it_signed b)
  then a else common (promote a) (promote b).

(** [std::make_unsigned_t] *)
Definition make_unsigned (t : ity) : ity := MkIty (it_bytes t) false.

(** First branch of IsIntegralInRange (optional.h:360-364): same signedness. *)
Definition in_range_same (target source : ity) (v : Z) : bool :=
  let c := common_type target source in
  (conv c (it_min target) <=? conv c v) && (conv c v <=? conv c (it_max target)).

(** IsIntegralInRange<TargetT>(SourceT value) (optional.h:354-380).  The recursion
    of line 367 enters the first branch, since both types are then unsigned. *)
Definition is_integral_in_range (target source : ity) (v : Z) : bool :=
  if Bool.eqb (it_signed target) (it_signed source)
  then in_range_same target source v
  else if it_signed source
  then (0 <=? v) && in_range_same target (make_unsigned source) (conv (make_unsigned source) v)
  else
    let c := common_type source (make_unsigned target) in
    conv c v <=? conv c (it_max target).

(** ** Correctness *)

Lemma modulus_Z n : Z.of_N (modulus n) = 2 ^ (8 * Z.of_nat n).
Proof. unfold modulus. rewrite N2Z.inj_pow, N2Z.inj_mul, nat_N_Z. reflexivity. Qed.

Lemma modulus_mono a b : (a <= b)%nat -> Z.of_N (modulus a) <= Z.of_N (modulus b).
Proof. intros H. rewrite !modulus_Z. apply Z.pow_le_mono_r; lia. Qed.

Lemma modulus_half n : (0 < n)%nat ->
  exists h, Z.of_N (modulus n) = 2 * h /\ 128 <= h /\ Z.of_N (modulus n) / 2 = h.
Proof.
  intros H. exists (128 * Z.of_N (modulus (n - 1))). destruct n as [|n]; [lia|].
  rewrite modulus_S. replace (Datatypes.S n - 1)%nat with n by lia.
  pose proof (modulus_pos n).
  assert (E : Z.of_N (256 * modulus n) = 2 * (128 * Z.of_N (modulus n))) by lia.
  rewrite E. split; [reflexivity|]. split; [lia|].
  replace (2 * (128 * Z.of_N (modulus n))) with ((128 * Z.of_N (modulus n)) * 2) by ring.
  apply Z.div_mul. lia.
Qed.

(** Inclusion of value ranges. *)
Definition fits (a c : ity) : Prop := it_min c <= it_min a /\ it_max a <= it_max c.

Lemma conv_id t z : (0 < it_bytes t)%nat -> in_range t z -> conv t z = z.
Proof. apply value_pattern. Qed.

Lemma in_range_fits a c z : fits a c -> in_range a z -> in_range c z.
Proof. unfold fits, in_range. lia. Qed.
Lemma range_ends t : (0 < it_bytes t)%nat -> in_range t (it_min t) /\ in_range t (it_max t).
Proof.
  intros H. destruct (modulus_half _ H) as (h & E & Hh & Ed). unfold in_range, it_min, it_max.
  rewrite Ed. destruct (it_signed t); lia.
Qed.

Lemma fits_wider a c : (0 < it_bytes a)%nat -> (it_bytes a <= it_bytes c)%nat ->
  it_signed a = it_signed c -> fits a c.
Proof.
  intros Ha Hc Hs. assert (0 < it_bytes c)%nat as Hb by lia.
  destruct (modulus_half _ Ha) as (h & E & Hh & Ed).
  destruct (modulus_half _ Hb) as (h' & E' & Hh' & Ed').
  pose proof (modulus_mono _ _ Hc).
  unfold fits, it_min, it_max. rewrite Hs, Ed, Ed'. destruct (it_signed c); lia.
Qed.
Lemma modulus_lt a b : (0 < a)%nat -> (a < b)%nat -> 2 * Z.of_N (modulus a) <= Z.of_N (modulus b).
Proof.
  intros Ha H. rewrite !modulus_Z.
  replace (2 * 2 ^ (8 * Z.of_nat a)) with (2 ^ (8 * Z.of_nat a + 1)).
  - apply Z.pow_le_mono_r; lia.
  - rewrite Z.pow_add_r by lia. ring.
Qed.
Lemma fits_signed a c : (0 < it_bytes a)%nat -> (it_bytes a < it_bytes c)%nat ->
  it_signed c = true -> fits a c.
Proof.
  intros Ha Hc Hs. assert (0 < it_bytes c)%nat as Hb by lia.
  destruct (modulus_half _ Ha) as (h & E & Hh & Ed).
  destruct (modulus_half _ Hb) as (h' & E' & Hh' & Ed').
  pose proof (modulus_lt _ _ Ha Hc).
  unfold fits, it_min, it_max. rewrite Hs, Ed, Ed'. destruct (it_signed a); lia.
Qed.

Lemma fits_refl a : fits a a.
Proof. unfold fits. lia. Qed.

(** The common type of two types of the same signedness holds both. *)
Lemma common_same a b :
  (0 < it_bytes a)%nat -> (0 < it_bytes b)%nat -> it_signed a = it_signed b ->
  fits a (common_type a b) /\ fits b (common_type a b) /\ (0 < it_bytes (common_type a b))%nat.
Proof.
  intros Ha Hb Hs. unfold common_type.
  destruct (Nat.eqb_spec (it_bytes a) (it_bytes b)) as [Eb|Eb]; rewrite ?Hs, ?Bool.eqb_reflx;
    cbn [andb].
  { split; [apply fits_refl|]. split; [|exact Ha]. apply fits_wider; [exact Hb|lia|congruence]. }
  unfold promote.
  destruct (Nat.ltb_spec (it_bytes a) 4) as [La|La], (Nat.ltb_spec (it_bytes b) 4) as [Lb|Lb].
  - cbn. split; [apply fits_signed; cbn; auto|]. split; [apply fits_signed; cbn; auto|lia].
  - unfold common. cbn [it_signed int_type it_bytes]. destruct (it_signed b) eqn:Sb; cbn [Bool.eqb].
    + destruct (Nat.leb_spec (it_bytes b) 4).
      * cbn. split; [apply fits_signed; cbn; auto|]. split; [apply fits_wider; cbn; auto|lia].
      * split; [apply fits_signed; auto; lia|]. split; [apply fits_refl|lia].
    + apply Nat.leb_le in Lb. rewrite Lb. apply Nat.leb_le in Lb.
      split; [apply fits_wider; auto; [lia|congruence]|]. split; [apply fits_refl|lia].
  - unfold common. cbn [it_signed int_type it_bytes]. rewrite Hs.
    destruct (it_signed b) eqn:Sb; cbn [Bool.eqb].
    + apply Nat.leb_le in La. rewrite La. apply Nat.leb_le in La.
      split; [apply fits_refl|]. split; [apply fits_signed; auto; lia|lia].
    + cbn [it_bytes int_type]. apply Nat.leb_le in La. rewrite La. apply Nat.leb_le in La.
      split; [apply fits_refl|]. split; [apply fits_wider; auto; [lia|congruence]|lia].
  - unfold common. rewrite Hs, Bool.eqb_reflx.
    destruct (Nat.leb_spec (it_bytes b) (it_bytes a)).
    + split; [apply fits_refl|]. split; [apply fits_wider; auto|lia].
    + split; [apply fits_wider; auto; lia|]. split; [apply fits_refl|lia].
Qed.

Lemma in_range_same_spec t s v :
  (0 < it_bytes t)%nat -> (0 < it_bytes s)%nat -> it_signed t = it_signed s -> in_range s v ->
  in_range_same t s v = true <-> in_range t v.
Proof.
  intros Ht Hs Hsg Hv. destruct (common_same t s Ht Hs Hsg) as (F1 & F2 & Hc).
  unfold in_range_same. destruct (range_ends t Ht) as (R1 & R2).
  rewrite (conv_id _ v Hc) by exact (in_range_fits _ _ _ F2 Hv).
  rewrite (conv_id _ (it_min t) Hc) by exact (in_range_fits _ _ _ F1 R1).
  rewrite (conv_id _ (it_max t) Hc) by exact (in_range_fits _ _ _ F1 R2).
  unfold in_range. rewrite andb_true_iff, !Z.leb_le. reflexivity.
Qed.

Lemma is_integral_in_range_spec t s v :
  (0 < it_bytes t)%nat -> (0 < it_bytes s)%nat -> in_range s v ->
  is_integral_in_range t s v = true <-> in_range t v.
Proof.
  intros Ht Hs Hv. unfold is_integral_in_range.
  destruct (it_signed t) eqn:St, (it_signed s) eqn:Ss; cbn [Bool.eqb].
  - apply in_range_same_spec; auto; congruence.
  - (* unsigned to signed *)
    destruct (common_same s (make_unsigned t) Hs Ht) as (F1 & F2 & Hc); [rewrite Ss; reflexivity|].
    assert (in_range (make_unsigned t) (it_max t)) as Hm.
    { destruct (modulus_half _ Ht) as (h & E & Hh & Ed). unfold in_range, it_min, it_max, make_unsigned.
      cbn. rewrite St, Ed. lia. }
    rewrite (conv_id _ v Hc) by exact (in_range_fits _ _ _ F1 Hv).
    rewrite (conv_id _ (it_max t) Hc) by exact (in_range_fits _ _ _ F2 Hm).
    rewrite Z.leb_le. unfold in_range in *. split; [|tauto]. intros H. split; [|exact H].
    destruct (modulus_half _ Ht) as (h & E & Hh & Ed). unfold it_min in *. rewrite St, Ed.
    rewrite Ss in Hv. lia.
  - (* signed to unsigned *)
    rewrite andb_true_iff, Z.leb_le.
    assert (Hu : 0 <= v -> in_range (make_unsigned s) v).
    { intros H0. destruct (modulus_half _ Hs) as (h & E & Hh & Ed).
      unfold in_range, it_min, it_max, make_unsigned in *. cbn. rewrite Ss, Ed in Hv. lia. }
    split.
    + intros (H0 & H). specialize (Hu H0). rewrite (conv_id (make_unsigned s) v Hs Hu) in H.
      apply in_range_same_spec in H; auto.
    + intros H. assert (0 <= v) as H0.
      { unfold in_range, it_min in H. rewrite St in H. lia. }
      split; [exact H0|]. specialize (Hu H0). rewrite (conv_id (make_unsigned s) v Hs Hu).
      apply in_range_same_spec; auto.
  - apply in_range_same_spec; auto; congruence.
Qed.

(** ** C34: the range check is exact *)

(** For every flag type [t], sentinel type [s] and sentinel value [v]: the check
    accepts iff [v] is a value of [t]; then [static_cast<t>(v)] is [v], and the bytes
    written as "empty" flag are read back as the number [v]. *)
Theorem C34_range_check_exact :
  forall t s v,
    (0 < it_bytes t)%nat -> (0 < it_bytes s)%nat -> in_range s v ->
    (is_integral_in_range t s v = true <-> in_range t v) /\
    (is_integral_in_range t s v = true ->
     conv t v = v /\
     forall c, option_map (value_of t) (unword (m_init (man_int t (conv t v)) c)) = Some v).
Proof.
  intros t s v Ht Hs Hv. pose proof (is_integral_in_range_spec t s v Ht Hs Hv) as H.
  split; [exact H|]. intros Hr. apply H in Hr. pose proof (conv_id t v Ht Hr) as Hc.
  split; [exact Hc|]. intros c. cbn. unfold int_rep. rewrite unword_word by apply pattern_lt.
  rewrite Hc. cbn. rewrite value_pattern by assumption. reflexivity.
Qed.

(** unsigned with sentinel -1 is rejected, 0xffffffffu as sentinel of a signed char
    too, 127 is accepted; 2^64 - 1 for an unsigned long is accepted from unsigned
    long long. *)
Example C34_example :
  is_integral_in_range (MkIty 4 false) (MkIty 4 true) (-1) = false /\
  is_integral_in_range (MkIty 1 true) (MkIty 4 false) 4294967295 = false /\
  is_integral_in_range (MkIty 1 true) (MkIty 4 true) 127 = true /\
  is_integral_in_range (MkIty 1 true) (MkIty 4 true) (-129) = false /\
  is_integral_in_range (MkIty 8 false) (MkIty 8 false) 18446744073709551615 = true.
Proof. repeat split. Qed.
