(** * Bits: object representations of scalar types

    Little endian bytes (x86/x64, the only architectures the in-place tricks
    support: optional.h:67-71, 411-413), two's complement integers and IEEE 754
    floating point numbers (optional.h:438, 452: [is_iec559]).  Nothing here is library code. *)

From Coq Require Import List NArith ZArith Bool Arith Lia.
From Coq Require Import Floats.SpecFloat.
From Verif Require Import Cells.
Import ListNotations.
Local Open Scope N_scope.

(** The [n] least significant bytes of [x], least significant first. *)
Fixpoint bytes_le (n : nat) (x : N) : list N :=
  match n with
  | O => []
  | S n' => x mod 256 :: bytes_le n' (x / 256)
  end.
(** The number with these bytes. *)
Fixpoint of_bytes_le (l : list N) : N :=
  match l with
  | [] => 0
  | b :: l' => b + 256 * of_bytes_le l'
  end.

(** The object representation of an [n] byte unsigned number. *)
Definition word (n : nat) (x : N) : rep := map Byte (bytes_le n x).

(** The bytes of a representation; [None] if a cell is indeterminate or opaque. *)
Fixpoint unbytes (c : rep) : option (list N) :=
  match c with
  | [] => Some []
  | Byte b :: c' => match unbytes c' with Some l => Some (b :: l) | None => None end
  | _ :: _ => None
  end.
(** The unsigned number that a representation stands for. *)
Definition unword (c : rep) : option N :=
  match unbytes c with Some l => Some (of_bytes_le l) | None => None end.

(** Number of values of [n] bytes. *)
Definition modulus (n : nat) : N := 2 ^ (8 * N.of_nat n).

Lemma modulus_S n : modulus (S n) = 256 * modulus n.
Proof.
  unfold modulus. replace (8 * N.of_nat (S n)) with (8 + 8 * N.of_nat n) by lia.
  rewrite N.pow_add_r. reflexivity.
Qed.
Lemma modulus_pos n : 0 < modulus n.
Proof. unfold modulus. apply N.neq_0_lt_0, N.pow_nonzero. lia. Qed.

Lemma length_bytes_le n x : length (bytes_le n x) = n.
Proof. revert x. induction n; cbn; auto. Qed.
Lemma length_word n x : length (word n x) = n.
Proof. unfold word. rewrite map_length. apply length_bytes_le. Qed.
Lemma of_bytes_bytes n x : x < modulus n -> of_bytes_le (bytes_le n x) = x.
Proof.
  revert x. induction n as [|n IH]; intros x H.
  - change (modulus 0) with 1 in H. cbn. lia.
  - cbn [bytes_le of_bytes_le]. rewrite IH.
    + pose proof (N.div_mod x 256 ltac:(lia)). lia.
    + rewrite modulus_S in H. apply N.div_lt_upper_bound; lia.
Qed.
Lemma bytes_inj n x y : x < modulus n -> y < modulus n -> bytes_le n x = bytes_le n y -> x = y.
Proof.
  intros Hx Hy H. rewrite <- (of_bytes_bytes n x Hx), <- (of_bytes_bytes n y Hy), H. reflexivity.
Qed.
Lemma unbytes_map l : unbytes (map Byte l) = Some l.
Proof. induction l as [|b l IH]; cbn; [reflexivity|]. rewrite IH. reflexivity. Qed.
Lemma unword_word n x : x < modulus n -> unword (word n x) = Some x.
Proof.
  intros H. unfold unword, word. rewrite unbytes_map, of_bytes_bytes by exact H. reflexivity.
Qed.
Lemma word_inj n x y : x < modulus n -> y < modulus n -> word n x = word n y -> x = y.
Proof.
  intros Hx Hy H. pose proof (unword_word n x Hx) as A. rewrite H, unword_word in A by exact Hy.
  congruence.
Qed.
Lemma unbytes_length c l : unbytes c = Some l -> length l = length c.
Proof.
  revert l. induction c as [|[|b|z] c IH]; intros l H; cbn in *; try discriminate.
  - injection H as <-. reflexivity.
  - destruct (unbytes c) as [l'|]; [|discriminate]. injection H as <-. cbn. rewrite (IH l'); auto.
Qed.

(** Equality of byte strings (the test [memcmp(..) == 0]). *)
Fixpoint bytes_eqb (a b : list N) : bool :=
  match a, b with
  | [], [] => true
  | x :: a', y :: b' => N.eqb x y && bytes_eqb a' b'
  | _, _ => false
  end.
Lemma bytes_eqb_eq a b : bytes_eqb a b = true <-> a = b.
Proof.
  revert b. induction a as [|x a IH]; intros [|y b]; cbn; split; try congruence; try discriminate.
  - intros H. apply andb_true_iff in H as (H1 & H2). apply N.eqb_eq in H1. apply IH in H2. congruence.
  - intros [= -> ->]. rewrite N.eqb_refl. cbn. apply IH. reflexivity.
Qed.

(** ** Integers *)

(** An integral type: its size in bytes and its signedness. *)
Record ity : Type := MkIty { it_bytes : nat; it_signed : bool }.

(** Smallest and largest value. *)
Definition it_min (t : ity) : Z :=
  if it_signed t then (- (Z.of_N (modulus (it_bytes t)) / 2))%Z else 0%Z.
Definition it_max (t : ity) : Z :=
  if it_signed t then (Z.of_N (modulus (it_bytes t)) / 2 - 1)%Z
  else (Z.of_N (modulus (it_bytes t)) - 1)%Z.
Definition in_range (t : ity) (z : Z) : Prop := (it_min t <= z <= it_max t)%Z.

(** The bit pattern of a value, and back (two's complement). *)
Definition pattern (t : ity) (z : Z) : N :=
  Z.to_N (z mod Z.of_N (modulus (it_bytes t))).
Definition value_of (t : ity) (x : N) : Z :=
  if it_signed t && (Z.of_N (modulus (it_bytes t)) / 2 <=? Z.of_N x)%Z
  then (Z.of_N x - Z.of_N (modulus (it_bytes t)))%Z
  else Z.of_N x.

Lemma modulus_even n : (0 < n)%nat -> exists h, modulus n = 2 * h /\ 0 < h.
Proof.
  intros H. destruct n as [|n]; [lia|]. exists (128 * modulus n).
  rewrite modulus_S. pose proof (modulus_pos n). lia.
Qed.

Lemma pattern_lt t z : pattern t z < modulus (it_bytes t).
Proof.
  unfold pattern. pose proof (modulus_pos (it_bytes t)).
  pose proof (Z.mod_pos_bound z (Z.of_N (modulus (it_bytes t)))). lia.
Qed.
Lemma value_pattern t z : (0 < it_bytes t)%nat -> in_range t z -> value_of t (pattern t z) = z.
Proof.
  intros Hb H. unfold in_range, it_min, it_max, value_of, pattern in *.
  destruct (modulus_even _ Hb) as (h & Hm & Hh). rewrite Hm in *.
  assert (E2 : (Z.of_N (2 * h) / 2 = Z.of_N h)%Z).
  { replace (Z.of_N (2 * h)) with (Z.of_N h * 2)%Z by lia. apply Z.div_mul. lia. }
  rewrite E2 in *. pose proof (Z.mod_pos_bound z (Z.of_N (2 * h))) as B.
  rewrite Z2N.id by lia. destruct (it_signed t); cbn [andb].
  - destruct (Z.ltb_spec z 0).
    + replace (z mod Z.of_N (2 * h))%Z with (z + Z.of_N (2 * h))%Z.
      2:{ apply (Z.mod_unique _ _ (-1)%Z); lia. }
      destruct (Z.leb_spec (Z.of_N h) (z + Z.of_N (2 * h))); lia.
    + rewrite Z.mod_small by lia. destruct (Z.leb_spec (Z.of_N h) z); lia.
  - apply Z.mod_small. lia.
Qed.
Lemma pattern_value t x : x < modulus (it_bytes t) -> pattern t (value_of t x) = x.
Proof.
  intros H. unfold value_of, pattern.
  pose proof (modulus_pos (it_bytes t)).
  destruct (it_signed t && _).
  - replace (Z.of_N x - Z.of_N (modulus (it_bytes t)))%Z
      with (Z.of_N x + (-1) * Z.of_N (modulus (it_bytes t)))%Z by lia.
    rewrite Z.mod_add by lia. rewrite Z.mod_small by lia. lia.
  - rewrite Z.mod_small by lia. lia.
Qed.
Lemma value_range t x :
  (0 < it_bytes t)%nat -> x < modulus (it_bytes t) -> in_range t (value_of t x).
Proof.
  intros Hb H. unfold in_range, it_min, it_max, value_of.
  destruct (modulus_even _ Hb) as (h & Hm & Hh). rewrite Hm in *.
  assert (E2 : (Z.of_N (2 * h) / 2 = Z.of_N h)%Z).
  { replace (Z.of_N (2 * h)) with (Z.of_N h * 2)%Z by lia. apply Z.div_mul. lia. }
  rewrite E2. destruct (it_signed t); cbn [andb]; [|lia].
  destruct (Z.leb_spec (Z.of_N h) (Z.of_N x)); lia.
Qed.

(** Object representation of an integer. *)
Definition int_rep (t : ity) (z : Z) : rep := word (it_bytes t) (pattern t z).

(** ** Floating point numbers *)

(** An IEEE 754 binary interchange format: [fm_man] explicit mantissa bits,
    [fm_exp] exponent bits; [fm_bytes] its size. *)
Record fmt : Type := MkFmt { fm_man : N; fm_exp : N; fm_bytes : nat }.
Definition binary64 : fmt := MkFmt 52 11 8.
Definition binary32 : fmt := MkFmt 23 8 4.

Definition f_man (f : fmt) (x : N) : N := x mod 2 ^ fm_man f.
Definition f_exp (f : fmt) (x : N) : N := (x / 2 ^ fm_man f) mod 2 ^ fm_exp f.
Definition f_sign (f : fmt) (x : N) : bool := N.odd (x / 2 ^ (fm_man f + fm_exp f)).

Definition max_exp (f : fmt) : N := 2 ^ fm_exp f - 1.
Definition is_finite (f : fmt) (x : N) : bool := negb (f_exp f x =? max_exp f).
Definition is_inf (f : fmt) (x : N) : bool := (f_exp f x =? max_exp f) && (f_man f x =? 0).
Definition is_nan (f : fmt) (x : N) : bool := (f_exp f x =? max_exp f) && negb (f_man f x =? 0).
(** A NaN whose most significant mantissa bit is set is quiet, else signalling. *)
Definition is_quiet_nan (f : fmt) (x : N) : bool :=
  is_nan f x && N.testbit (f_man f x) (fm_man f - 1).
Definition is_signalling_nan (f : fmt) (x : N) : bool :=
  is_nan f x && negb (N.testbit (f_man f x) (fm_man f - 1)).

(** The number denoted by a bit pattern. *)
Definition f_value (f : fmt) (x : N) : spec_float :=
  let m := f_man f x in
  let e := f_exp f x in
  let bias := (Z.of_N (2 ^ (fm_exp f - 1)) - 1 + Z.of_N (fm_man f))%Z in
  if e =? max_exp f then (if m =? 0 then S754_infinity (f_sign f x) else S754_nan)
  else if e =? 0
  then match m with 0 => S754_zero (f_sign f x) | N.pos p => S754_finite (f_sign f x) p (1 - bias) end
  else match m + 2 ^ fm_man f with
       | 0 => S754_nan
       | N.pos p => S754_finite (f_sign f x) p (Z.of_N e - bias)
       end.

(** The C++ operator == on two floating point objects. *)
Definition f_eqb (f : fmt) (x y : N) : bool := SFeqb (f_value f x) (f_value f y).

(** A format uses all of its bits. *)
Definition fmt_ok (f : fmt) : Prop :=
  fm_man f + fm_exp f + 1 = 8 * N.of_nat (fm_bytes f) /\ 0 < fm_man f /\ 1 < fm_exp f.
Lemma binary64_ok : fmt_ok binary64.
Proof. repeat split. Qed.
Lemma binary32_ok : fmt_ok binary32.
Proof. repeat split. Qed.

Lemma pattern_parts f x y :
  fmt_ok f -> x < modulus (fm_bytes f) -> y < modulus (fm_bytes f) ->
  f_sign f x = f_sign f y -> f_exp f x = f_exp f y -> f_man f x = f_man f y -> x = y.
Proof.
  intros (Hf & _ & _) Hx Hy Hs He Hm. unfold f_sign, f_exp, f_man in *.
  set (P := 2 ^ fm_man f) in *. set (Q := 2 ^ fm_exp f) in *.
  assert (P <> 0) by (apply N.pow_nonzero; lia). assert (Q <> 0) by (apply N.pow_nonzero; lia).
  rewrite N.pow_add_r in Hs. fold P Q in Hs. rewrite <- !N.div_div in Hs by assumption.
  assert (Small : forall z, z < modulus (fm_bytes f) -> z / P / Q < 2).
  { intros z Hz. apply N.div_lt_upper_bound; [assumption|].
    apply N.div_lt_upper_bound; [assumption|].
    unfold modulus in Hz. rewrite <- Hf, !N.pow_add_r in Hz. fold P Q in Hz. lia. }
  assert (x / P / Q = y / P / Q) as Hq.
  { pose proof (Small x Hx). pose proof (Small y Hy).
    assert (T : forall z, z < 2 -> z = if N.odd z then 1 else 0).
    { intros z Hz. destruct (N.eq_dec z 0) as [->|]; [reflexivity|].
      assert (z = 1) as -> by lia. reflexivity. }
    rewrite (T _ H1), (T _ H2), Hs. reflexivity. }
  assert (x / P = y / P) as Hd.
  { rewrite (N.div_mod (x / P) Q), (N.div_mod (y / P) Q) by assumption.
    rewrite Hq, He. reflexivity. }
  rewrite (N.div_mod x P), (N.div_mod y P) by assumption. rewrite Hd, Hm. reflexivity.
Qed.

Lemma man_lt f x : f_man f x < 2 ^ fm_man f.
Proof. apply N.mod_lt. apply N.pow_nonzero. lia. Qed.

Lemma is_nan_value f x : fmt_ok f -> is_nan f x = true <-> f_value f x = S754_nan.
Proof.
  intros Hok. unfold is_nan, f_value. destruct (f_exp f x =? max_exp f); cbn.
  - destruct (f_man f x =? 0); cbn; split; congruence.
  - split; [discriminate|]. destruct (f_exp f x =? 0); [destruct (f_man f x); discriminate|].
    destruct (f_man f x + 2 ^ fm_man f) eqn:E; [|discriminate].
    assert (2 ^ fm_man f <> 0) by (apply N.pow_nonzero; lia). lia.
Qed.

Lemma SFcompare_refl v : v <> S754_nan -> SFcompare v v = Some Eq.
Proof.
  destruct v as [[]|[]| |[] m e]; cbn; try congruence; intros _;
    rewrite Z.compare_refl, Pos.compare_cont_refl; reflexivity.
Qed.

Definition both_zero (a b : spec_float) : Prop :=
  match a, b with S754_zero _, S754_zero _ => True | _, _ => False end.

Lemma SFcompare_eq a b : SFcompare a b = Some Eq -> a = b \/ both_zero a b.
Proof.
  destruct a as [s|s| |s m e], b as [s'|s'| |s' m' e'];
    try (intros; right; exact I); try destruct s; try destruct s'; cbn; try discriminate; auto.
  - destruct (Z.compare_spec e e'); try discriminate. subst.
    destruct (Pos.compare_cont Eq m m') eqn:C; cbn; try discriminate.
    intros _. apply Pos.compare_eq in C. subst. auto.
  - destruct (Z.compare_spec e e'); try discriminate. subst.
    destruct (Pos.compare_cont Eq m m') eqn:C; cbn; try discriminate.
    intros _. apply Pos.compare_eq in C. subst. auto.
Qed.

Lemma f_value_inj f x y :
  fmt_ok f -> x < modulus (fm_bytes f) -> y < modulus (fm_bytes f) ->
  f_value f x <> S754_nan -> f_value f x = f_value f y -> x = y.
Proof.
  intros Hok Hx Hy Hn H. apply (pattern_parts f x y Hok Hx Hy).
  all: pose proof (man_lt f x) as Mx; pose proof (man_lt f y) as My; unfold f_value in H, Hn.
  all: assert (2 ^ fm_man f <> 0) as P0 by (apply N.pow_nonzero; lia).
  all: destruct (N.eqb_spec (f_exp f x) (max_exp f)) as [Ex|Ex];
       destruct (N.eqb_spec (f_exp f y) (max_exp f)) as [Ey|Ey];
       try (destruct (N.eqb_spec (f_man f x) 0)); try (destruct (N.eqb_spec (f_man f y) 0));
       try (exfalso; congruence); try congruence;
       destruct (N.eqb_spec (f_exp f x) 0) as [Zx|Zx];
       destruct (N.eqb_spec (f_exp f y) 0) as [Zy|Zy];
       destruct (f_man f x) eqn:Emx; destruct (f_man f y) eqn:Emy;
       repeat match goal with
              | Hq : context [match ?a with 0 => _ | N.pos _ => _ end] |- _ => destruct a eqn:?
              end;
       try discriminate; try congruence; try (injection H; intros; subst; lia);
       try (injection H; intros; subst; congruence).
Qed.

(** == on floats: identical patterns that are not NaN, or the two zeros. *)
Lemma f_eqb_spec f x y :
  fmt_ok f -> x < modulus (fm_bytes f) -> y < modulus (fm_bytes f) ->
  f_eqb f x y = true <->
  (x = y /\ is_nan f x = false) \/ (both_zero (f_value f x) (f_value f y)).
Proof.
  intros Hok Hx Hy. unfold f_eqb, SFeqb. split.
  - destruct (SFcompare (f_value f x) (f_value f y)) as [[]|] eqn:C; try discriminate. intros _.
    destruct (SFcompare_eq _ _ C) as [H|H]; [|auto].
    assert (f_value f x <> S754_nan) as Hn.
    { intros Hn. rewrite Hn in C. discriminate. }
    left. split; [eapply f_value_inj; eauto|].
    destruct (is_nan f x) eqn:N0; [|reflexivity].
    apply (is_nan_value f x Hok) in N0. contradiction.
  - intros [(-> & N0)|Z].
    + rewrite SFcompare_refl; [reflexivity|]. intros Hn. apply (is_nan_value f y Hok) in Hn. congruence.
    + destruct (f_value f x), (f_value f y); cbn in Z; try contradiction. reflexivity.
Qed.
