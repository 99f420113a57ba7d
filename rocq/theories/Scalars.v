(** * Scalars: optionals of double, float, bool and pointers

    C04-C07: which values the four kinds of types with known unused bit patterns can
    hold, and C08 in terms of bit patterns. *)

From Coq Require Import List NArith ZArith Bool Arith Lia.
From Coq Require Import Floats.SpecFloat.
From Verif Require Import Cells CellsFacts Machine Optional Program Spec Laws Refine.
From Verif Require Import Bits Manip IntRange Select Selection Contract Sample Histories ExampleTac.
From Verif Require Import Sentinels Numbers.
Import ListNotations.

Local Arguments put : simpl never.
Local Arguments sub : simpl never.
Local Arguments word : simpl never.

(** ** The strategy of these types *)

Lemma memcmp_word n s x :
  (x < modulus n)%N -> (s < modulus n)%N ->
  m_is_empty (man_memcmp (bytes_le n s)) (word n x) = Some (N.eqb x s).
Proof.
  intros Hx Hs. cbn [man_memcmp m_is_empty]. rewrite length_bytes_le.
  rewrite <- (length_word n x) at 1. rewrite firstn_all. unfold word. rewrite unbytes_map. f_equal.
  destruct (N.eqb_spec x s) as [->|Hn]; [apply bytes_eqb_eq; reflexivity|].
  destruct (bytes_eqb (bytes_le n x) (bytes_le n s)) eqn:B; [|reflexivity].
  apply bytes_eqb_eq in B. apply bytes_inj in B; auto. contradiction.
Qed.

Lemma unused_bits W U cf (E : env W) i P b :
  cf_bit cf = true -> u_spec U P = None ->
  sentinel_known (MkConfig true true) P = true ->
  instantiates U cf E i P ADefault b ->
  dec E i = dec_inplace (size_of U (base P)) /\ man E i = unused_bits_manip U (base P).
Proof.
  intros Hb Hs Hk H. apply C32_selection_as_documented in H as (_ & H).
  assert (flag_manipulator U cf P = Some (unused_bits_manip U (base P))) as Hf.
  { unfold flag_manipulator. rewrite Hs. unfold sentinel_known in *. rewrite Hb. cbn in Hk.
    rewrite Hk. reflexivity. }
  inversion H as [? Hg|? ? Hg| | | |]; subst; [congruence|].
  split; [reflexivity|]. congruence.
Qed.

(** All but one [n] byte pattern can be stored; the one is swallowed. *)
Definition all_but_one {W} (E : env W) (i : loc) (n : nat) (s0 : N) : Prop :=
  (forall x, (x < modulus n)%N -> x <> s0 -> engages E i (word n x)) /\
  swallows E i (word n s0).

Lemma memcmp_all_but_one W (E : env W) i n s0 :
  env_ok E -> dec E i = dec_inplace n -> man E i = man_memcmp (bytes_le n s0) ->
  (s0 < modulus n)%N -> all_but_one E i n s0.
Proof.
  intros HE Hd Hm Hs. split.
  - intros x Hx Hn. apply scalar_engages; auto. rewrite Hm, memcmp_word by auto.
    apply N.eqb_neq in Hn. rewrite Hn. reflexivity.
  - apply scalar_swallows; auto. rewrite Hm, memcmp_word by auto. rewrite N.eqb_refl. reflexivity.
Qed.

(** ** C04: double *)

Theorem C04_double_all_but_one :
  forall W (E : env W) U cf c v b i,
    env_ok E -> cf_bit cf = true -> u_spec U (MkTy c v UDouble) = None ->
    instantiates U cf E i (MkTy c v UDouble) ADefault b ->
    d_ssize (dec E i) = 8 /\
    exists s0, (s0 < 2 ^ 64)%N /\ is_quiet_nan binary64 s0 = true /\ all_but_one E i 8 s0.
Proof.
  intros W E U cf c v b i HE Hb Hs H.
  destruct (unused_bits W U cf E i _ b Hb Hs eq_refl H) as (Hd & Hm). cbn in Hd, Hm.
  split; [rewrite Hd; reflexivity|]. exists sent_double.
  split; [reflexivity|]. split; [vm_compute; reflexivity|].
  apply memcmp_all_but_one; auto. reflexivity.
Qed.

(** The values that arise in computations: every number, both zeros, both infinities,
    every signalling NaN, and the NaNs that the hardware (0/0, inf-inf: the negative
    quiet NaN without payload) and numeric_limits::quiet_NaN() (the positive one)
    produce. *)
Theorem C04_double_values :
  forall W (E : env W) U cf c v b i x,
    env_ok E -> cf_bit cf = true -> u_spec U (MkTy c v UDouble) = None ->
    instantiates U cf E i (MkTy c v UDouble) ADefault b ->
    (x < 2 ^ 64)%N ->
    is_finite binary64 x = true \/ is_inf binary64 x = true \/
    is_signalling_nan binary64 x = true \/
    x = 0x7ff8000000000000%N \/ x = 0xfff8000000000000%N ->
    engages E i (word 8 x).
Proof.
  intros W E U cf c v b i x HE Hb Hs H Hx Hv.
  destruct (unused_bits W U cf E i _ b Hb Hs eq_refl H) as (Hd & Hm). cbn in Hd, Hm.
  apply (memcmp_all_but_one W E i 8 sent_double HE Hd Hm eq_refl); [exact Hx|].
  intros ->. destruct Hv as [Hv|[Hv|[Hv|[Hv|Hv]]]]; vm_compute in Hv; discriminate.
Qed.

(** In terms of numbers instead of patterns: every binary64 number (in the sense of the
    standard library's [valid_binary]; both zeros and both infinities included) has exactly
    one representation, and an optional keeps it. *)
Theorem C04_every_number :
  forall W (E : env W) U cf c v b i a,
    env_ok E -> cf_bit cf = true -> u_spec U (MkTy c v UDouble) = None ->
    instantiates U cf E i (MkTy c v UDouble) ADefault b ->
    valid_binary 53 1024 a = true -> a <> S754_nan ->
    exists x, (x < 2 ^ 64)%N /\ f_value binary64 x = a /\ engages E i (word 8 x) /\
      forall y, (y < 2 ^ 64)%N -> f_value binary64 y = a -> y = x.
Proof.
  intros W E U cf c v b i a HE Hb Hs H Ha Hn.
  destruct (f_value_onto binary64 a binary64_ok Ha) as (x & Hx & Hv).
  exists x. split; [exact Hx|]. split; [exact Hv|]. split.
  - apply (C04_double_values W E U cf c v b i x HE Hb Hs H Hx).
    destruct a as [s|s| |s m e]; [left|right; left|contradiction|left].
    + apply is_finite_value. exists s. auto.
    + apply is_inf_value. exists s. exact Hv.
    + apply is_finite_value. exists s. eauto.
  - intros y Hy Hvy. apply (f_value_inj binary64 y x); auto using binary64_ok; congruence.
Qed.

(** ** C05: float *)

Theorem C05_float_all_but_one :
  forall W (E : env W) U cf c v b i,
    env_ok E -> cf_bit cf = true -> u_spec U (MkTy c v UFloat) = None ->
    instantiates U cf E i (MkTy c v UFloat) ADefault b ->
    d_ssize (dec E i) = 4 /\
    exists s0, (s0 < 2 ^ 32)%N /\ is_quiet_nan binary32 s0 = true /\ all_but_one E i 4 s0.
Proof.
  intros W E U cf c v b i HE Hb Hs H.
  destruct (unused_bits W U cf E i _ b Hb Hs eq_refl H) as (Hd & Hm). cbn in Hd, Hm.
  split; [rewrite Hd; reflexivity|]. exists sent_float.
  split; [reflexivity|]. split; [vm_compute; reflexivity|].
  apply memcmp_all_but_one; auto. reflexivity.
Qed.

Theorem C05_float_values :
  forall W (E : env W) U cf c v b i x,
    env_ok E -> cf_bit cf = true -> u_spec U (MkTy c v UFloat) = None ->
    instantiates U cf E i (MkTy c v UFloat) ADefault b ->
    (x < 2 ^ 32)%N ->
    is_finite binary32 x = true \/ is_inf binary32 x = true \/
    is_signalling_nan binary32 x = true \/
    x = 0x7fc00000%N \/ x = 0xffc00000%N ->
    engages E i (word 4 x).
Proof.
  intros W E U cf c v b i x HE Hb Hs H Hx Hv.
  destruct (unused_bits W U cf E i _ b Hb Hs eq_refl H) as (Hd & Hm). cbn in Hd, Hm.
  apply (memcmp_all_but_one W E i 4 sent_float HE Hd Hm eq_refl); [exact Hx|].
  intros ->. destruct Hv as [Hv|[Hv|[Hv|[Hv|Hv]]]]; vm_compute in Hv; discriminate.
Qed.

(** In terms of numbers instead of patterns: every binary32 number (in the sense of the
    standard library's [valid_binary]; both zeros and both infinities included) has exactly
    one representation, and an optional keeps it. *)
Theorem C05_every_number :
  forall W (E : env W) U cf c v b i a,
    env_ok E -> cf_bit cf = true -> u_spec U (MkTy c v UFloat) = None ->
    instantiates U cf E i (MkTy c v UFloat) ADefault b ->
    valid_binary 24 128 a = true -> a <> S754_nan ->
    exists x, (x < 2 ^ 32)%N /\ f_value binary32 x = a /\ engages E i (word 4 x) /\
      forall y, (y < 2 ^ 32)%N -> f_value binary32 y = a -> y = x.
Proof.
  intros W E U cf c v b i a HE Hb Hs H Ha Hn.
  destruct (f_value_onto binary32 a binary32_ok Ha) as (x & Hx & Hv).
  exists x. split; [exact Hx|]. split; [exact Hv|]. split.
  - apply (C05_float_values W E U cf c v b i x HE Hb Hs H Hx).
    destruct a as [s|s| |s m e]; [left|right; left|contradiction|left].
    + apply is_finite_value. exists s. auto.
    + apply is_inf_value. exists s. exact Hv.
    + apply is_finite_value. exists s. eauto.
  - intros y Hy Hvy. apply (f_value_inj binary32 y x); auto using binary32_ok; congruence.
Qed.

(** ** C06: bool *)

(** The representations of a bool. *)
Definition bool_rep (b : bool) : rep := [Byte (if b then 1 else 0)%N].

(** One byte holds all three states: both values can be stored, and the byte of the
    empty optional is neither of them. *)
Theorem C06_bool_three_states :
  forall W (E : env W) U cf c v b i,
    env_ok E -> cf_bit cf = true -> u_spec U (MkTy c v UBool) = None ->
    instantiates U cf E i (MkTy c v UBool) ADefault b ->
    d_ssize (dec E i) = 1 /\
    (forall x, engages E i (bool_rep x)) /\
    exists e, e <> 0%N /\ e <> 1%N /\
      forall w p s, contract E w p -> reaches E w p s -> opt_after E w p i None ->
        option_map cells (mem s i) = Some [Byte e].
Proof.
  intros W E U cf c v b i HE Hb Hs H.
  destruct (unused_bits W U cf E i _ b Hb Hs eq_refl H) as (Hd & Hm). cbn in Hd, Hm.
  split; [rewrite Hd; reflexivity|].
  split.
  { intros x. destruct (memcmp_all_but_one W E i 1 sent_bool HE Hd Hm eq_refl) as (A & _).
    destruct x; [apply (A 1%N)|apply (A 0%N)]; (reflexivity || discriminate). }
  exists sent_bool. split; [discriminate|]. split; [discriminate|].
  intros w p s C R O. destruct (reaches_rel E HE w p s C R) as (xs & t & Ht & Rl).
  pose proof (opt_after_at E w p i None xs t O Ht) as Hi.
  destruct Rl as (_ & _ & Rl). specialize (Rl i). unfold rel_at, robj in Rl. rewrite Hi in Rl.
  destruct Rl as (k & Hk & Lk & Ek). rewrite Hk. cbn [option_map cells]. f_equal.
  rewrite Hd in Lk, Ek. unfold flag_cells in Ek. cbn in Lk, Ek. rewrite <- Lk, sub_full, Hm in Ek.
  destruct k as [|k [|]]; cbn in Lk; try discriminate. cbn [man_bool man_memcmp m_is_empty] in Ek.
  destruct k as [|y|y]; cbn in Ek; try discriminate. injection Ek as Ek.
  rewrite andb_true_r in Ek. apply N.eqb_eq in Ek. subst. reflexivity.
Qed.

(** ** C07: pointers *)

(** x64: every 8 byte pattern but one, which is odd and, with 48 bit virtual addresses
    (bits 47-63 equal), not an address at all. *)
Definition canonical (bits a : N) : Prop :=
  (a < 2 ^ (bits - 1) \/ 2 ^ 64 - 2 ^ (bits - 1) <= a < 2 ^ 64)%N.

Theorem C07_pointer64_all_but_one :
  forall W (E : env W) U cf c v n b i,
    env_ok E -> cf_bit cf = true -> u_spec U (MkTy c v (UPtr n)) = None -> u_x64 U = true ->
    instantiates U cf E i (MkTy c v (UPtr n)) ADefault b ->
    d_ssize (dec E i) = 8 /\
    exists s0, (s0 < 2 ^ 64)%N /\ N.odd s0 = true /\ ~ canonical 48 s0 /\ all_but_one E i 8 s0.
Proof.
  intros W E U cf c v n b i HE Hb Hs Hx H.
  destruct (unused_bits W U cf E i _ b Hb Hs eq_refl H) as (Hd & Hm). cbn in Hd, Hm.
  rewrite Hx in Hd, Hm.
  split; [rewrite Hd; reflexivity|]. exists sent_ptr64.
  split; [reflexivity|]. split; [reflexivity|].
  split; [|apply memcmp_all_but_one; auto; reflexivity].
  intros [Hc|(Hc & _)]; apply N.leb_le in Hc || apply N.ltb_lt in Hc; vm_compute in Hc; discriminate.
Qed.

(** In particular: the null pointer; everything a 48 bit system can address; user space
    with 57 bit addresses (bits 0-55); every pointer to an object with even address;
    and the special values used as handles on Windows (0 to 65535; -1 to -6). *)
Theorem C07_pointer64_values :
  forall W (E : env W) U cf c v n b i a,
    env_ok E -> cf_bit cf = true -> u_spec U (MkTy c v (UPtr n)) = None -> u_x64 U = true ->
    instantiates U cf E i (MkTy c v (UPtr n)) ADefault b ->
    (a < 2 ^ 64)%N ->
    a = 0%N \/ canonical 48 a \/ (a < 2 ^ 56)%N \/ N.even a = true \/ (a <= 65535)%N \/
    (2 ^ 64 - 6 <= a)%N ->
    engages E i (word 8 a).
Proof.
  intros W E U cf c v n b i a HE Hb Hs Hx H Ha Hv.
  destruct (unused_bits W U cf E i _ b Hb Hs eq_refl H) as (Hd & Hm). cbn in Hd, Hm.
  rewrite Hx in Hd, Hm.
  apply (memcmp_all_but_one W E i 8 sent_ptr64 HE Hd Hm eq_refl); [exact Ha|].
  intros ->. destruct Hv as [Hv|[[Hv|(Hv & _)]|[Hv|[Hv|[Hv|Hv]]]]];
    first [apply N.leb_le in Hv | apply N.ltb_lt in Hv | idtac]; vm_compute in Hv; discriminate.
Qed.

(** x86: 32 bit addresses. *)
Theorem C07_pointer32_all_but_one :
  forall W (E : env W) U cf c v n b i,
    env_ok E -> cf_bit cf = true -> u_spec U (MkTy c v (UPtr n)) = None -> u_x64 U = false ->
    instantiates U cf E i (MkTy c v (UPtr n)) ADefault b ->
    d_ssize (dec E i) = 4 /\
    exists s0, (s0 < 2 ^ 32)%N /\ N.odd s0 = true /\ all_but_one E i 4 s0.
Proof.
  intros W E U cf c v n b i HE Hb Hs Hx H.
  destruct (unused_bits W U cf E i _ b Hb Hs eq_refl H) as (Hd & Hm). cbn in Hd, Hm.
  rewrite Hx in Hd, Hm.
  split; [rewrite Hd; reflexivity|]. exists sent_ptr32.
  split; [reflexivity|]. split; [reflexivity|].
  apply memcmp_all_but_one; auto; reflexivity.
Qed.

(** User space ends below the last page; [2 ^ 32 - 6] is the handle -6. *)
Theorem C07_pointer32_values :
  forall W (E : env W) U cf c v n b i a,
    env_ok E -> cf_bit cf = true -> u_spec U (MkTy c v (UPtr n)) = None -> u_x64 U = false ->
    instantiates U cf E i (MkTy c v (UPtr n)) ADefault b ->
    (a < 2 ^ 32)%N ->
    a = 0%N \/ (a < 2 ^ 32 - 4096)%N \/ N.even a = true \/ (2 ^ 32 - 6 <= a)%N ->
    engages E i (word 4 a).
Proof.
  intros W E U cf c v n b i a HE Hb Hs Hx H Ha Hv.
  destruct (unused_bits W U cf E i _ b Hb Hs eq_refl H) as (Hd & Hm). cbn in Hd, Hm.
  rewrite Hx in Hd, Hm.
  apply (memcmp_all_but_one W E i 4 sent_ptr32 HE Hd Hm eq_refl); [exact Ha|].
  intros ->. destruct Hv as [Hv|[Hv|[Hv|Hv]]];
    first [apply N.leb_le in Hv | apply N.ltb_lt in Hv | idtac]; vm_compute in Hv; discriminate.
Qed.

(** ** C08 in terms of bit patterns *)

Lemma zero_parts f x :
  fmt_ok f -> (x < modulus (fm_bytes f))%N ->
  (exists s, f_value f x = S754_zero s) -> f_exp f x = 0%N /\ f_man f x = 0%N.
Proof.
  intros Hok Hx (s & H). unfold f_value in H.
  destruct (N.eqb_spec (f_exp f x) (max_exp f)) as [_|_].
  { destruct (f_man f x =? 0)%N; discriminate. }
  destruct (N.eqb_spec (f_exp f x) 0) as [E0|_].
  - split; [exact E0|]. destruct (f_man f x); [reflexivity|discriminate].
  - destruct (f_man f x + 2 ^ fm_man f)%N; discriminate.
Qed.

Lemma zeros f x y0 y1 :
  fmt_ok f -> (x < modulus (fm_bytes f))%N ->
  (y0 < modulus (fm_bytes f))%N -> (y1 < modulus (fm_bytes f))%N ->
  f_value f y0 = S754_zero false -> f_value f y1 = S754_zero true ->
  (exists s, f_value f x = S754_zero s) <-> x = y0 \/ x = y1.
Proof.
  intros Hok Hx H0 H1 V0 V1. split.
  - intros (s & H). destruct s; [right|left];
      (apply (f_value_inj f); auto; rewrite H; [discriminate|congruence]).
  - intros [-> | ->]; eauto.
Qed.

(** With the double sentinel [s]: NaN swallows nothing; a zero swallows both zeros; any
    other number swallows exactly its own pattern. *)
Theorem C08_double_patterns :
  forall s x,
    (s < 2 ^ 64)%N -> (x < 2 ^ 64)%N ->
    f_eqb binary64 x s = true <->
    is_nan binary64 s = false /\
    (x = s \/ (s = 0 \/ s = 2 ^ 63)%N /\ (x = 0 \/ x = 2 ^ 63)%N).
Proof.
  intros s x Hs Hx. rewrite (f_eqb_spec binary64 x s binary64_ok Hx Hs).
  pose proof (fun y Hy => zeros binary64 y 0 (2 ^ 63)%N binary64_ok Hy eq_refl eq_refl eq_refl eq_refl) as Z.
  pose proof (Z x Hx) as Zx. pose proof (Z s Hs) as Zs.
  split.
  - intros [(-> & N0)|B]; [auto|].
    destruct (f_value binary64 x) as [sx| | |] eqn:Ex; cbn in B; try contradiction.
    destruct (f_value binary64 s) as [ss| | |] eqn:Es; cbn in B; try contradiction.
    split; [|right; split; [apply Zs|apply Zx]; eauto].
    destruct (is_nan binary64 s) eqn:N0; [|reflexivity].
    apply (is_nan_value _ _ binary64_ok) in N0. congruence.
  - intros (N0 & [->|(Ss & Sx)]); [auto|]. right.
    apply Zs in Ss as (? & ->). apply Zx in Sx as (? & ->). exact I.
Qed.
Theorem C08_float_patterns :
  forall s x,
    (s < 2 ^ 32)%N -> (x < 2 ^ 32)%N ->
    f_eqb binary32 x s = true <->
    is_nan binary32 s = false /\
    (x = s \/ (s = 0 \/ s = 2 ^ 31)%N /\ (x = 0 \/ x = 2 ^ 31)%N).
Proof.
  intros s x Hs Hx. rewrite (f_eqb_spec binary32 x s binary32_ok Hx Hs).
  pose proof (fun y Hy => zeros binary32 y 0 (2 ^ 31)%N binary32_ok Hy eq_refl eq_refl eq_refl eq_refl) as Z.
  pose proof (Z x Hx) as Zx. pose proof (Z s Hs) as Zs.
  split.
  - intros [(-> & N0)|B]; [auto|].
    destruct (f_value binary32 x) as [sx| | |] eqn:Ex; cbn in B; try contradiction.
    destruct (f_value binary32 s) as [ss| | |] eqn:Es; cbn in B; try contradiction.
    split; [|right; split; [apply Zs|apply Zx]; eauto].
    destruct (is_nan binary32 s) eqn:N0; [|reflexivity].
    apply (is_nan_value _ _ binary32_ok) in N0. congruence.
  - intros (N0 & [->|(Ss & Sx)]); [auto|]. right.
    apply Zs in Ss as (? & ->). apply Zx in Sx as (? & ->). exact I.
Qed.

(** Bool, pointer and enumeration sentinels. *)
Theorem C08_bool_sentinel :
  forall W (E : env W) U cf c v s b i x,
    env_ok E -> instantiates U cf E i (MkTy c v UBool) (AVal (VBool s)) b ->
    (x <> s -> engages E i (bool_rep x)) /\ (x = s -> swallows E i (bool_rep x)).
Proof.
  intros W E U cf c v s b i x HE H.
  apply C32_selection_as_documented in H as (_ & H). inversion H as [| |? ? f Hv Hsf Ha Hb Hd Hf| | |].
  subst. unfold sentinel_for, assignment_manip in Hsf. cbn in Hsf. injection Hsf as Hsf.
  assert (M : m_is_empty (man E i) (word 1 (if x then 1 else 0)) = Some (Bool.eqb x s)).
  { rewrite <- Hsf. destruct x, s; reflexivity. }
  replace (bool_rep x) with (word 1 (if x then 1 else 0)%N) by (destruct x; reflexivity).
  split; intros Hxs; [apply scalar_engages|apply scalar_swallows]; auto; rewrite M;
    destruct x, s; try reflexivity; congruence.
Qed.
Theorem C08_pointer_sentinel :
  forall W (E : env W) U cf c v n a b i x,
    env_ok E -> (a < modulus (size_of U (UPtr n)))%N -> (x < modulus (size_of U (UPtr n)))%N ->
    instantiates U cf E i (MkTy c v (UPtr n)) (AVal (VPtr n a)) b \/
    a = 0%N /\ instantiates U cf E i (MkTy c v (UPtr n)) (AVal VNullptr) b ->
    (x <> a -> engages E i (word (size_of U (UPtr n)) x)) /\
    (x = a -> swallows E i (word (size_of U (UPtr n)) x)).
Proof.
  intros W E U cf c v n a b i x HE Ha Hx H.
  assert (dec E i = dec_inplace (size_of U (UPtr n)) /\ man E i = man_ptr_sentinel U a) as (Hd & Hm).
  { destruct H as [H|(-> & H)]; apply C32_selection_as_documented in H as (_ & H);
      inversion H as [| |? ? f Hv Hsf Ha' Hb Hd Hf| | |]; subst;
      unfold sentinel_for, assignment_manip in Hsf; cbn in Hsf; rewrite ?Nat.eqb_refl in Hsf;
      injection Hsf as Hsf; auto. }
  assert (M : m_is_empty (man E i) (word (size_of U (UPtr n)) x) = Some (N.eqb a x)).
  { rewrite Hm. cbn [man_ptr_sentinel man_assign m_is_empty]. unfold bytes_eqv.
    rewrite unword_word by exact Hx. reflexivity. }
  split; intros Hxa; [eapply scalar_engages|eapply scalar_swallows]; eauto; rewrite M; f_equal;
    [apply N.eqb_neq; auto|apply N.eqb_eq; auto].
Qed.
Theorem C08_enum_sentinel :
  forall W (E : env W) U cf c v n z b i x,
    env_ok E -> universe_ok U -> in_range (u_enum U n) z -> in_range (u_enum U n) x ->
    instantiates U cf E i (MkTy c v (UEnum n)) (AVal (VEnum n z)) b ->
    (x <> z -> engages E i (int_rep (u_enum U n) x)) /\
    (x = z -> swallows E i (int_rep (u_enum U n) x)).
Proof.
  intros W E U cf c v n z b i x HE HU Hz Hx H.
  apply C32_selection_as_documented in H as (_ & H). inversion H as [| |? ? f Hv Hs Ha Hb Hd Hf| | |].
  subst. unfold sentinel_for, assignment_manip in Hs. cbn in Hs. rewrite Nat.eqb_refl in Hs.
  injection Hs as Hs. pose proof (uo_enum U HU n) as Hn.
  assert (M : m_is_empty (man E i) (int_rep (u_enum U n) x) = Some (Z.eqb x z)).
  { rewrite <- Hs. cbn. unfold int_eqv, int_rep. rewrite unword_word by apply pattern_lt.
    rewrite value_pattern by assumption. reflexivity. }
  split; intros Hxz.
  - apply Z.eqb_neq in Hxz. rewrite Hxz in M. eapply scalar_engages; eauto.
  - apply Z.eqb_eq in Hxz. rewrite Hxz in M. eapply scalar_swallows; eauto.
Qed.

(** ** An environment with one optional of each kind *)

Definition ty_of (P : cvty) (a b : targ) : optty sworld_t :=
  match optional_type sample_universe default_config P a b with
  | Chosen d m => MkOptTy _ d m t_ops
  | Rejected _ => ty_dbl
  end.
(** Sentinels 0.0, 1.5f, 300, true, nullptr and the enumerator 7. *)
Definition scalar_args (i : nat) : cvty * targ :=
  match i with
  | 0 => (plain UDouble, ADefault)
  | 1 => (plain UFloat, ADefault)
  | 2 => (plain UBool, ADefault)
  | 3 => (MkTy true false (UPtr 0), ADefault)
  | 4 => (plain UDouble, AVal (VDouble 0))
  | 5 => (plain UFloat, AVal (VFloat 0x3fc00000))
  | 6 => (plain (UInt KUShort), AVal (VInt KInt 300))
  | 7 => (plain UBool, AVal (VBool true))
  | 8 => (plain (UPtr 0), AVal VNullptr)
  | _ => (plain (UEnum 0), AVal (VEnum 0 7))
  end.
Definition scalar_tys (i : nat) : optty sworld_t :=
  ty_of (fst (scalar_args i)) (snd (scalar_args i)) ADefault.
Definition scalar_env (dbg : bool) : env sworld_t := MkEnv _ scalar_tys (fun i => i) dbg.

Example scalar_instantiates dbg i :
  instantiates sample_universe default_config (scalar_env dbg) i
    (fst (scalar_args i)) (snd (scalar_args i)) ADefault.
Proof.
  assert (A : match optional_type sample_universe default_config (fst (scalar_args i))
                      (snd (scalar_args i)) ADefault with Chosen _ _ => true | Rejected _ => false end
              = true)
    by (do 10 (destruct i as [|i]; [vm_compute; reflexivity|]); vm_compute; reflexivity).
  unfold instantiates, dec, man, ty. cbn [e_tys e_tid scalar_env]. unfold scalar_tys, ty_of.
  destruct (optional_type _ _ _ _ _); [discriminate|reflexivity].
Qed.

Example scalar_env_ok dbg : env_ok (scalar_env dbg).
Proof.
  intros i. pose proof (scalar_instantiates dbg i) as H.
  assert (K : decomp_ok (ot_dec (scalar_tys i)) /\ manip_ok (ot_dec (scalar_tys i)) (ot_man (scalar_tys i))).
  { eapply selected_lawful with (5 := H); [apply sample_universe_ok| |exact I|].
    - do 10 (destruct i as [|i]; [vm_compute; auto; split; discriminate|]).
      vm_compute. split; discriminate.
    - do 10 (destruct i as [|i]; [vm_compute; auto|]). vm_compute. auto. }
  split; [apply K|apply K|]. cbn. unfold scalar_tys, ty_of.
  destruct (optional_type _ _ _ _ _); apply t_ops_ok.
Qed.

(** The theorems apply to it, and the hypotheses of [engages] are met. *)
Example C04_example dbg : engages (scalar_env dbg) 0 (word 8 0xfff8000000000000).
Proof.
  apply (C04_double_values _ (scalar_env dbg) sample_universe default_config false false ADefault 0);
    auto using scalar_env_ok. apply (scalar_instantiates dbg 0). reflexivity.
Qed.
(** 2^1023 is a binary64 number, 2^-149 the smallest positive binary32 number. *)
Example C04_number_example :
  valid_binary 53 1024 (S754_finite false 4503599627370496 971) = true /\
  f_value binary64 0x7fe0000000000000 = S754_finite false 4503599627370496 971.
Proof. split; vm_compute; reflexivity. Qed.
Example C05_number_example :
  valid_binary 24 128 (S754_finite true 1 (-149)) = true /\
  f_value binary32 0x80000001 = S754_finite true 1 (-149).
Proof. split; vm_compute; reflexivity. Qed.
Example C05_example dbg : engages (scalar_env dbg) 1 (word 4 0x80000000).
Proof.
  apply (C05_float_values _ (scalar_env dbg) sample_universe default_config false false ADefault 1);
    auto using scalar_env_ok. apply (scalar_instantiates dbg 1). reflexivity.
Qed.
Example C06_example dbg :
  instantiates sample_universe default_config (scalar_env dbg) 2 (plain UBool) ADefault ADefault /\
  stores (scalar_env dbg) quiet [ODefault 2; OEmplace 2 (mkBits 1 1)] 2 (bool_rep false)
         (OAssign 2 (setBits 1 0)).
Proof.
  split; [apply (scalar_instantiates dbg 2)|]. eapply st_assign.
  - split; [split; [reflexivity|split; [reflexivity|intros; reflexivity]]|]. intros. split; reflexivity.
  - ex_opt.
Qed.
Example C07_example dbg : engages (scalar_env dbg) 3 (word 8 0xffffffffffffffff).
Proof.
  apply (C07_pointer64_values _ (scalar_env dbg) sample_universe default_config true false 0 ADefault 3);
    auto using scalar_env_ok; try reflexivity.
  - do 5 right. vm_compute. discriminate.
Qed.
(** Sentinel 0.0 swallows -0.0. *)
Example C08_example dbg : swallows (scalar_env dbg) 4 (word 8 0x8000000000000000).
Proof.
  apply (C08_double_sentinel _ (scalar_env dbg) sample_universe default_config false false 0 ADefault 4);
    auto using scalar_env_ok; try reflexivity.
Qed.
