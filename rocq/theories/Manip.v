(** * Manip: the storage strategies of the library

    The three decompositions and the flag manipulators of optional.h, at the level
    of bytes, with the sentinel constants. *)

From Coq Require Import List NArith ZArith Bool Arith Lia.
From Verif Require Import Cells CellsFacts Machine Laws Bits.
Import ListNotations.

(** ** Decompositions *)

(** Smallest multiple of [a] that is at least [n]: padding at the end of a struct. *)
Definition round_up (n a : nat) : nat := ((n + a - 1) / a) * a.

(** SeparateFlagStorage and DecompositionForSeparateFlag (optional.h:516-528,
    572-587): the payload followed by a bool.  [psize], [align]: sizeof and alignof
    the payload.  [sizeof(bool) == 1] is assumed (x86/x64 ABIs). *)
Definition dec_separate (psize align : nat) : decomp :=
  MkDecomp (round_up (psize + 1) align) psize psize 1 true.

(** InplaceStorage and InplaceStoredTypeDecomposition (optional.h:532-544,
    593-608): the flag is the payload. *)
Definition dec_inplace (psize : nat) : decomp := MkDecomp psize psize 0 psize false.

(** InplaceDecompositionViaMemPtr (optional.h:623-646): the flag is the member at
    offset [off] with size [msize].  The undefined behaviour noted at
    optional.h:617-622 (applying a member pointer to a non-existing object) is
    given the meaning "address arithmetic", as the authors intend. *)
Definition dec_member (psize off msize : nat) : decomp := MkDecomp psize psize off msize false.

(** ** Flag manipulators *)

(** SeparateFlagManipulator (optional.h:680-701).  Reading a bool whose byte is
    neither 0 nor 1, or indeterminate, is undefined. *)
Definition man_separate : manip :=
  MkManip
    (fun c => match c with
              | [Byte 0%N] => Some false
              | [Byte 1%N] => Some true
              | _ => None
              end)
    (fun _ => [Byte 1%N])
    (fun _ => [Byte 0%N]).

(** MemcpyAndCmpFlagManipulator (optional.h:709-759) for the sentinel bytes
    [sent]: memcmp (727-735), memcpy (737-748), destructor of the flag (750-758). *)
Definition man_memcmp (sent : list N) : manip :=
  MkManip
    (fun c => match unbytes (firstn (length sent) c) with
              | Some l => Some (bytes_eqb l sent)
              | None => None
              end)
    (fun c => map Byte sent ++ skipn (length sent) c)
    (fun c => indets (length c)).

(** AssignmentFlagManipulator (optional.h:765-850) for a flag type whose sentinel
    [valueToIndicateEmpty] has the representation [enc] and whose
    [isEmptyFlag == valueToIndicateEmpty] is [eqv] (818-830); placement new
    (832-842); destructor (844-849). *)
Definition man_assign (enc : rep) (eqv : rep -> option bool) : manip :=
  MkManip eqv (fun _ => enc) (fun c => indets (length c)).

(** [flag == sentinel] for an integral flag type, both of type [t]
    (optional.h:829 after the conversion of 775-812). *)
Definition int_eqv (t : ity) (z : Z) (c : rep) : option bool :=
  match unword c with Some x => Some (Z.eqb (value_of t x) z) | None => None end.
(** The same for a floating point flag type; [s] is the sentinel's bit pattern. *)
Definition float_eqv (f : fmt) (s : N) (c : rep) : option bool :=
  match unword c with Some x => Some (f_eqb f x s) | None => None end.
(** The same for bool; reading an invalid bool is undefined. *)
Definition bool_eqv (b : bool) (c : rep) : option bool :=
  match c with
  | [Byte 0%N] => Some (negb b)
  | [Byte 1%N] => Some b
  | _ => None
  end.

Definition man_int (t : ity) (z : Z) : manip := man_assign (int_rep t z) (int_eqv t z).
Definition man_float (f : fmt) (s : N) : manip :=
  man_assign (word (fm_bytes f) s) (float_eqv f s).
Definition man_bool_sentinel (b : bool) : manip :=
  man_assign [Byte (if b then 1 else 0)%N] (bool_eqv b).

(** sentinel_flag_manipulator<PayloadType, SentinelValue> (optional.h:230-247).
    [payload == SentinelValue] compares two possibly different integral types
    after the usual arithmetic conversions; no range check is made. *)
Definition int_type : ity := MkIty 4 true.
(** Integral promotion. *)
Definition promote (t : ity) : ity := if Nat.ltb (it_bytes t) 4 then int_type else t.
(** Usual arithmetic conversions of two promoted types. *)
Definition common (a b : ity) : ity :=
  if Bool.eqb (it_signed a) (it_signed b)
  then (if Nat.leb (it_bytes b) (it_bytes a) then a else b)
  else
    let (u, s) := if it_signed a then (b, a) else (a, b) in
    if Nat.leb (it_bytes s) (it_bytes u) then u else s.
(** Conversion of a value to an integral type: modulo. *)
Definition conv (t : ity) (z : Z) : Z := value_of t (pattern t z).
(** [x == y] for a value [x] of type [a] and [y] of type [b]. *)
Definition cpp_eq (a b : ity) (x y : Z) : bool :=
  let c := common (promote a) (promote b) in Z.eqb (conv c x) (conv c y).
Definition man_sentinel (t ts : ity) (s : Z) : manip :=
  MkManip
    (fun c => match unword c with
              | Some x => Some (cpp_eq t ts (value_of t x) s)
              | None => None
              end)
    (fun _ => int_rep t (conv t s))
    (fun c => indets (length c)).

(** ** Sentinel constants (optional.h:419-507) *)
Definition sent_bool : N := 0xfe.                       (* line 426 *)
Definition sent_double : N := 0x7ff8fedcba987654.       (* line 437 *)
Definition sent_float : N := 0x7fedcba9.                (* line 451 *)
Definition sent_ptr64 : N := 0xffff800000000000 - 1.    (* line 492 *)
Definition sent_ptr32 : N := 0xffffffff - 8.            (* line 497 *)

(** optional_flag_manipulator for bool, double, float, pointers
    (optional.h:883-889). *)
Definition man_bool : manip := man_memcmp (bytes_le 1 sent_bool).
Definition man_double : manip := man_memcmp (bytes_le 8 sent_double).
Definition man_float_bits : manip := man_memcmp (bytes_le 4 sent_float).
Definition man_ptr64 : manip := man_memcmp (bytes_le 8 sent_ptr64).
Definition man_ptr32 : manip := man_memcmp (bytes_le 4 sent_ptr32).

(** ** They are lawful *)

Lemma round_up_ge n a : 0 < a -> n <= round_up n a.
Proof.
  intros H. unfold round_up. pose proof (Nat.div_mod (n + a - 1) a ltac:(lia)).
  pose proof (Nat.mod_upper_bound (n + a - 1) a ltac:(lia)). nia.
Qed.

Lemma dec_separate_ok psize align : 0 < align -> decomp_ok (dec_separate psize align).
Proof.
  intros H. pose proof (round_up_ge (psize + 1) align H).
  split; cbn; intros; try discriminate; lia.
Qed.
Lemma dec_inplace_ok psize : decomp_ok (dec_inplace psize).
Proof. split; cbn; intros; try discriminate; lia. Qed.
Lemma dec_member_ok psize off msize : off + msize <= psize -> decomp_ok (dec_member psize off msize).
Proof. intros H. split; cbn; intros; try discriminate; lia. Qed.

Lemma man_separate_ok psize align : manip_ok (dec_separate psize align) man_separate.
Proof. split; cbn; reflexivity. Qed.

Lemma man_memcmp_ok D sent :
  d_sep D = false -> length sent <= d_fsize D -> manip_ok D (man_memcmp sent).
Proof.
  intros Sep L. split; cbn; intros c Lc.
  - rewrite app_length, map_length, skipn_length. lia.
  - rewrite length_indets. exact Lc.
  - rewrite <- (map_length Byte sent) at 1. rewrite firstn_app, firstn_all, Nat.sub_diag, app_nil_r.
    rewrite unbytes_map. f_equal. apply bytes_eqb_eq. reflexivity.
  - congruence.
Qed.

Lemma man_assign_ok D enc eqv :
  d_sep D = false -> length enc = d_fsize D -> eqv enc = Some true ->
  manip_ok D (man_assign enc eqv).
Proof.
  intros Sep L H. split; cbn; intros c Lc; auto.
  - rewrite length_indets. exact Lc.
  - congruence.
Qed.

Lemma int_eqv_self t z : (0 < it_bytes t) -> in_range t z -> int_eqv t z (int_rep t z) = Some true.
Proof.
  intros Hb H. unfold int_eqv, int_rep. rewrite unword_word by apply pattern_lt.
  rewrite value_pattern by assumption. rewrite Z.eqb_refl. reflexivity.
Qed.
Lemma man_int_ok D t z :
  d_sep D = false -> d_fsize D = it_bytes t -> 0 < it_bytes t -> in_range t z ->
  manip_ok D (man_int t z).
Proof.
  intros Sep L Hb H. apply man_assign_ok; auto.
  - unfold int_rep. rewrite length_word. congruence.
  - apply int_eqv_self; assumption.
Qed.

Lemma float_eqv_self f s :
  fmt_ok f -> (s < modulus (fm_bytes f))%N ->
  float_eqv f s (word (fm_bytes f) s) = Some (negb (is_nan f s)).
Proof.
  intros Hf H. unfold float_eqv. rewrite unword_word by exact H. f_equal.
  destruct (is_nan f s) eqn:N0; cbn.
  - destruct (f_eqb f s s) eqn:Eq; [|reflexivity].
    apply (f_eqb_spec f s s Hf H H) in Eq as [(_ & ?)|Z]; [congruence|].
    apply (is_nan_value f s Hf) in N0. rewrite N0 in Z. contradiction.
  - apply (f_eqb_spec f s s Hf H H). auto.
Qed.
Lemma man_float_ok D f s :
  d_sep D = false -> d_fsize D = fm_bytes f -> fmt_ok f -> (s < modulus (fm_bytes f))%N ->
  is_nan f s = false -> manip_ok D (man_float f s).
Proof.
  intros Sep L Hf H Hn. apply man_assign_ok; auto.
  - rewrite length_word. congruence.
  - rewrite float_eqv_self by assumption. rewrite Hn. reflexivity.
Qed.
Lemma man_bool_sentinel_ok D b :
  d_sep D = false -> d_fsize D = 1 -> manip_ok D (man_bool_sentinel b).
Proof.
  intros Sep L. apply man_assign_ok; auto; destruct b; reflexivity.
Qed.
