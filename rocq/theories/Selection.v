(** * Selection: properties of the choice of the storage strategy

    C32 (selection), C33 (sizes), C35 (sentinel conversion), C36 (optional_aip), C48
    (third template argument). *)

From Coq Require Import List NArith ZArith Bool Arith Lia.
From Coq Require Import Floats.SpecFloat.
From Verif Require Import Cells CellsFacts Machine Laws Bits Manip IntRange Select.
Import ListNotations.
Local Arguments cvty_eqb : simpl never.

(** ** Well-formed universes and constants (facts about C++, not about the library) *)

Record universe_ok (U : universe) : Prop := {
  uo_int : forall k, 0 < it_bytes (u_int U k);
  uo_enum : forall n, 0 < it_bytes (u_enum U n);
  uo_align : forall t, 0 < u_align U t;
  (* users' flag manipulators and conversions are lawful *)
  uo_spec : forall t f D, u_spec U t = Some f -> d_sep D = false ->
                          d_fsize D = size_of U (base t) -> manip_ok D f;
  uo_conv : forall t v enc eqv, u_conv U t v = Some (enc, eqv) ->
                                length enc = u_size U t /\ eqv enc = Some true;
  (* the integral types of the x86 and x64 platforms *)
  uo_short : u_int U KShort = MkIty 2 true /\ u_int U KUShort = MkIty 2 false;
  uo_intt : u_int U KInt = MkIty 4 true /\ u_int U KUInt = MkIty 4 false;
  uo_long : exists n, u_int U KLong = MkIty n true /\ u_int U KULong = MkIty n false;
  uo_llong : u_int U KLLong = MkIty 8 true /\ u_int U KULLong = MkIty 8 false
}.

(** A constant is a value of its type; a member lies inside its class. *)
Definition const_ok (U : universe) (v : const) : Prop :=
  match v with
  | VInt k z => in_range (u_int U k) z
  | VFloat x => (x < modulus 4)%N
  | VDouble x => (x < modulus 8)%N
  | VLongDouble r => length r = u_ldouble U
  | VPtr _ a => (a < modulus (if u_x64 U then 8 else 4))%N
  | VEnum n z => in_range (u_enum U n) z
  | VMemObj c t (Some off) => off + size_of U (base t) <= size_of U c
  | _ => True
  end.
Definition targ_ok (U : universe) (a : targ) : Prop :=
  match a with ADefault => True | AVal v => const_ok U v end.

(** The sentinel is NaN (or a long double that differs from itself). *)
Definition is_nan_const (U : universe) (v : const) : bool :=
  match v with
  | VFloat x => is_nan binary32 x
  | VDouble x => is_nan binary64 x
  | VLongDouble r => match u_ld_eq U r r with Some true => false | _ => true end
  | _ => false
  end.
Definition no_nan (U : universe) (a : targ) : Prop :=
  match a with ADefault => True | AVal v => is_nan_const U v = false end.

(** ** C32: exactly one strategy *)

Ltac all_cases :=
  repeat match goal with
         | |- context [match ?x with _ => _ end] => destruct x eqn:?
         end.

(** For all template arguments at most one partial specialization matches; none
    matches only if the third argument of optional_sentinel_via_type is neither
    defaulted nor a member object pointer. *)
Theorem C32_never_ambiguous :
  forall U cf P S m,
    (exists s, filter (matches U cf P S m) specs = [s]) \/
    (filter (matches U cf P S m) specs = [] /\ m <> ADefault /\ is_member_object_pointer m = false).
Proof.
  intros U cf P S m. unfold specs, filter, matches.
  destruct S as [|v], m as [|m]; cbn [is_default andb negb is_member_object_pointer mem_var].
  - left. destruct (has_custom U cf P); cbn; eauto.
  - destruct m as [| | | | | | | | |c t off|];
      try (right; split; [reflexivity|split; [discriminate|reflexivity]]).
    left. cbn. destruct (has_custom U cf t); cbn; eauto.
  - left. destruct (has_custom U cf P); cbn; eauto.
  - destruct m as [| | | | | | | | |c t off|];
      try (right; split; [reflexivity|split; [discriminate|reflexivity]]).
    left. cbn. destruct (has_custom U cf t); cbn; eauto.
Qed.

(** For [optional] and [optional_aip] always exactly one matches: *)
Theorem C32_optional_matches_one :
  forall U cf P a b,
    let (S, m) := sentinel_and_mem_ptr a b in
    exists s, filter (matches U cf P S m) specs = [s].
Proof.
  intros U cf P a b. destruct (sentinel_and_mem_ptr a b) as [S m] eqn:H.
  destruct (C32_never_ambiguous U cf P S m) as [?|(_ & H1 & H2)]; [assumption|exfalso].
  unfold sentinel_and_mem_ptr in H. destruct (is_member_object_pointer a) eqn:Ha.
  - injection H as <- <-. congruence.
  - injection H as <- <-. congruence.
Qed.

(** What no optional may contain (std::optional neither: [optional.optional.general]): the
    tags, arrays and types without destructor are rejected under every name of the
    library and for all arguments. *)
Theorem C32_bad_payloads_rejected :
  forall U cf P,
    base P = UNullopt \/ base P = UInPlace \/ (exists t, base P = UArray t) \/
    u_destructible U (base P) = false ->
    forall o,
      (exists S m, o = optional_sentinel_via_type U cf P S m) \/
      (exists a b, o = optional_type U cf P a b) \/
      (exists f, o = optional_inplace_type U P f) \/
      o = optional_aip_default U cf P \/ (exists a, o = optional_aip U cf P a) ->
    exists r, o = Rejected r.
Proof.
  intros U cf P HP.
  assert (HV : valid_payload U P = false).
  { unfold valid_payload. destruct HP as [->|[->|[(t & ->)|Hd]]]; try reflexivity.
    destruct (base P); try reflexivity; exact Hd. }
  assert (H1 : forall S m, exists r, optional_sentinel_via_type U cf P S m = Rejected r).
  { intros S m. unfold optional_sentinel_via_type. rewrite HV.
    destruct (select_decomposition U cf P S m); eauto. }
  assert (H2 : forall a b, exists r, optional_type U cf P a b = Rejected r).
  { intros a b. unfold optional_type. destruct (sentinel_and_mem_ptr a b). apply H1. }
  intros o [(S & m & ->)|[(a & b & ->)|[(f & ->)|[->|(a & ->)]]]]; auto.
  - unfold optional_inplace_type. rewrite HV. eauto.
  - unfold optional_aip_default. destruct (has_custom U cf P); auto.
    destruct (swallowing_default U (base P)); eauto.
  - unfold optional_aip. auto.
Qed.

(** The documented meaning of [optional<P, a, b>] (README 156-330): which
    combinations are accepted and how they store the flag. *)
Section Documented.
  Variable U : universe.
  Variable cf : config.

  (** [v] can serve as empty value of a flag of type [t], with manipulator [f]. *)
  Definition sentinel_for (t : uty) (v : const) (f : manip) : Prop :=
    assignment_manip U t v = Some f.

  Inductive documented (P : cvty) : targ -> targ -> decomp -> manip -> Prop :=
  (* optional<P>: no unused bits and no user supplied manipulator *)
  | doc_std b :
      flag_manipulator U cf P = None ->
      documented P ADefault b (dec_separate (size_of U (base P)) (u_align U (base P))) man_separate
  (* optional<P> with known unused bit patterns, or manipulator of the user *)
  | doc_custom b f :
      flag_manipulator U cf P = Some f ->
      documented P ADefault b (dec_inplace (size_of U (base P))) f
  (* optional<P, sentinel> *)
  | doc_sentinel v b f :
      is_member_object_pointer (AVal v) = false ->
      sentinel_for (base P) v f ->
      documented P (AVal v) b (dec_inplace (size_of U (base P))) f
  (* optional<P, &P::member> *)
  | doc_member c t off f :
      cf_mem cf = true -> P = plain c -> flag_manipulator U cf t = Some f ->
      documented P (AVal (VMemObj c t (Some off))) ADefault
                 (dec_member (size_of U (base P)) off (size_of U (base t))) f
  (* optional<P, &P::member, sentinel> *)
  | doc_member_sentinel c t off v f :
      cf_mem cf = true -> P = plain c -> sentinel_for (base t) v f ->
      documented P (AVal (VMemObj c t (Some off))) (AVal v)
                 (dec_member (size_of U (base P)) off (size_of U (base t))) f
  (* storing the flag in members is disabled *)
  | doc_member_disabled c t off b :
      cf_mem cf = false -> P = plain c ->
      documented P (AVal (VMemObj c t off)) b
                 (dec_separate (size_of U (base P)) (u_align U (base P))) man_separate.
End Documented.

Lemma ikind_eqb_eq a b : ikind_eqb a b = true <-> a = b.
Proof. destruct a, b; cbn; split; congruence. Qed.
Lemma uty_eqb_eq a b : uty_eqb a b = true <-> a = b.
Proof.
  destruct a, b; cbn; try (split; congruence).
  - rewrite ikind_eqb_eq. split; congruence.
  - rewrite Nat.eqb_eq. split; congruence.
  - rewrite Nat.eqb_eq. split; congruence.
  - rewrite Nat.eqb_eq. split; congruence.
  - rewrite Nat.eqb_eq. split; congruence.
  - rewrite Nat.eqb_eq. split; congruence.
Qed.
Lemma cvty_eqb_eq a b : cvty_eqb a b = true <-> a = b.
Proof.
  destruct a as [c v t], b as [c' v' t']. unfold cvty_eqb. cbn.
  rewrite !andb_true_iff, uty_eqb_eq, !Bool.eqb_true_iff. split; [intros ((-> & ->) & ->); auto|].
  intros [= -> -> ->]. auto.
Qed.
Lemma cvty_eqb_refl a : cvty_eqb a a = true.
Proof. apply cvty_eqb_eq. reflexivity. Qed.

(** The library accepts exactly the documented combinations with exactly the
    documented strategy. *)
Theorem C32_selection_as_documented :
  forall U cf P a b d f,
    optional_type U cf P a b = Chosen d f <->
    valid_payload U P = true /\ documented U cf P a b d f.
Proof.
  intros U cf P a b d f. unfold optional_type, sentinel_and_mem_ptr, optional_sentinel_via_type.
  split.
  - intros H.
    assert (valid_payload U P = true) as HP.
    { destruct (is_member_object_pointer a);
        destruct (select_decomposition _ _ _ _ _); try discriminate;
        destruct (valid_payload U P); congruence. }
    split; [exact HP|]. rewrite HP in H. unfold select_decomposition, specs, filter, matches in H.
    destruct a as [|v]; cbn [is_member_object_pointer] in H.
    + cbn [is_default andb negb mem_var] in H. unfold has_custom in H.
      destruct (flag_manipulator U cf P) as [g|] eqn:Hg; cbn in H.
      * unfold use_manipulator in H. rewrite Hg in H. injection H as <- <-. apply doc_custom, Hg.
      * injection H as <- <-. apply doc_std, Hg.
    + destruct (match v with VMemObj _ _ _ => true | _ => false end) eqn:Hv.
      * destruct v as [| | | | | | | | |c t off|]; try discriminate. clear Hv.
        assert (H' : exists k, (if_member P (AVal (VMemObj c t off)) k = Chosen d f /\
             ((cf_mem cf = false /\ k = Chosen (separate U P) man_separate) \/
              (cf_mem cf = true /\
               match b with
               | ADefault => k = via_mem_ptr U P (AVal (VMemObj c t off)) (use_manipulator U cf)
               | AVal s => k = via_mem_ptr U P (AVal (VMemObj c t off))
                                 (fun d v => with_sentinel U d v (AVal s))
               end)))).
        { destruct b as [|s]; cbn [is_default andb negb mem_var is_member_object_pointer] in H;
            destruct (has_custom U cf t) eqn:Hc; cbn -[if_member via_mem_ptr separate] in H;
            destruct (cf_mem cf) eqn:Hm;
            try discriminate;
            match type of H with
            | context [if_member P ?m ?k] => exists k; split;
                [destruct (if_member P m k); [discriminate|exact H]|]
            end; auto. }
        clear H. destruct H' as (k & H & K). unfold if_member in H. cbn [mem_class] in H.
        destruct (cvty_eqb P (plain c)) eqn:Ec; [|discriminate]. apply cvty_eqb_eq in Ec.
        destruct K as [(Hm & ->)|(Hm & K)].
        { injection H as <- <-. apply doc_member_disabled; assumption. }
        destruct b as [|s]; rewrite K in H; unfold via_mem_ptr in H; destruct off as [off|]; try discriminate.
        { unfold use_manipulator in H. destruct (flag_manipulator U cf t) as [g|] eqn:Hg; [|discriminate].
          injection H as <- <-. apply doc_member; assumption. }
        { unfold with_sentinel in H. destruct (assignment_manip U (base t) s) as [g|] eqn:Hg;
            [|discriminate].
          injection H as <- <-. apply doc_member_sentinel; assumption. }
      * assert (is_member_object_pointer (AVal v) = false) as Hv' by (destruct v; auto).
        replace (match v with VMemObj _ _ _ => true | _ => false end) with false in H.
        cbn [is_default andb negb mem_var] in H.
        destruct (has_custom U cf P) eqn:Hc; cbn in H;
          destruct (assignment_manip U (base P) v) as [g|] eqn:Hg; try discriminate;
          injection H as <- <-; apply doc_sentinel; assumption.
  - intros (HP & D). rewrite HP.
    assert (K : forall x, x = Chosen d f ->
              match x with Chosen d0 f0 => Chosen d0 f0 | Rejected r => Rejected r end = Chosen d f).
    { intros x ->. reflexivity. }
    destruct D as [b Hf|b g Hf|v b g Hv Hf|c t off g Hm -> Hf|c t off v g Hm -> Hf|c t off b Hm ->];
      unfold select_decomposition, specs, filter, matches, has_custom.
    + cbn. rewrite Hf. reflexivity.
    + cbn. rewrite Hf. cbn. unfold use_manipulator. rewrite Hf. reflexivity.
    + rewrite Hv. unfold sentinel_for in Hf. cbn [is_default andb negb mem_var].
      destruct (flag_manipulator U cf P); cbn; rewrite Hf; reflexivity.
    + cbn. rewrite Hf. cbn. unfold if_member. cbn. rewrite cvty_eqb_refl, Hm.
      unfold use_manipulator. rewrite Hf. reflexivity.
    + unfold sentinel_for in Hf. cbn. destruct (flag_manipulator U cf t); cbn; unfold if_member;
        cbn; rewrite cvty_eqb_refl, Hm, Hf; reflexivity.
    + destruct b as [|s]; cbn; destruct (flag_manipulator U cf t); cbn; rewrite ?Hm;
        unfold if_member; cbn; rewrite cvty_eqb_refl, ?Hm; reflexivity.
Qed.

(** Which manipulator [optional<P>] gets (README 98-127, 399-472): the user's if there is one
    for exactly this type; otherwise, unless the tricks with unused bits are switched off, the
    special values of bool, float, double and pointers (qualifiers do not matter). *)
Inductive manipulator_for (U : universe) (cf : config) : cvty -> manip -> Prop :=
| mf_user t f : u_spec U t = Some f -> manipulator_for U cf t f
| mf_bool c v :
    u_spec U (MkTy c v UBool) = None -> cf_bit cf = true ->
    manipulator_for U cf (MkTy c v UBool) (man_memcmp (bytes_le 1 0xfe))
| mf_float c v :
    u_spec U (MkTy c v UFloat) = None -> cf_bit cf = true ->
    manipulator_for U cf (MkTy c v UFloat) (man_memcmp (bytes_le 4 0x7fedcba9))
| mf_double c v :
    u_spec U (MkTy c v UDouble) = None -> cf_bit cf = true ->
    manipulator_for U cf (MkTy c v UDouble) (man_memcmp (bytes_le 8 0x7ff8fedcba987654))
| mf_pointer64 c v n :
    u_spec U (MkTy c v (UPtr n)) = None -> cf_bit cf = true -> u_x64 U = true ->
    manipulator_for U cf (MkTy c v (UPtr n)) (man_memcmp (bytes_le 8 0xffff7fffffffffff))
| mf_pointer32 c v n :
    u_spec U (MkTy c v (UPtr n)) = None -> cf_bit cf = true -> u_x64 U = false ->
    manipulator_for U cf (MkTy c v (UPtr n)) (man_memcmp (bytes_le 4 0xfffffff7)).

Theorem C32_default_manipulator :
  forall U cf P b d f,
    optional_type U cf P ADefault b = Chosen d f <->
    valid_payload U P = true /\
    ((manipulator_for U cf P f /\ d = dec_inplace (size_of U (base P))) \/
     ((forall g, ~ manipulator_for U cf P g) /\ f = man_separate /\
      d = dec_separate (size_of U (base P)) (u_align U (base P)))).
Proof.
  intros U cf P b d f. rewrite C32_selection_as_documented.
  assert (K : forall g, flag_manipulator U cf P = Some g <-> manipulator_for U cf P g).
  { intros g. split.
    - unfold flag_manipulator. destruct (u_spec U P) as [m|] eqn:Hs.
      + intros [= <-]. apply mf_user, Hs.
      + unfold sentinel_known. destruct (cf_bit cf) eqn:Hb; [|discriminate].
        destruct P as [c v t]. cbn [base]. destruct t; cbn; try discriminate.
        * intros [= <-]. apply mf_bool; assumption.
        * intros [= <-]. apply mf_float; assumption.
        * intros [= <-]. apply mf_double; assumption.
        * destruct (u_x64 U) eqn:X; intros [= <-].
          -- apply mf_pointer64; assumption.
          -- apply mf_pointer32; assumption.
    - intros H. unfold flag_manipulator, sentinel_known.
      destruct H as [t f0 H|c v H Hb|c v H Hb|c v H Hb|c v n H Hb X|c v n H Hb X];
        rewrite H; [reflexivity| | | | |]; rewrite Hb; cbn; try rewrite X; reflexivity. }
  assert (N : flag_manipulator U cf P = None <-> forall g, ~ manipulator_for U cf P g).
  { destruct (flag_manipulator U cf P) as [g|] eqn:F.
    - split; [discriminate|]. intros H. destruct (H g). apply K. reflexivity.
    - split; [|reflexivity]. intros _ g H. apply K in H. discriminate. }
  split; intros (HP & H); (split; [exact HP|]).
  - inversion H; subst.
    + right. split; [apply N; assumption|split; reflexivity].
    + left. split; [apply K; assumption|reflexivity].
  - destruct H as [(H & ->)|(H & -> & ->)].
    + apply doc_custom, K, H.
    + apply doc_std, N, H.
Qed.

(** Which constants are accepted as sentinel of a flag of type [t] (optional.h:769-812): bool
    and floating point types only of the same type, integers if their value is one of [t],
    pointers of the same type and nullptr, enumerators of the same type, enumerators of
    unscoped enumerations for integers, and what a class can be converted from. *)
Inductive accepts (U : universe) : uty -> const -> Prop :=
| ac_bool b : accepts U UBool (VBool b)
| ac_int k l z : in_range (u_int U k) z -> accepts U (UInt k) (VInt l z)
| ac_float x : accepts U UFloat (VFloat x)
| ac_double x : accepts U UDouble (VDouble x)
| ac_long r : accepts U ULongDouble (VLongDouble r)
| ac_null n : accepts U (UPtr n) VNullptr
| ac_ptr n a : accepts U (UPtr n) (VPtr n a)
| ac_enum n z : accepts U (UEnum n) (VEnum n z)
| ac_enumerator k n z : u_scoped U n = false -> accepts U (UInt k) (VEnum n z)
| ac_class n v :
    is_bool (type_of v) = false -> is_floating (type_of v) = false ->
    u_conv U (UClass n) v <> None -> accepts U (UClass n) v
| ac_other n v :
    is_bool (type_of v) = false -> is_floating (type_of v) = false ->
    u_conv U (UOther n) v <> None -> accepts U (UOther n) v.

Lemma assignment_accepts U t v :
  universe_ok U -> const_ok U v ->
  (exists f, assignment_manip U t v = Some f) <-> accepts U t v.
Proof.
  intros HU Hv.
  unfold assignment_manip, implicit_convert. split.
  - intros (f & H). destruct t, v; cbn in H; try discriminate; try (constructor; fail);
      try (destruct (u_conv U _ _) eqn:C; [|discriminate];
           constructor; [reflexivity|reflexivity|rewrite C; discriminate]).
    + destruct (is_integral_in_range _ _ _) eqn:R; [|discriminate]. constructor.
      eapply C34_range_check_exact; [apply uo_int, HU|apply (uo_int U HU k0)|exact Hv|exact R].
    + destruct (u_scoped U n) eqn:Sc; [discriminate|]. constructor. exact Sc.
    + destruct (Nat.eqb_spec n n0) as [<-|]; [|discriminate]. constructor.
    + destruct (Nat.eqb_spec n n0) as [<-|]; [|discriminate]. constructor.
  - intros H. destruct H; cbn; try rewrite Nat.eqb_refl; eauto.
    + destruct (C34_range_check_exact (u_int U k) (u_int U l) z) as (Q & _);
        try apply uo_int; auto. rewrite (proj2 Q H). eauto.
    + rewrite H. eauto.
    + rewrite H, H0. cbn. destruct (u_conv U _ _) as [[e q]|]; [eauto|congruence].
    + rewrite H, H0. cbn. destruct (u_conv U _ _) as [[e q]|]; [eauto|congruence].
Qed.

Theorem C32_sentinels_accepted :
  forall U cf P v b,
    universe_ok U -> const_ok U v -> valid_payload U P = true ->
    is_member_object_pointer (AVal v) = false ->
    ((exists d f, optional_type U cf P (AVal v) b = Chosen d f) <-> accepts U (base P) v).
Proof.
  intros U cf P v b HU Hv HP Hm.
  pose proof (assignment_accepts U (base P) v HU Hv) as K.
  rewrite <- K. split.
  - intros (d & f & H). apply C32_selection_as_documented in H as (_ & H).
    inversion H; subst; try discriminate. eauto.
  - intros (f & H). eexists _, f. apply C32_selection_as_documented. split; [exact HP|].
    apply doc_sentinel; assumption.
Qed.

(** A concrete x64 universe with a class 0 of 16 bytes whose first member is a
    double and whose second is an int. *)
Definition sample_universe : universe :=
  MkUniverse true
    (fun k => match k with
              | KChar | KSChar => MkIty 1 true
              | KUChar | KChar8 => MkIty 1 false
              | KShort => MkIty 2 true
              | KUShort | KChar16 => MkIty 2 false
              | KInt | KWChar => MkIty 4 true
              | KUInt | KChar32 => MkIty 4 false
              | KLong | KLLong => MkIty 8 true
              | KULong | KULLong => MkIty 8 false
              end)
    (fun _ => MkIty 4 true) (fun n => Nat.odd n) 16 (fun _ => 16) (fun _ => 8) (fun _ => true)
    (fun _ => None) (fun _ _ => None) (fun _ _ => None).
Lemma sample_universe_ok : universe_ok sample_universe.
Proof.
  split; cbn; try discriminate; auto; try lia.
  - intros []; cbn; lia.
  - exists 8. auto.
Qed.
Definition member_d : const := VMemObj (UClass 0) (plain UDouble) (Some 0).
Definition member_i : const := VMemObj (UClass 0) (plain (UInt KInt)) (Some 8).

Example C32_example :
  let U := sample_universe in
  let cf := default_config in
  optional_type U cf (plain UDouble) ADefault ADefault = Chosen (dec_inplace 8) man_double /\
  optional_type U cf (plain (UInt KInt)) ADefault ADefault = Chosen (dec_separate 4 8) man_separate /\
  optional_type U cf (plain (UInt KUInt)) (AVal (VInt KInt (-1))) ADefault = Rejected BadSentinel /\
  optional_type U cf (plain (UArray 3)) ADefault ADefault = Rejected BadPayload /\
  optional_type U cf (plain (UClass 0)) (AVal member_d) ADefault = Chosen (dec_member 16 0 8) man_double /\
  optional_type U cf (plain (UClass 0)) (AVal member_i) ADefault = Rejected MissingSentinel /\
  optional_type U cf (plain (UClass 0)) (AVal member_i) (AVal (VInt KInt 5))
    = Chosen (dec_member 16 8 4) (man_int (MkIty 4 true) 5) /\
  optional_type U cf (plain (UClass 1)) (AVal member_i) (AVal (VInt KInt 5)) = Rejected NotAMember /\
  optional_type U no_ub_tricks (plain (UClass 0)) (AVal member_d) ADefault
    = Chosen (dec_separate 16 8) man_separate.
Proof. repeat split. Qed.

Example C32_sentinels_example :
  accepts sample_universe (UInt KUChar) (VInt KInt 255) /\
  ~ accepts sample_universe (UInt KUChar) (VInt KInt 256) /\
  ~ accepts sample_universe UFloat (VDouble 0) /\
  accepts sample_universe (UInt KUChar) (VEnum 0 300) /\
  ~ accepts sample_universe (UInt KUChar) (VEnum 1 3) /\
  const_ok sample_universe (VInt KInt 255) /\ valid_payload sample_universe (plain (UInt KUChar)) = true.
Proof.
  split; [constructor; unfold in_range; cbn; lia|].
  split; [intros H; inversion H as [|k l z R| | | | | | | | |]; subst; unfold in_range in R; cbn in R; lia|].
  split; [intros H; inversion H|].
  split; [constructor; reflexivity|].
  split; [intros H; inversion H; discriminate|].
  split; [cbn; unfold in_range; cbn; lia|reflexivity].
Qed.

(** ** C33: sizes and is_compressed *)

(** [is_compressed] (optional.h:922). *)
Definition is_compressed (d : decomp) : bool := Nat.eqb (d_ssize d) (d_psize d).

(** [n] is the size of [struct { P payload; bool flag; }] if [P] has size [psize]
    and alignment [align]: the least multiple of [align] with room for both. *)
Definition struct_size (psize align n : nat) : Prop :=
  Nat.divide align n /\ psize + 1 <= n /\
  forall k, Nat.divide align k -> psize + 1 <= k -> n <= k.

Lemma round_up_struct psize align :
  0 < align -> struct_size psize align (round_up (psize + 1) align).
Proof.
  intros H. unfold struct_size. split; [|split].
  - unfold round_up. exists ((psize + 1 + align - 1) / align). reflexivity.
  - apply round_up_ge, H.
  - intros k (q & ->) Hk. unfold round_up. apply Nat.mul_le_mono_r.
    apply Nat.lt_succ_r. apply Nat.div_lt_upper_bound; [lia|]. nia.
Qed.

Theorem C33_sizeof :
  forall U cf P a b d f,
    universe_ok U -> optional_type U cf P a b = Chosen d f ->
    (* the payload has its size *)
    d_psize d = size_of U (base P) /\
    (* is_compressed: iff the flag is in place, iff nothing is added *)
    (is_compressed d = true <-> d_sep d = false) /\
    (d_sep d = false -> d_ssize d = size_of U (base P)) /\
    (* otherwise the size is that of a payload followed by a bool *)
    (d_sep d = true -> struct_size (size_of U (base P)) (u_align U (base P)) (d_ssize d)).
Proof.
  intros U cf P a b d f HU H. apply C32_selection_as_documented in H as (_ & H).
  assert (S : forall p al, 0 < al -> (round_up (p + 1) al =? p) = false).
  { intros p al Hal. apply Nat.eqb_neq. pose proof (round_up_ge (p + 1) al Hal). lia. }
  pose proof (uo_align U HU (base P)) as Ha.
  destruct H; unfold is_compressed; cbn;
    (split; [reflexivity|]);
    (split; [first [rewrite (S _ _ Ha); split; discriminate|rewrite Nat.eqb_refl; split; auto]|]);
    (split; [first [discriminate|reflexivity]|]); try discriminate;
    intros _; apply round_up_struct, Ha.
Qed.

(** Which combinations are in place. *)
Theorem C33_in_place_iff :
  forall U cf P a b d f,
    optional_type U cf P a b = Chosen d f ->
    (d_sep d = false <->
     match a with
     | ADefault => has_custom U cf P = true
     | AVal (VMemObj _ _ _) => cf_mem cf = true
     | AVal _ => True
     end).
Proof.
  intros U cf P a b d f H. apply C32_selection_as_documented in H as (_ & H).
  destruct H as [b Hf|b g Hf|v b g Hv Hf|c t off g Hm _ Hf|c t off v g Hm _ Hf|c t off b Hm _];
    cbn; unfold has_custom; rewrite ?Hf; try (split; congruence); try tauto.
  destruct v; try discriminate; tauto.
Qed.

Example C33_example :
  exists d f,
    optional_type sample_universe default_config (plain (UInt KUChar)) ADefault ADefault = Chosen d f /\
    d_ssize d = 8 /\ d_psize d = 1 /\ is_compressed d = false.
Proof. eexists _, _. repeat split. Qed.

(** ** Lawfulness of what is selected *)

Lemma sentinel_known_lawful U cf t D :
  sentinel_known cf t = true -> d_sep D = false -> d_fsize D = size_of U (base t) ->
  manip_ok D (unused_bits_manip U (base t)).
Proof.
  intros H Hd Hf. unfold sentinel_known in H. destruct (cf_bit cf); [|discriminate].
  destruct (base t) eqn:B; try discriminate; cbn in Hf |- *;
    try (apply man_memcmp_ok; [exact Hd|rewrite Hf; cbn; lia]).
  destruct (u_x64 U); apply man_memcmp_ok; auto; rewrite Hf; cbn; lia.
Qed.
Lemma flag_manipulator_lawful U cf t f D :
  universe_ok U -> flag_manipulator U cf t = Some f ->
  d_sep D = false -> d_fsize D = size_of U (base t) -> manip_ok D f.
Proof.
  intros HU H Hd Hf. unfold flag_manipulator in H. destruct (u_spec U t) as [g|] eqn:E.
  - injection H as <-. eapply uo_spec; eauto.
  - destruct (sentinel_known cf t) eqn:K; [|discriminate]. injection H as <-.
    eapply sentinel_known_lawful; eauto.
Qed.

Lemma bytes_eqv_self n x : (x < modulus n)%N -> bytes_eqv n x (word n x) = Some true.
Proof. intros H. unfold bytes_eqv. rewrite unword_word by exact H. rewrite N.eqb_refl. reflexivity. Qed.
Lemma man_ptr_sentinel_ok U n D x :
  d_sep D = false -> d_fsize D = size_of U (UPtr n) ->
  (x < modulus (if u_x64 U then 8 else 4))%N -> manip_ok D (man_ptr_sentinel U x).
Proof.
  intros Hd Hf Hx. apply man_assign_ok; auto.
  - rewrite length_word. cbn in Hf. congruence.
  - apply bytes_eqv_self. exact Hx.
Qed.

Lemma conv_in_range t z : 0 < it_bytes t -> in_range t (conv t z).
Proof. intros H. apply value_range; [exact H|apply pattern_lt]. Qed.

(** An accepted sentinel that is not NaN gives a lawful flag manipulator. *)
Lemma sentinel_lawful U t v f D :
  universe_ok U -> const_ok U v -> is_nan_const U v = false ->
  assignment_manip U t v = Some f -> d_sep D = false -> d_fsize D = size_of U t ->
  manip_ok D f.
Proof.
  intros HU Hv Hn H Hd Hf. unfold assignment_manip in H.
  pose proof (uo_int U HU) as Pi. pose proof (uo_enum U HU) as Pe.
  destruct t, v; cbn in H; try discriminate; unfold implicit_convert in H; cbn in H;
    try match goal with HH : match u_conv U ?a ?b with _ => _ end = _ |- _ =>
          destruct (u_conv U a b) as [[enc eqv]|] eqn:C; [|discriminate]; injection H as <-;
          destruct (uo_conv U HU _ _ _ _ C) as (C1 & C2);
          apply man_assign_ok; [exact Hd|cbn in Hf; congruence|exact C2]
        end.
  - injection H as <-. apply man_bool_sentinel_ok; assumption.
  - destruct (is_integral_in_range _ _ _); [|discriminate]. injection H as <-.
    apply man_int_ok; auto. apply conv_in_range; auto.
  - destruct (u_scoped U n); [discriminate|]. injection H as <-. apply man_int_ok; auto.
    apply conv_in_range; auto.
  - injection H as <-. apply man_float_ok; auto. apply binary32_ok.
  - injection H as <-. apply man_float_ok; auto. apply binary64_ok.
  - injection H as <-. cbn in Hn. destruct (u_ld_eq U r r) as [[]|] eqn:L; try discriminate.
    apply man_assign_ok; auto. cbn in Hv, Hf. congruence.
  - injection H as <-. eapply man_ptr_sentinel_ok; eauto.
    unfold modulus. apply N.neq_0_lt_0, N.pow_nonzero. lia.
  - destruct (Nat.eqb n n0); [|discriminate]. injection H as <-. eapply man_ptr_sentinel_ok; eauto.
  - destruct (Nat.eqb_spec n n0) as [->|]; [|discriminate]. injection H as <-. apply man_int_ok; auto.
Qed.

(** The sentinel argument that is actually used. *)
Definition used_sentinel (a b : targ) : targ := if is_member_object_pointer a then b else a.

Theorem selected_lawful U cf P a b d f :
  universe_ok U -> targ_ok U a -> targ_ok U b -> no_nan U (used_sentinel a b) ->
  optional_type U cf P a b = Chosen d f ->
  decomp_ok d /\ manip_ok d f.
Proof.
  intros HU Ha Hb Hn H. apply C32_selection_as_documented in H as (_ & H).
  pose proof (uo_align U HU (base P)) as Hal.
  destruct H as [b Hf|b g Hf|v b g Hv Hf|c t off g Hm HP Hf|c t off v g Hm HP Hf|c t off b Hm HP].
  - split; [apply dec_separate_ok, Hal|apply man_separate_ok].
  - split; [apply dec_inplace_ok|]. eapply flag_manipulator_lawful; eauto.
  - split; [apply dec_inplace_ok|]. unfold used_sentinel in Hn. rewrite Hv in Hn.
    eapply sentinel_lawful; eauto.
  - split; [apply dec_member_ok; subst P; exact Ha|]. eapply flag_manipulator_lawful; eauto.
  - split; [apply dec_member_ok; subst P; exact Ha|]. eapply sentinel_lawful; eauto.
  - split; [apply dec_separate_ok, Hal|apply man_separate_ok].
Qed.

(** ** C35: the conversion of the sentinel never changes a value silently *)

Definition is_arithmetic (t : uty) : bool := is_integral t || is_floating t.

(** The mathematical value of an arithmetic constant, and the one read from an
    object of arithmetic type. *)
Inductive number : Type := NBool (b : bool) | NInt (z : Z) | NFloat (x : spec_float) | NLong (r : rep).
Definition const_value (v : const) : option number :=
  match v with
  | VBool b => Some (NBool b)
  | VInt _ z => Some (NInt z)
  | VFloat x => Some (NFloat (f_value binary32 x))
  | VDouble x => Some (NFloat (f_value binary64 x))
  | VLongDouble r => Some (NLong r)
  | _ => None
  end.
Definition object_value (U : universe) (t : uty) (c : rep) : option number :=
  match t with
  | UBool => match c with
             | [Byte 0%N] => Some (NBool false)
             | [Byte 1%N] => Some (NBool true)
             | _ => None
             end
  | UInt k => option_map (fun x => NInt (value_of (u_int U k) x)) (unword c)
  | UFloat => option_map (fun x => NFloat (f_value binary32 x)) (unword c)
  | UDouble => option_map (fun x => NFloat (f_value binary64 x)) (unword c)
  | ULongDouble => Some (NLong c)
  | _ => None
  end.

Theorem C35_sentinel_keeps_value :
  forall U t v,
    universe_ok U -> const_ok U v -> is_arithmetic t = true -> is_arithmetic (type_of v) = true ->
    (* mixtures are rejected *)
    (is_bool t <> is_bool (type_of v) -> assignment_manip U t v = None) /\
    (is_floating t = true \/ is_floating (type_of v) = true -> t <> type_of v ->
     assignment_manip U t v = None) /\
    (* what is accepted keeps its value *)
    (forall f c, assignment_manip U t v = Some f -> object_value U t (m_init f c) = const_value v) /\
    (* and integers are accepted iff their value is one of the flag's type *)
    (forall k l z, t = UInt k -> v = VInt l z ->
     (assignment_manip U t v <> None <-> in_range (u_int U k) z)).
Proof.
  intros U t v HU Hv Ht Hvt. split; [|split; [|split]].
  - intros Hb. unfold assignment_manip. destruct t, v; cbn in *; congruence.
  - intros Hf Hne. unfold assignment_manip. destruct t, v; cbn in *; try congruence; try tauto;
      try discriminate; destruct Hf; congruence.
  - intros f c H. unfold assignment_manip in H.
    destruct t, v; cbn in H, Ht, Hvt; try discriminate.
    + injection H as <-. cbn. destruct b; reflexivity.
    + destruct (is_integral_in_range _ _ _) eqn:R; [|discriminate]. injection H as <-.
      destruct (C34_range_check_exact (u_int U k) (u_int U k0) z) as (_ & K);
        try apply uo_int; auto.
      destruct (K R) as (K1 & K2). specialize (K2 c). cbn [object_value const_value].
      destruct (unword (m_init _ c)) as [x|]; cbn in *; congruence.
    + injection H as <-. cbn [object_value man_float man_assign m_init const_value].
      rewrite unword_word by exact Hv. reflexivity.
    + injection H as <-. cbn [object_value man_float man_assign m_init const_value].
      rewrite unword_word by exact Hv. reflexivity.
    + injection H as <-. reflexivity.
  - intros k l z -> ->. unfold assignment_manip. cbn.
    destruct (C34_range_check_exact (u_int U k) (u_int U l) z) as (K & _); try apply uo_int; auto.
    destruct (is_integral_in_range _ _ _).
    + split; [intros _; apply K; reflexivity|discriminate].
    + split; [congruence|]. intros Hz. apply K in Hz. discriminate.
Qed.

Example C35_example :
  assignment_manip sample_universe (UInt KUChar) (VInt KInt 300) = None /\
  assignment_manip sample_universe UBool (VInt KInt 1) = None /\
  assignment_manip sample_universe UFloat (VDouble 0) = None /\
  exists f, assignment_manip sample_universe (UInt KUChar) (VInt KInt 255) = Some f.
Proof. repeat split. eexists. reflexivity. Qed.

(** ** C50: enumerators as sentinels of integers are converted without range check *)

(** With [enum E { A = 300 };] the type [optional<unsigned char, A>] compiles, but the
    empty value is 44. *)
Theorem C50_enumerator_sentinel_changed_refuted :
  exists U k n z f,
    universe_ok U /\ const_ok U (VEnum n z) /\
    assignment_manip U (UInt k) (VEnum n z) = Some f /\
    forall c, object_value U (UInt k) (m_init f c) <> Some (NInt z).
Proof.
  exists sample_universe, KUChar, 0, 300%Z. eexists. split; [apply sample_universe_ok|].
  split; [vm_compute; split; discriminate|]. split; [reflexivity|]. intros c. vm_compute. discriminate.
Qed.

(** Exactly the enumerators outside of the range are changed; scoped enumerations
    and enumerations for a different enumeration are rejected. *)
Theorem C50_enumerator_sentinel :
  forall U k n z,
    universe_ok U ->
    (u_scoped U n = true -> assignment_manip U (UInt k) (VEnum n z) = None) /\
    (u_scoped U n = false ->
     exists f, assignment_manip U (UInt k) (VEnum n z) = Some f /\
               forall c, object_value U (UInt k) (m_init f c) = Some (NInt z) <-> in_range (u_int U k) z).
Proof.
  intros U k n z HU. unfold assignment_manip. cbn. split; intros H; rewrite H; [reflexivity|].
  eexists. split; [reflexivity|]. intros c. cbn. unfold int_rep.
  rewrite unword_word by apply pattern_lt. cbn. pose proof (uo_int U HU k) as Hk.
  pose proof (conv_in_range (u_int U k) z Hk) as R. rewrite value_pattern by assumption.
  split.
  - intros [= E]. rewrite E in R. exact R.
  - intros Hz. rewrite conv_id by assumption. reflexivity.
Qed.

(** ** C36: optional_aip *)

(** The extreme value that is swallowed. *)
Definition extreme (t : ity) : Z := if it_signed t then it_min t else it_max t.
Definition has_default_sentinel (k : ikind) : bool :=
  match k with
  | KShort | KUShort | KInt | KUInt | KLong | KULong | KLLong | KULLong => true
  | _ => false
  end.

(** optional_aip<P>: whatever compiles is in place, in every configuration. *)
Theorem C36_aip_default_in_place :
  forall U cf P d f,
    universe_ok U -> optional_aip_default U cf P = Chosen d f ->
    d_sep d = false /\ d_ssize d = size_of U (base P).
Proof.
  intros U cf P d f HU H. unfold optional_aip_default in H.
  destruct (has_custom U cf P) eqn:Hc.
  - destruct (C33_sizeof U cf P _ _ d f HU H) as (_ & _ & S & _).
    assert (d_sep d = false) as E by (apply (C33_in_place_iff _ _ _ _ _ _ _ H); exact Hc). auto.
  - destruct (swallowing_default U (base P)) as [v|] eqn:Hv; [|discriminate].
    destruct (C33_sizeof U cf P _ _ d f HU H) as (_ & _ & S & _).
    assert (d_sep d = false) as E.
    { apply (C33_in_place_iff _ _ _ _ _ _ _ H).
      destruct (base P) as [|k| | | | | | | | | |]; try discriminate.
      destruct k; try discriminate; injection Hv as <-; exact I. }
    auto.
Qed.

(** optional_aip<P, s> with a sentinel [s], or a member pointer unless the members
    trick is disabled. *)
Theorem C36_aip_sentinel_in_place :
  forall U cf P v d f,
    universe_ok U -> optional_aip U cf P (AVal v) = Chosen d f ->
    (is_member_object_pointer (AVal v) = true -> cf_mem cf = true) ->
    d_sep d = false /\ d_ssize d = size_of U (base P).
Proof.
  intros U cf P v d f HU H Hm. unfold optional_aip in H.
  destruct (C33_sizeof U cf P _ _ d f HU H) as (_ & _ & S & _).
  assert (d_sep d = false) as E.
  { apply (C33_in_place_iff _ _ _ _ _ _ _ H). destruct v; auto. }
  auto.
Qed.

(** optional_aip of an integral type compiles iff the type is one of the eight
    standard types without character types; its empty value is the extreme value;
    exactly the other values can be stored. *)
Theorem C36_aip_integers :
  forall U cf c v k,
    universe_ok U -> u_spec U (MkTy c v (UInt k)) = None -> u_destructible U (UInt k) = true ->
    if has_default_sentinel k
    then exists f,
      optional_aip_default U cf (MkTy c v (UInt k)) = Chosen (dec_inplace (it_bytes (u_int U k))) f /\
      in_range (u_int U k) (extreme (u_int U k)) /\
      forall x, (x < modulus (it_bytes (u_int U k)))%N ->
        storable_in (dec_inplace (it_bytes (u_int U k))) f (word (it_bytes (u_int U k)) x) = true <->
        value_of (u_int U k) x <> extreme (u_int U k)
    else optional_aip_default U cf (MkTy c v (UInt k)) = Rejected NoDefaultSentinel.
Proof.
  intros U cf c v k HU Hs Hd.
  assert (Hc : has_custom U cf (MkTy c v (UInt k)) = false).
  { unfold has_custom, flag_manipulator, sentinel_known. rewrite Hs. destruct (cf_bit cf); reflexivity. }
  assert (K : forall l, has_default_sentinel k = true ->
            swallowing_default U (UInt k) = Some (VInt l (extreme (u_int U k))) ->
            in_range (u_int U l) (extreme (u_int U k)) ->
            exists f,
      optional_aip_default U cf (MkTy c v (UInt k)) = Chosen (dec_inplace (it_bytes (u_int U k))) f /\
      in_range (u_int U k) (extreme (u_int U k)) /\
      forall x, (x < modulus (it_bytes (u_int U k)))%N ->
        storable_in (dec_inplace (it_bytes (u_int U k))) f (word (it_bytes (u_int U k)) x) = true <->
        value_of (u_int U k) x <> extreme (u_int U k)).
  { intros l _ Hl Hr. pose proof (uo_int U HU k) as Hk. pose proof (uo_int U HU l) as Hl'.
    assert (in_range (u_int U k) (extreme (u_int U k))) as Hx.
    { destruct (range_ends _ Hk). unfold extreme. destruct (it_signed _); assumption. }
    unfold optional_aip_default. rewrite Hc. cbn [base]. rewrite Hl.
    exists (man_int (u_int U k) (extreme (u_int U k))). split; [|split; [exact Hx|]].
    - apply C32_selection_as_documented. split; [exact Hd|].
      apply (doc_sentinel U cf (MkTy c v (UInt k)) (VInt l (extreme (u_int U k)))); [reflexivity|].
      unfold sentinel_for, assignment_manip. cbn.
      apply (is_integral_in_range_spec _ _ _ Hk Hl' Hr) in Hx as Hx'. rewrite Hx'.
      rewrite conv_id by assumption. reflexivity.
    - intros x Hxm. unfold storable_in, flag_cells.
      cbn [dec_inplace d_psize d_foff d_fsize d_sep man_int man_assign m_is_empty orb].
      rewrite length_word, Nat.eqb_refl. cbn [andb].
      replace (sub 0 (it_bytes (u_int U k)) (word (it_bytes (u_int U k)) x))
        with (word (it_bytes (u_int U k)) x)
        by (rewrite <- (length_word (it_bytes (u_int U k)) x) at 2; rewrite sub_full; reflexivity).
      unfold int_eqv. rewrite unword_word by exact Hxm. cbn.
      destruct (Z.eqb_spec (value_of (u_int U k) x) (extreme (u_int U k))); split; congruence. }
  destruct (uo_short U HU) as (S1 & S2). destruct (uo_intt U HU) as (I1 & I2).
  destruct (uo_long U HU) as (n & L1 & L2). destruct (uo_llong U HU) as (G1 & G2).
  pose proof (uo_int U HU KLong) as PL. pose proof (uo_int U HU KULong) as PUL.
  destruct k; cbn [has_default_sentinel];
    try (unfold optional_aip_default; rewrite Hc; reflexivity).
  - apply (K KInt); [reflexivity| |]; unfold extreme; rewrite ?S1; cbn.
    + rewrite S1. reflexivity.
    + rewrite I1. vm_compute. split; discriminate.
  - apply (K KInt); [reflexivity| |]; unfold extreme; rewrite ?S2; cbn.
    + rewrite S2. reflexivity.
    + rewrite I1. vm_compute. split; discriminate.
  - apply (K KInt); [reflexivity| |]; unfold extreme; rewrite ?I1; cbn.
    + rewrite I1. reflexivity.
    + vm_compute. split; discriminate.
  - apply (K KUInt); [reflexivity| |]; unfold extreme; rewrite ?I2; cbn.
    + rewrite I2. reflexivity.
    + vm_compute. split; discriminate.
  - apply (K KLong); [reflexivity| |]; unfold extreme; rewrite ?L1; cbn [it_signed].
    + cbn. rewrite L1. reflexivity.
    + rewrite L1 in PL. apply (range_ends (MkIty n true) PL).
  - apply (K KULong); [reflexivity| |]; unfold extreme; rewrite ?L2; cbn [it_signed].
    + cbn. rewrite L2. reflexivity.
    + rewrite L2 in PUL. apply (range_ends (MkIty n false) PUL).
  - apply (K KLLong); [reflexivity| |]; unfold extreme; rewrite ?G1; cbn.
    + rewrite G1. reflexivity.
    + vm_compute. split; discriminate.
  - apply (K KULLong); [reflexivity| |]; unfold extreme; rewrite ?G2; cbn.
    + rewrite G2. reflexivity.
    + vm_compute. split; discriminate.
Qed.

(** The documented guarantee "always the size of the payload" does not hold for all
    arguments that compile: [optional_aip<S, &S::m>] if the members trick is
    disabled, and [optional_aip<int, UseDefaultValue>] in every configuration. *)
Theorem C36_aip_size_refuted :
  exists U P a d f,
    universe_ok U /\ targ_ok U a /\
    optional_aip U no_ub_tricks P a = Chosen d f /\ size_of U (base P) < d_ssize d.
Proof.
  exists sample_universe, (plain (UClass 0)), (AVal member_d). eexists _, _.
  split; [apply sample_universe_ok|]. split; [cbn; lia|]. split; [reflexivity|]. vm_compute. lia.
Qed.
Theorem C36_aip_default_value_refuted :
  forall cf, exists U P d f,
    universe_ok U /\ optional_aip U cf P ADefault = Chosen d f /\ size_of U (base P) < d_ssize d.
Proof.
  intros [bit mem]. exists sample_universe, (plain (UInt KInt)). eexists _, _.
  split; [apply sample_universe_ok|]. split; [destruct bit; reflexivity|]. vm_compute. lia.
Qed.

Example C36_example :
  exists d f, optional_aip_default sample_universe default_config (plain (UInt KULLong)) = Chosen d f /\
              d_ssize d = 8.
Proof. eexists _, _. split; reflexivity. Qed.

(** ** C48: the third template argument *)

Theorem C48_third_argument :
  forall U cf P a b,
    (* ignored unless the second argument is a member object pointer *)
    (is_member_object_pointer a = false ->
     forall b', optional_type U cf P a b' = optional_type U cf P a b) /\
    (* with a member object pointer it is the sentinel *)
    (is_member_object_pointer a = true ->
     optional_type U cf P a b = optional_sentinel_via_type U cf P b a).
Proof.
  intros U cf P a b. unfold optional_type, sentinel_and_mem_ptr. split; intros H.
  - intros b'. rewrite H. reflexivity.
  - rewrite H. destruct b; reflexivity.
Qed.

(** With a member pointer, two different sentinels give types whose empty states
    differ: the argument matters. *)
Theorem C48_third_argument_matters :
  forall U c t off k z1 z2,
    universe_ok U -> valid_payload U (plain c) = true -> t = plain (UInt k) ->
    in_range (u_int U k) z1 -> in_range (u_int U k) z2 -> z1 <> z2 ->
    exists d f1 f2,
      optional_type U default_config (plain c) (AVal (VMemObj c t (Some off))) (AVal (VInt k z1))
        = Chosen d f1 /\
      optional_type U default_config (plain c) (AVal (VMemObj c t (Some off))) (AVal (VInt k z2))
        = Chosen d f2 /\
      m_is_empty f1 (int_rep (u_int U k) z1) = Some true /\
      m_is_empty f2 (int_rep (u_int U k) z1) = Some false.
Proof.
  intros U c t off k z1 z2 HU HP -> H1 H2 Hne. pose proof (uo_int U HU k) as Hk.
  assert (A : forall z, in_range (u_int U k) z ->
            assignment_manip U (UInt k) (VInt k z) = Some (man_int (u_int U k) z)).
  { intros z Hz. unfold assignment_manip. cbn.
    rewrite (proj2 (is_integral_in_range_spec _ _ z Hk Hk Hz) Hz), conv_id by assumption. reflexivity. }
  eexists _, _, _. split; [|split; [|split]].
  - apply C32_selection_as_documented. split; [exact HP|].
    apply doc_member_sentinel; [reflexivity|reflexivity|]. apply A, H1.
  - apply C32_selection_as_documented. split; [exact HP|].
    apply doc_member_sentinel; [reflexivity|reflexivity|]. apply A, H2.
  - apply int_eqv_self; assumption.
  - cbn. unfold int_eqv, int_rep. rewrite unword_word by apply pattern_lt.
    rewrite value_pattern by assumption. apply Z.eqb_neq in Hne. rewrite Hne. reflexivity.
Qed.

Example C48_example :
  optional_type sample_universe default_config (plain (UInt KInt)) (AVal (VInt KInt 5)) (AVal (VInt KInt 6))
  = optional_type sample_universe default_config (plain (UInt KInt)) (AVal (VInt KInt 5)) ADefault.
Proof. reflexivity. Qed.
