(** * Namespace: inline namespaces and version numbers (C46)

    optional.h:51-55 and 96-128: the preprocessor part that keeps builds with different
    versions and configurations apart. *)

From Coq Require Import List NArith ZArith Bool Arith Lia String Ascii.
From Coq Require Import DecimalString DecimalFacts DecimalN.
From Verif Require Import Cells Machine Laws Bits Manip IntRange Select Selection.
Import ListNotations.
Local Open Scope string_scope.

(** ** Model *)

(** The spelling of a version number, as pasted by the preprocessor. *)
Definition decimal (v : N) : string := NilEmpty.string_of_uint (N.to_uint v).
(** TINY_OPTIONAL_UNUSED_BITS_NS_PART and TINY_OPTIONAL_MEMBER_NS_PART
    (optional.h:105-115). *)
Definition bit_part (cf : config) : string := if cf_bit cf then "bit" else "noBit".
Definition mem_part (cf : config) : string := if cf_mem cf then "mem" else "noMem".
(** TINY_OPTIONAL_CONCAT_NS (optional.h:117-118). *)
Definition inline_ns (v : N) (cf : config) : string :=
  "tiny" ++ decimal v ++ "_" ++ bit_part cf ++ "_" ++ mem_part cf.

(** TINY_OPTIONAL_VERSION (optional.h:55) and its parts (optional.h:51-53). *)
Definition version : N := 100301.
Definition patch (v : N) : N := (v mod 100)%N.
Definition minor (v : N) : N := (v / 100 mod 1000)%N.
Definition major (v : N) : N := (v / 100000)%N.

(** The entities of the header and where they are declared: everything is in the inline
    namespace, except for the customization point optional_flag_manipulator
    (optional.h:215-220, 883-889). *)
Inductive entity : Type :=
| InNamespace (n : string)            (* optional, impl::TinyOptionalImpl, ... *)
| FlagManipulator (t : cvty).         (* optional_flag_manipulator<t> *)
(** Qualified names; the name of a type is abbreviated to the type itself. *)
Definition qualified (v : N) (cf : config) (e : entity) : string * option cvty :=
  match e with
  | InNamespace n => ("tiny::" ++ inline_ns v cf ++ "::" ++ n, None)
  | FlagManipulator t => ("tiny::optional_flag_manipulator", Some t)
  end.

(** ** Injectivity *)

Definition is_digit (c : ascii) : Prop := In c ["0"; "1"; "2"; "3"; "4"; "5"; "6"; "7"; "8"; "9"]%char.
Fixpoint all_digits (s : string) : Prop :=
  match s with EmptyString => True | String c s' => is_digit c /\ all_digits s' end.
Lemma digits_uint d : all_digits (NilEmpty.string_of_uint d).
Proof. induction d; cbn; unfold is_digit; cbn; intuition auto 12. Qed.
Lemma split_digits a b r r' :
  all_digits a -> all_digits b -> a ++ "_" ++ r = b ++ "_" ++ r' -> a = b /\ r = r'.
Proof.
  revert b. induction a as [|c a IH]; intros [|d b] Ha Hb H; cbn in *.
  - injection H as ->. auto.
  - injection H as <- _. destruct Hb as (Hb & _). unfold is_digit in Hb. cbn in Hb. intuition discriminate.
  - injection H as -> _. destruct Ha as (Ha & _). unfold is_digit in Ha. cbn in Ha. intuition discriminate.
  - injection H as -> H. destruct (IH b (proj2 Ha) (proj2 Hb) H) as (-> & ->). auto.
Qed.
Lemma decimal_inj v v' : decimal v = decimal v' -> v = v'.
Proof.
  unfold decimal. intros H.
  assert (K : NilEmpty.uint_of_string (NilEmpty.string_of_uint (N.to_uint v)) =
              NilEmpty.uint_of_string (NilEmpty.string_of_uint (N.to_uint v'))) by (rewrite H; reflexivity).
  rewrite !NilEmpty.usu in K. injection K as K. apply Unsigned.to_uint_inj. exact K.
Qed.

Lemma append_inj_l a b c : a ++ b = a ++ c -> b = c.
Proof. induction a as [|x a IH]; cbn; [auto|]. intros [= H]. auto. Qed.
Lemma inline_ns_inj v cf v' cf' : inline_ns v cf = inline_ns v' cf' -> v = v' /\ cf = cf'.
Proof.
  unfold inline_ns. intros H. apply append_inj_l in H.
  apply split_digits in H as (Hd & H); try apply digits_uint.
  split; [apply decimal_inj, Hd|].
  destruct cf as [[] []], cf' as [[] []]; cbn in H; try discriminate H; reflexivity.
Qed.

Fixpoint no_colon (s : string) : Prop :=
  match s with EmptyString => True | String c s' => c <> ":"%char /\ no_colon s' end.
Lemma no_colon_app a b : no_colon a -> no_colon b -> no_colon (a ++ b).
Proof. induction a; cbn; intuition auto. Qed.
Lemma digits_no_colon a : all_digits a -> no_colon a.
Proof.
  induction a as [|c a IH]; cbn; [auto|]. intros (Hc & Ha). split; [|auto].
  intros ->. unfold is_digit in Hc. cbn in Hc. intuition discriminate.
Qed.
Lemma split_colon a b r r' :
  no_colon a -> no_colon b -> a ++ "::" ++ r = b ++ "::" ++ r' -> a = b /\ r = r'.
Proof.
  revert b. induction a as [|c a IH]; intros [|d b] Ha Hb H; cbn in *.
  - injection H as ->. auto.
  - injection H as <- _. tauto.
  - injection H as -> _. tauto.
  - injection H as -> H. destruct (IH b (proj2 Ha) (proj2 Hb) H) as (-> & ->). auto.
Qed.
Lemma inline_ns_no_colon v cf : no_colon (inline_ns v cf).
Proof.
  unfold inline_ns. repeat apply no_colon_app; try (cbn; intuition discriminate).
  - apply digits_no_colon, digits_uint.
  - unfold bit_part. destruct (cf_bit cf); cbn; intuition discriminate.
  - unfold mem_part. destruct (cf_mem cf); cbn; intuition discriminate.
Qed.

(** ** C46 *)

(** Two builds that share the name of any entity of the inline namespace have the same
    version and the same configuration, for all names of entities. *)
Theorem C46_builds_do_not_share_symbols :
  forall v cf n v' cf' n',
    qualified v cf (InNamespace n) = qualified v' cf' (InNamespace n') ->
    v = v' /\ cf = cf' /\ n = n'.
Proof.
  intros v cf n v' cf' n' H. apply (f_equal fst) in H. cbn [fst qualified] in H.
  apply append_inj_l in H. apply split_colon in H as (Hn & ->); try apply inline_ns_no_colon.
  apply inline_ns_inj in Hn as (-> & ->). auto.
Qed.

(** The names of the two documented configurations of this version, as they appear in
    the natvis file. *)
Theorem C46_documented_names :
  inline_ns version default_config = "tiny100301_bit_mem" /\
  inline_ns version no_ub_tricks = "tiny100301_noBit_noMem".
Proof. split; reflexivity. Qed.

(** Major, minor and patch determine the version number; every triple with a minor
    version below 1000 and a patch level below 100 is the decoding of exactly one. *)
Theorem C46_version_decodes :
  forall v, v = (major v * 100000 + minor v * 100 + patch v)%N /\
            (minor v < 1000)%N /\ (patch v < 100)%N.
Proof.
  intros v. unfold major, minor, patch.
  pose proof (N.div_mod v 100 ltac:(lia)) as H1.
  pose proof (N.div_mod (v / 100) 1000 ltac:(lia)) as H2.
  pose proof (N.mod_lt v 100 ltac:(lia)). pose proof (N.mod_lt (v / 100) 1000 ltac:(lia)).
  rewrite N.div_div in H2 by lia. change (100 * 1000)%N with 100000%N in H2. lia.
Qed.
Theorem C46_version_unique :
  forall a b c,
    (b < 1000)%N -> (c < 100)%N ->
    let v := (a * 100000 + b * 100 + c)%N in major v = a /\ minor v = b /\ patch v = c.
Proof.
  intros a b c Hb Hc v. destruct (C46_version_decodes v) as (Hv & Hm & Hp).
  assert (v = (a * 100000 + b * 100 + c)%N) as Hd by reflexivity. lia.
Qed.
Example C46_example : major version = 1%N /\ minor version = 3%N /\ patch version = 1%N.
Proof. repeat split. Qed.

(** The exception: optional_flag_manipulator<T> has the same name in all builds, but its
    definition depends on the configuration.  Two object files with different
    configurations define the class [optional_flag_manipulator<double>] differently. *)
Theorem C46_flag_manipulator_differs_refuted :
  exists U t v cf cf',
    universe_ok U /\
    qualified v cf (FlagManipulator t) = qualified v cf' (FlagManipulator t) /\
    flag_manipulator U cf t <> flag_manipulator U cf' t.
Proof.
  exists sample_universe, (plain UDouble), version, default_config, no_ub_tricks.
  split; [apply sample_universe_ok|]. split; [reflexivity|]. discriminate.
Qed.
(** This affects exactly the types with known unused bit patterns for which the user did
    not provide a manipulator, and only the configuration macro for unused bits. *)
Theorem C46_flag_manipulator_differs :
  forall U t cf cf',
    flag_manipulator U cf t <> flag_manipulator U cf' t ->
    cf_bit cf <> cf_bit cf' /\ u_spec U t = None /\
    (In (base t) [UFloat; UDouble; UBool] \/ exists n, base t = UPtr n).
Proof.
  intros U t cf cf' H. unfold flag_manipulator in H. destruct (u_spec U t) eqn:Hs; [congruence|].
  unfold sentinel_known in H. destruct (cf_bit cf) eqn:B, (cf_bit cf') eqn:B'; try congruence;
    (split; [congruence|]; split; [reflexivity|]);
    destruct (base t); cbn in *; try congruence; eauto 6.
Qed.
