(** * HashEnable: for which types std::hash is enabled (C58)

    std::hash has partial specializations for TinyOptionalImpl and for tiny::optional
    (optional.h:2777-2809) that exist only if std::hash of the payload can be used
    (optional.h:305-322).  Payloads may be optionals themselves, so whether
    [std::hash<T>] can be used is defined by recursion over the type.

    The types are those of Deduce.v. *)

From Coq Require Import List Bool Arith Lia.
From Verif Require Import Deduce.
Import ListNotations.

(** What an implementation or a user provides for a type that is no optional: a
    specialization that meets the requirements of a hash function object, one that is not
    default constructible (which does not meet them), or nothing, which leaves the
    primary template, a disabled specialization ([unord.hash]). *)
Inductive provided : Type := PGood | PNoDefault | PNothing.

Section Hash.
(** For the named types and classes; [hash] is provided for pointers, and not for
    functions, arrays, initializer_list, nullopt_t, in_place_t and const types. *)
Variable named : nat -> provided.
Variable derived : nat -> provided.

Definition default_constructible (p : provided) : bool :=
  match p with PGood => true | PNoDefault | PNothing => false end.

(** The specialization that std::hash<t> names, or std::hash<remove_const_t<t>> for
    [strip = true].  For tiny::optional<p, a, b>: the second partial specialization matches
    if is_default_constructible_v<hash<remove_const_t<p>>> (EnableHashHelper,
    optional.h:313-322; 2793-2808); the first one is for the class TinyOptionalImpl only
    and does not match derived classes (2777-2790).  Both have implicit default
    constructors.  For std::optional<p>: [optional.hash]. *)
Fixpoint hash_at (strip : bool) (t : ty) : provided :=
  match t with
  | TName n => named n
  | TClass n _ => derived n
  | TTiny p _ _ | TImpl _ p =>
      if default_constructible (hash_at true p) then PGood else PNothing
  | TStd p => match hash_at true p with PGood => PGood | _ => PNothing end
  | TPtr _ => PGood
  | TConst u => if strip then hash_at true u else PNothing
  | TNullopt | TInPlace | TInit _ | TArray _ _ | TFun _ => PNothing
  end.
Definition hash_of (t : ty) : provided := hash_at false t.
Definition enabled (t : ty) : Prop := hash_of t = PGood.

(** ** C58 *)

Lemma hash_at_as_std b t : hash_at b (as_std t) = hash_at b t.
Proof.
  revert b. induction t; intros b'; cbn; try reflexivity.
  - rewrite IHt. destruct (hash_at true t); reflexivity.
  - rewrite IHt. reflexivity.
  - rewrite IHt. reflexivity.
  - destruct b'; [apply IHt|reflexivity].
Qed.

(** Exactly the types for which std::hash is enabled when std::optional takes the place of
    tiny::optional, for optionals of optionals of any depth. *)
Theorem C58_hash_enabled_as_std : forall t, enabled t <-> enabled (as_std t).
Proof. intros t. unfold enabled, hash_of. rewrite hash_at_as_std. tauto. Qed.

(** [layers t u]: [t] is an optional of an optional ... of [u], each of them tiny::optional,
    another TinyOptionalImpl or std::optional with any storage, possibly const inside. *)
Inductive layers : ty -> ty -> Prop :=
| layer_tiny : forall p a b u, inner p u -> layers (TTiny p a b) u
| layer_impl : forall n p u, inner p u -> layers (TImpl n p) u
| layer_std : forall p u, inner p u -> layers (TStd p) u
with inner : ty -> ty -> Prop :=
| inner_const : forall p u, inner p u -> inner (TConst p) u
| inner_more : forall p u, layers p u -> inner p u
| inner_end : forall u, is_const u = false -> inner u u.
Scheme layers_mind := Induction for layers Sort Prop
with inner_mind := Induction for inner Sort Prop.
Combined Scheme layers_inner from layers_mind, inner_mind.

Lemma layers_enabled :
  (forall t u, layers t u -> (forall b, hash_at b t = PGood <-> enabled u)) /\
  (forall p u, inner p u -> (hash_at true p = PGood <-> enabled u)).
Proof.
  apply (layers_inner
           (fun t u _ => forall b, hash_at b t = PGood <-> enabled u)
           (fun p u _ => hash_at true p = PGood <-> enabled u)).
  - intros p a b u _ IH b'. cbn. rewrite <- IH. destruct (hash_at true p); cbn; split; congruence.
  - intros n p u _ IH b'. cbn. rewrite <- IH. destruct (hash_at true p); cbn; split; congruence.
  - intros p u _ IH b'. cbn. rewrite <- IH. destruct (hash_at true p); cbn; split; congruence.
  - intros p u _ IH. cbn. exact IH.
  - intros p u _ IH. apply IH.
  - intros u Hu. unfold enabled, hash_of. destruct u; cbn in *; try tauto. discriminate.
Qed.
(** Through any number of layers it is the innermost payload that decides; the storage
    strategies, the sentinels and const do not matter. *)
Theorem C58_innermost_payload_decides : forall t u, layers t u -> (enabled t <-> enabled u).
Proof. intros t u H. exact (proj1 layers_enabled t u H false). Qed.

(** A specialization that is not enabled cannot be default constructed, so that a
    container or a generic function sees that the optional is not hashable instead of
    failing inside of it. *)
Theorem C58_disabled_is_detectable :
  forall p a b, ~ enabled (TTiny p a b) -> default_constructible (hash_of (TTiny p a b)) = false.
Proof.
  intros p a b H. unfold enabled, hash_of in *. cbn in *.
  destruct (default_constructible (hash_at true p)); [destruct (H eq_refl)|reflexivity].
Qed.

(** A class derived from an optional is not hashable by the optional's specialization. *)
Theorem C58_derived_class_has_its_own :
  forall n b, enabled (TClass n b) <-> derived n = PGood.
Proof. intros n b. unfold enabled, hash_of. cbn. tauto. Qed.
End Hash.

(** int (0) is hashable, a user's struct (1) is not. *)
Definition named_ex (n : nat) : provided := match n with 0 => PGood | _ => PNothing end.
Example C58_ex :
  enabled named_ex named_ex (TTiny (TConst (TTiny (TName 0) (AValue 5) ADefault)) ADefault ADefault) /\
  ~ enabled named_ex named_ex (TTiny (TTiny (TName 1) ADefault ADefault) ADefault ADefault) /\
  layers (TTiny (TConst (TStd (TName 0))) (AValue 3) ADefault) (TName 0).
Proof.
  repeat split.
  - intros H. discriminate H.
  - apply layer_tiny, inner_const, inner_more, layer_std, inner_end. reflexivity.
Qed.
