(** * Traits: is_tiny_optional_v and the types accepted by and_then (C61)

    [tiny::is_tiny_optional_v<U>] (optional.h:250-269) is decided by overload resolution
    between a function template that needs the constant [U::is_tiny_optional] and one that
    takes anything.  The constant is declared in TinyOptionalImpl (optional.h:1434), and for
    every other class it is found, or not, by the lookup of a name in a class
    ([class.member.lookup]) followed by access control ([class.access.base]).  README.md:264
    says that the trait is true for the optionals of the library and false for any other
    type.

    Simplifications: no virtual base classes; no friends of a class that hides the name; no
    enumerations with an enumerator of that name; a member that is neither a static constant
    of type bool nor unusable as one (for example of type int with the value 1) is not
    modelled. *)

From Coq Require Import List Bool Arith Lia.
Import ListNotations.

(** A declaration of the name is_tiny_optional in a user's class: public or not, and its
    value if it is a static constant of type bool; None for anything else (a function, a
    type, a non-static or non-constant member). *)
Record decl : Type := MkDecl { d_public : bool; d_value : option bool }.

(** Classes.  [CImpl n] is the n-th instance of TinyOptionalImpl (optional.h:1391); its own
    base classes are private and do not declare the name.  [COpt n] is an instance of
    tiny::optional, derived publicly from [CImpl n] (optional.h:2199-2201);
    optional_sentinel_via_type (2155), optional_inplace (2319) and optional_aip (2385) are
    alias templates for one of the two.  [CStd] is an instance of std::optional, which does not
    declare the name.  [CUser k own bases] is a class of the user, numbered [k]; each base
    says whether it is a public one. *)
Inductive class : Type :=
| CImpl (n : nat)
| COpt (n : nat)
| CStd (n : nat)
| CUser (k : nat) (own : option decl) (bases : list (bool * class)).

Section Ind.
Variable P : class -> Prop.
Hypothesis H_impl : forall n, P (CImpl n).
Hypothesis H_opt : forall n, P (COpt n).
Hypothesis H_std : forall n, P (CStd n).
Hypothesis H_user : forall k own bases, Forall (fun b => P (snd b)) bases -> P (CUser k own bases).
Fixpoint class_deep (c : class) : P c :=
  match c with
  | CImpl n => H_impl n
  | COpt n => H_opt n
  | CStd n => H_std n
  | CUser k own bases =>
      H_user k own bases
        ((fix go (l : list (bool * class)) : Forall (fun b => P (snd b)) l :=
            match l with
            | [] => Forall_nil _
            | b :: l' => Forall_cons b (class_deep (snd b)) (go l')
            end) bases)
  end.
End Ind.

(** The declaration that a name means: of the library, in the n-th instance of
    TinyOptionalImpl, or of the user's class [k]. *)
Inductive found : Type :=
| FImpl (n : nat)
| FUser (k : nat) (d : decl).

Definition decl_eqb (a b : decl) : bool :=
  Bool.eqb (d_public a) (d_public b) &&
  match d_value a, d_value b with
  | None, None => true
  | Some x, Some y => Bool.eqb x y
  | _, _ => false
  end.
Definition found_eqb (a b : found) : bool :=
  match a, b with
  | FImpl n, FImpl m => Nat.eqb n m
  | FUser k d, FUser l e => Nat.eqb k l && decl_eqb d e
  | _, _ => false
  end.

Lemma decl_eqb_eq a b : decl_eqb a b = true <-> a = b.
Proof.
  destruct a as [p v], b as [q w]. unfold decl_eqb. cbn.
  destruct p, q, v as [[|]|], w as [[|]|]; cbn; split; intros H; congruence.
Qed.
Lemma found_eqb_eq a b : found_eqb a b = true <-> a = b.
Proof.
  destruct a, b; cbn; try (split; intros H; congruence).
  - rewrite Nat.eqb_eq. split; congruence.
  - rewrite andb_true_iff, Nat.eqb_eq, decl_eqb_eq. split; [intros [-> ->]|intros H; inversion H]; auto.
Qed.

(** ** Lookup *)

Inductive result : Type := RNone | RFound (f : found) | RAmbiguous.

(** [class.member.lookup]/6: the sets found in the bases are merged; nothing merges with
    anything, equal declarations merge (the member is static, so that several subobjects do
    not matter, /12), different ones and an ambiguous set make the result ambiguous. *)
Definition merge (a b : result) : result :=
  match a, b with
  | RNone, r | r, RNone => r
  | RFound f, RFound g => if found_eqb f g then RFound f else RAmbiguous
  | _, _ => RAmbiguous
  end.

(** [class.member.lookup]/4-5: a declaration in the class hides those of the bases. *)
Fixpoint lookup (c : class) : result :=
  match c with
  | CImpl n | COpt n => RFound (FImpl n)
  | CStd _ => RNone
  | CUser k (Some d) _ => RFound (FUser k d)
  | CUser _ None bases => fold_right (fun b r => merge (lookup (snd b)) r) RNone bases
  end.

(** [class.access.base], [class.paths]: the name is accessible if some path to the
    declaration goes through public bases only and the declaration is public
    (optional.h:1428, 1434, 2200: it is in the library). *)
Fixpoint accessible (c : class) : bool :=
  match c with
  | CImpl _ | COpt _ => true
  | CStd _ => false
  | CUser _ (Some d) _ => d_public d
  | CUser _ None bases => existsb (fun b => fst b && accessible (snd b)) bases
  end.

Definition value_of (f : found) : option bool :=
  match f with FImpl _ => Some true | FUser _ d => d_value d end.

(** ** Types *)

Inductive ty : Type :=
| TOther (n : nat)             (* void, arithmetic, enumeration, pointer, function, array, ... *)
| TIncomplete (n : nat)        (* a class that was only declared *)
| TClass (c : class)
| TCv (cst vol : bool) (t : ty)
| TRef (rvalue : bool) (t : ty).

(** [enable_if_t<U::is_tiny_optional, bool>] of the first IsTinyOptionalHelper
    (optional.h:252-256), Some false if the constant exists and is false: substitution
    succeeds for Some true only.  The type U const* of its parameter cannot be formed for
    references; qualifiers of U do not matter for [U::]. *)
Fixpoint constant (t : ty) : option bool :=
  match t with
  | TClass c =>
      match lookup c with
      | RFound f => if accessible c then value_of f else None
      | RNone | RAmbiguous => None
      end
  | TCv _ _ u => constant u
  | TOther _ | TIncomplete _ | TRef _ _ => None
  end.

(** is_tiny_optional_v (optional.h:266-269): the second helper takes nullptr by the ellipsis
    and always is viable; the first one, if it is, takes it by a standard conversion, which
    is better ([over.ics.rank]). *)
Inductive helper : Type := HPointer | HEllipsis.
Definition viable (t : ty) : list helper :=
  match constant t with Some true => [HPointer; HEllipsis] | _ => [HEllipsis] end.
Definition best (l : list helper) : helper :=
  if existsb (fun h => match h with HPointer => true | HEllipsis => false end) l
  then HPointer else HEllipsis.
Definition is_tiny_optional_v (t : ty) : bool :=
  match best (viable t) with HPointer => true | HEllipsis => false end.

(** IsStdOptional and IsSomeOptional (optional.h:327-335): a partial specialization, which
    matches exactly. *)
Definition IsStdOptional (t : ty) : bool :=
  match t with TClass (CStd _) => true | _ => false end.
Definition IsSomeOptional (t : ty) : bool := is_tiny_optional_v t || IsStdOptional t.

(** my_remove_cvref_t (optional.h:289-291). *)
Fixpoint remove_cv (t : ty) : ty := match t with TCv _ _ u => remove_cv u | _ => t end.
Fixpoint remove_reference (t : ty) : ty := match t with TRef _ u => remove_reference u | _ => t end.
Definition remove_cvref (t : ty) : ty := remove_cv (remove_reference t).

(** The static_assert of and_then for a callable that returns [r] (optional.h:1684-1685,
    1697-1698, 1710-1711, 1723-1724). *)
Definition and_then_accepts (r : ty) : bool := IsSomeOptional (remove_cvref r).

(** ** What the name means, said without the algorithm *)

(** [sees c f p]: the declaration [f] is in [c] or in a base of [c] and no class on the way
    hides it; [p] tells whether the way is through public bases to a public declaration. *)
Inductive sees : class -> found -> bool -> Prop :=
| sees_impl : forall n, sees (CImpl n) (FImpl n) true
| sees_opt : forall n, sees (COpt n) (FImpl n) true
| sees_own : forall k d bases, sees (CUser k (Some d) bases) (FUser k d) (d_public d)
| sees_base : forall k bases a b f p,
    In (a, b) bases -> sees b f p -> sees (CUser k None bases) f (a && p).

Lemma merge_none a b : merge a b = RNone <-> a = RNone /\ b = RNone.
Proof.
  destruct a as [|f|], b as [|g|]; cbn; try (split; [intros H|intros [? ?]]; congruence).
  - tauto.
  - destruct (found_eqb f g); split; [intros H|intros [? ?]|intros H|intros [? ?]]; congruence.
Qed.
Lemma merge_found a b f :
  merge a b = RFound f <->
  (a = RFound f /\ b = RNone) \/ (a = RNone /\ b = RFound f) \/ (a = RFound f /\ b = RFound f).
Proof.
  destruct a as [|g|], b as [|h|]; cbn; try (intuition congruence).
  destruct (found_eqb g h) eqn:E.
  - apply found_eqb_eq in E. subst h. intuition congruence.
  - split; [congruence|]. intros [[A B]|[[A B]|[A B]]]; try congruence.
    inversion A; inversion B; subst. rewrite (proj2 (found_eqb_eq f f) eq_refl) in E. congruence.
Qed.

Lemma merged_none l :
  fold_right (fun (b : bool * class) r => merge (lookup (snd b)) r) RNone l = RNone <->
  (forall b, In b l -> lookup (snd b) = RNone).
Proof.
  induction l as [|b l IH]; cbn [fold_right].
  - split; [intros _ b []|reflexivity].
  - rewrite merge_none, IH. split.
    + intros [A B] x [<-|Hx]; auto.
    + intros H. split; [apply H; left; reflexivity|intros x Hx; apply H; right; exact Hx].
Qed.
Lemma merged_found l f :
  fold_right (fun (b : bool * class) r => merge (lookup (snd b)) r) RNone l = RFound f <->
  (exists b, In b l /\ lookup (snd b) = RFound f) /\
  (forall b, In b l -> lookup (snd b) = RNone \/ lookup (snd b) = RFound f).
Proof.
  induction l as [|b l IH]; cbn [fold_right].
  - split; [congruence|intros [[b [[] _]] _]].
  - rewrite merge_found, IH, merged_none. split.
    + intros [[A B]|[[A [[x [X Y]] B]]|[A [[x [X Y]] B]]]]; split.
      * exists b. split; [left; reflexivity|exact A].
      * intros x [<-|X]; [right; exact A|left; exact (B x X)].
      * exists x. split; [right; exact X|exact Y].
      * intros y [<-|Z]; [left; exact A|exact (B y Z)].
      * exists b. split; [left; reflexivity|exact A].
      * intros y [<-|Z]; [right; exact A|exact (B y Z)].
    + intros [[x [X Y]] Z].
      assert (Zl : forall y, In y l -> lookup (snd y) = RNone \/ lookup (snd y) = RFound f)
        by (intros y Hy; apply Z; right; exact Hy).
      assert (D : (exists y, In y l /\ lookup (snd y) = RFound f) \/
                  (forall y, In y l -> lookup (snd y) = RNone)).
      { clear -Zl. induction l as [|a l IH]; [right; intros y []|].
        destruct (Zl a (or_introl eq_refl)) as [A|A].
        - destruct IH as [[y [Y1 Y2]]|N].
          + intros y Hy. apply Zl. right. exact Hy.
          + left. exists y. split; [right; exact Y1|exact Y2].
          + right. intros y [<-|Hy]; [exact A|exact (N y Hy)].
        - left. exists a. split; [left; reflexivity|exact A]. }
      destruct (Z b (or_introl eq_refl)) as [A|A].
      * right. left. split; [exact A|]. split; [|exact Zl].
        destruct D as [D|N]; [exact D|].
        destruct X as [<-|X]; [congruence|]. rewrite (N x X) in Y. discriminate.
      * destruct D as [D|N].
        -- right. right. split; [exact A|split; [exact D|exact Zl]].
        -- left. split; [exact A|exact N].
Qed.

Lemma lookup_sees c :
  (lookup c = RNone <-> (forall f p, ~ sees c f p)) /\
  (forall f, lookup c = RFound f <->
     (exists p, sees c f p) /\ (forall g p, sees c g p -> g = f)).
Proof.
  induction c as [n|n|n|k own bases IH] using class_deep.
  - split.
    + cbn. split; [discriminate|]. intros H. destruct (H _ _ (sees_impl n)).
    + intros f. cbn. split.
      * intros H. inversion H; subst. split; [exists true; constructor|].
        intros g p S. inversion S. reflexivity.
      * intros [_ H]. rewrite (H _ _ (sees_impl n)). reflexivity.
  - split.
    + cbn. split; [discriminate|]. intros H. destruct (H _ _ (sees_opt n)).
    + intros f. cbn. split.
      * intros H. inversion H; subst. split; [exists true; constructor|].
        intros g p S. inversion S. reflexivity.
      * intros [_ H]. rewrite (H _ _ (sees_opt n)). reflexivity.
  - split.
    + cbn. split; [intros _ f p S; inversion S|reflexivity].
    + intros f. cbn. split; [discriminate|intros [[p S] _]; inversion S].
  - destruct own as [d|].
    + split.
      * cbn. split; [discriminate|]. intros H. destruct (H _ _ (sees_own k d bases)).
      * intros f. cbn. split.
        -- intros H. inversion H; subst. split; [exists (d_public d); constructor|].
           intros g p S. inversion S. reflexivity.
        -- intros [_ H]. rewrite (H _ _ (sees_own k d bases)). reflexivity.
    + rewrite Forall_forall in IH. cbn [lookup]. split.
      * rewrite merged_none. split.
        -- intros H f p S. inversion S as [| | |k' bs a b g q Hin Sb]; subst.
           apply (proj1 (proj1 (IH (a, b) Hin)) (H (a, b) Hin) f q). exact Sb.
        -- intros H [a b] Hin. apply (proj1 (IH (a, b) Hin)). intros f p S.
           apply (H f (a && p)). econstructor; eassumption.
      * intros f. rewrite merged_found. split.
        -- intros [[[a b] [Hin L]] Hall]. split.
           ++ apply (proj2 (IH (a, b) Hin)) in L. destruct L as [[p S] _].
              exists (a && p). econstructor; eassumption.
           ++ intros g p S. inversion S as [| | |k' bs a' b' g' q Hin' Sb]; subst.
              destruct (Hall (a', b') Hin') as [N|F].
              ** destruct (proj1 (proj1 (IH (a', b') Hin')) N g q Sb).
              ** apply (proj2 (IH (a', b') Hin')) in F. destruct F as [_ U]. exact (U g q Sb).
        -- intros [[p S] U]. inversion S as [| | |k' bs a b g q Hin Sb]; subst.
           assert (Ub : forall x, In x bases -> forall g' p', sees (snd x) g' p' -> g' = f).
           { intros [a' b'] Hx g' p' S'. apply (U g' (a' && p')). econstructor; eassumption. }
           split.
           ++ exists (a, b). split; [exact Hin|].
              apply (proj2 (IH (a, b) Hin)). split; [exists q; exact Sb|exact (Ub (a, b) Hin)].
           ++ intros x Hx. destruct (lookup (snd x)) as [|g|] eqn:E; [left; reflexivity|right|].
              ** f_equal. apply (proj2 (IH x Hx)) in E. destruct E as [[r Sr] _].
                 exact (Ub x Hx g r Sr).
              ** exfalso.
                 assert (N : forall g r, ~ sees (snd x) g r).
                 { intros g r Sg. pose proof (Ub x Hx g r Sg) as ->.
                   assert (L : lookup (snd x) = RFound f)
                     by (apply (proj2 (IH x Hx)); split; [exists r; exact Sg|exact (Ub x Hx)]).
                   rewrite L in E. discriminate. }
                 apply (proj1 (IH x Hx)) in N. rewrite N in E. discriminate.
Qed.

Lemma accessible_sees c : accessible c = true <-> exists f, sees c f true.
Proof.
  induction c as [n|n|n|k own bases IH] using class_deep.
  - cbn. split; [intros _; eexists; constructor|reflexivity].
  - cbn. split; [intros _; eexists; constructor|reflexivity].
  - cbn. split; [discriminate|intros [f S]; inversion S].
  - destruct own as [d|]; cbn [accessible].
    + split.
      * intros H. exists (FUser k d). rewrite <- H. constructor.
      * intros [f S]. inversion S; subst. congruence.
    + rewrite Forall_forall in IH. rewrite existsb_exists. split.
      * intros [[a b] [Hin H]]. cbn in H. apply andb_true_iff in H. destruct H as [-> H].
        apply (IH (true, b) Hin) in H. destruct H as [f S]. exists f.
        change true with (true && true). econstructor; eassumption.
      * intros [f S]. inversion S as [| | |k' bs a b g q Hin Sb Hk Hb Hp]; subst.
        symmetry in Hp || idtac.
        assert (Hq : a = true /\ q = true) by (destruct a, q; cbn in *; auto; discriminate).
        destruct Hq as [-> ->].
        exists (true, b). split; [exact Hin|]. cbn. apply (IH (true, b) Hin). exists f. exact Sb.
Qed.

Lemma trait_constant t : is_tiny_optional_v t = true <-> constant t = Some true.
Proof.
  unfold is_tiny_optional_v, viable. destruct (constant t) as [[|]|]; cbn; split; congruence.
Qed.

(** ** C61 *)

(** Every optional of the library, whatever its arguments, also with const and volatile. *)
Theorem C61_true_for_tiny_optionals :
  forall n c v, is_tiny_optional_v (TClass (COpt n)) = true /\
                is_tiny_optional_v (TClass (CImpl n)) = true /\
                is_tiny_optional_v (TCv c v (TClass (COpt n))) = true /\
                is_tiny_optional_v (TCv c v (TClass (CImpl n))) = true.
Proof. intros n c v. repeat split; reflexivity. Qed.

(** No reference, std::optional or type that is no class, with any qualifiers. *)
Fixpoint no_class (t : ty) : Prop :=
  match t with
  | TOther _ | TIncomplete _ | TRef _ _ => True
  | TClass (CStd _) => True
  | TClass _ => False
  | TCv _ _ u => no_class u
  end.
Theorem C61_false_for_other_types :
  forall t, no_class t -> is_tiny_optional_v t = false.
Proof.
  intros t H. destruct (is_tiny_optional_v t) eqn:E; [|reflexivity].
  apply trait_constant in E. exfalso. revert H E.
  induction t as [n|n|[n|n|n|k own bases]|c v t IH|r t IH]; cbn; intros H E; try tauto; try discriminate.
Qed.

(** For classes, exactly: the name means one declaration, which can be reached publicly and
    is the constant true. *)
Theorem C61_decided_by_one_declaration :
  forall c, is_tiny_optional_v (TClass c) = true <->
    exists f, sees c f true /\ (forall g p, sees c g p -> g = f) /\ value_of f = Some true.
Proof.
  intros c. rewrite trait_constant. cbn [constant]. split.
  - destruct (lookup c) as [|f|] eqn:L; try discriminate.
    destruct (accessible c) eqn:A; try discriminate. intros V.
    apply (proj2 (lookup_sees c)) in L. destruct L as [_ U].
    apply accessible_sees in A. destruct A as [g Sg].
    pose proof (U g true Sg) as ->. exists f. auto.
  - intros [f [Sf [U V]]].
    assert (L : lookup c = RFound f)
      by (apply (proj2 (lookup_sees c)); split; [exists true; exact Sf|exact U]).
    assert (A : accessible c = true) by (apply accessible_sees; exists f; exact Sf).
    rewrite L, A. exact V.
Qed.

(** [bases_of c n p]: the n-th instance of TinyOptionalImpl is [c] or one of its direct and
    indirect bases, publicly if [p]. *)
Inductive bases_of : class -> nat -> bool -> Prop :=
| of_impl : forall n, bases_of (CImpl n) n true
| of_opt : forall n, bases_of (COpt n) n true
| of_base : forall k own bases a b n p,
    In (a, b) bases -> bases_of b n p -> bases_of (CUser k own bases) n (a && p).
(** No class of the user uses the name. *)
Inductive plain : class -> Prop :=
| plain_impl : forall n, plain (CImpl n)
| plain_opt : forall n, plain (COpt n)
| plain_std : forall n, plain (CStd n)
| plain_user : forall k bases,
    (forall a b, In (a, b) bases -> plain b) -> plain (CUser k None bases).

Lemma plain_sees c :
  plain c -> forall f p, sees c f p <-> exists n, f = FImpl n /\ bases_of c n p.
Proof.
  induction c as [n|n|n|k own bases IH] using class_deep; intros Hp f p.
  - split.
    + intros S. inversion S; subst. eexists. split; [reflexivity|constructor].
    + intros [m [-> B]]. inversion B; subst. constructor.
  - split.
    + intros S. inversion S; subst. eexists. split; [reflexivity|constructor].
    + intros [m [-> B]]. inversion B; subst. constructor.
  - split; [intros S; inversion S|intros [m [_ B]]; inversion B].
  - inversion Hp as [| | |k' bs Hb]; subst. rewrite Forall_forall in IH. split.
    + intros S. inversion S as [| | |k' bs a b g q Hin Sb]; subst.
      apply (IH (a, b) Hin (Hb a b Hin)) in Sb. destruct Sb as [m [-> B]].
      exists m. split; [reflexivity|]. econstructor; eassumption.
    + intros [m [-> B]]. inversion B as [| |k' o bs a b m' q Hin Bb]; subst.
      econstructor; [eassumption|]. apply (IH (a, b) Hin (Hb a b Hin)). exists m. auto.
Qed.

(** If the user's classes do not use the name, then the trait is true exactly for the
    library's optionals and the classes publicly derived from them, directly or not,
    without optionals of different types among their bases. *)
Theorem C61_derived_classes :
  forall c, plain c ->
    (is_tiny_optional_v (TClass c) = true <->
     exists n, bases_of c n true /\ (forall m p, bases_of c m p -> m = n)).
Proof.
  intros c Hc. rewrite C61_decided_by_one_declaration. split.
  - intros [f [S [U _]]]. apply (plain_sees c Hc) in S. destruct S as [n [-> B]].
    exists n. split; [exact B|]. intros m p Bm.
    assert (X : FImpl m = FImpl n)
      by (apply (U _ p); apply (plain_sees c Hc); exists m; auto).
    inversion X. reflexivity.
  - intros [n [B U]]. exists (FImpl n). split; [|split].
    + apply (plain_sees c Hc). exists n. auto.
    + intros g p S. apply (plain_sees c Hc) in S. destruct S as [m [-> Bm]].
      rewrite (U m p Bm). reflexivity.
    + reflexivity.
Qed.

(** Hence no class without a library optional among its bases, whatever it consists of. *)
Theorem C61_no_false_positives :
  forall c, plain c -> (forall n p, ~ bases_of c n p) -> is_tiny_optional_v (TClass c) = false.
Proof.
  intros c Hc H. destruct (is_tiny_optional_v (TClass c)) eqn:E; [|reflexivity].
  apply (C61_derived_classes c Hc) in E. destruct E as [n [B _]]. destruct (H n true B).
Qed.

(** README.md:264 in full: true for the library's optionals and false for every other type. *)
Inductive library : ty -> Prop :=
| lib_opt : forall n, library (TClass (COpt n))
| lib_impl : forall n, library (TClass (CImpl n))
| lib_cv : forall c v t, library t -> library (TCv c v t).
Definition tells_apart (dom : ty -> Prop) : Prop :=
  forall t, dom t -> (is_tiny_optional_v t = true <-> library t).

(** It does not hold: a class of the user with a member of that name is taken for an
    optional, and so is a class derived from one. *)
Theorem C61_readme_claim_refuted :
  (exists k, is_tiny_optional_v (TClass (CUser k (Some (MkDecl true (Some true))) [])) = true) /\
  (exists k n, is_tiny_optional_v (TClass (CUser k None [(true, COpt n)])) = true) /\
  ~ tells_apart (fun _ => True).
Proof.
  split; [exists 0; reflexivity|]. split; [exists 0, 0; reflexivity|].
  intros H. assert (X : library (TClass (CUser 0 (Some (MkDecl true (Some true))) [])))
    by (apply H; [exact I|reflexivity]).
  inversion X.
Qed.

(** It holds for all types without those two kinds of classes: no class of the user uses
    the name, and none has an optional of the library as a base. *)
Inductive unrelated : ty -> Prop :=
| un_other : forall n, unrelated (TOther n)
| un_incomplete : forall n, unrelated (TIncomplete n)
| un_impl : forall n, unrelated (TClass (CImpl n))
| un_opt : forall n, unrelated (TClass (COpt n))
| un_std : forall n, unrelated (TClass (CStd n))
| un_user : forall k bases,
    plain (CUser k None bases) -> (forall n p, ~ bases_of (CUser k None bases) n p) ->
    unrelated (TClass (CUser k None bases))
| un_cv : forall c v t, unrelated t -> unrelated (TCv c v t)
| un_ref : forall r t, unrelated t -> unrelated (TRef r t).
Theorem C61_tells_apart_partial : tells_apart unrelated.
Proof.
  intros t H. induction H as [n|n|n|n|n|k bases Hp Hn|c v t H IH|r t H IH].
  - split; [cbn; discriminate|intros X; inversion X].
  - split; [cbn; discriminate|intros X; inversion X].
  - split; [intros _; constructor|reflexivity].
  - split; [intros _; constructor|reflexivity].
  - split; [cbn; discriminate|intros X; inversion X].
  - rewrite (C61_no_false_positives _ Hp Hn). split; [discriminate|intros X; inversion X].
  - change (is_tiny_optional_v (TCv c v t)) with (is_tiny_optional_v t). rewrite IH.
    split; [intros X; constructor; exact X|intros X; inversion X; assumption].
  - split; [cbn; discriminate|intros X; inversion X].
Qed.

(** and_then accepts a callable exactly if what it returns, by value or by reference and
    with any qualifiers, is a std::optional or has the trait. *)
Theorem C61_and_then_accepts :
  forall r, and_then_accepts r = true <->
    (exists n, remove_cvref r = TClass (CStd n)) \/
    is_tiny_optional_v (remove_cvref r) = true.
Proof.
  intros r. unfold and_then_accepts, IsSomeOptional. rewrite orb_true_iff.
  assert (S : IsStdOptional (remove_cvref r) = true <-> exists n, remove_cvref r = TClass (CStd n)).
  { destruct (remove_cvref r) as [n|n|[n|n|n|k own bases]|c v t|b t]; cbn; split;
      try discriminate; try (intros [m H]; discriminate).
    - intros _. exists n. reflexivity.
    - reflexivity. }
  rewrite S. tauto.
Qed.

(** A derived class twice over, once publicly and once through a private base; classes with
    optionals of two types, with a hiding member, with a private base; references. *)
Example C61_example :
  let a := CUser 0 None [(true, COpt 7)] in
  let b := CUser 1 None [(false, COpt 7)] in
  let c := CUser 2 None [(true, CUser 3 None []); (true, a); (false, b); (true, CStd 1)] in
  plain c /\ bases_of c 7 true /\
  is_tiny_optional_v (TCv true true (TClass c)) = true /\
  is_tiny_optional_v (TRef false (TClass c)) = false /\
  and_then_accepts (TRef false (TCv true false (TClass c))) = true /\
  is_tiny_optional_v (TClass b) = false /\
  is_tiny_optional_v (TClass (CUser 4 None [(true, a); (true, COpt 8)])) = false /\
  is_tiny_optional_v (TClass (CUser 5 (Some (MkDecl true (Some false))) [(true, a)])) = false /\
  is_tiny_optional_v (TClass (CUser 6 None [(true, CUser 7 (Some (MkDecl false (Some true))) [])])) = false /\
  unrelated (TRef true (TClass (CUser 8 None [(true, CStd 1)]))).
Proof.
  cbv zeta. split; [|split; [|repeat split; try reflexivity]].
  - repeat (constructor; intros; cbn in *;
            repeat match goal with H : _ \/ _ |- _ => destruct H end;
            try contradiction;
            repeat match goal with H : (_, _) = (_, _) |- _ => inversion H; subst; clear H end).
  - change true with (true && (true && true)). econstructor; [right; left; reflexivity|].
    econstructor; [left; reflexivity|constructor].
  - constructor. constructor.
    + constructor. intros a b [H|[]]. inversion H; subst. constructor.
    + intros n p B. inversion B as [| |k o bs a b m q Hin Bb]; subst.
      destruct Hin as [H|[]]. inversion H; subst. inversion Bb.
Qed.
