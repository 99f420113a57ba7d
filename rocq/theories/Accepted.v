(** * Accepted: is_tiny_optional_v and what the static_asserts of the text refuse (C79)

    The trait is_tiny_optional_v, the static_asserts of the member functions and of the
    storage, and the default constructors and destructors, taken from the text of the header
    ([Library.v], [Source.v], [Templates.v]) instead of the hand-written models of
    [Traits.v]. *)

From Coq Require Import List Bool Arith Lia.
From Coq Require Import String.
From Verif Require Import Syntax Source TemplateSyntax Traits.
From Verif Require Library Templates Specials Smf Exec Declared.
Import ListNotations.
Local Open Scope string_scope.

(** ** The trait *)

(** The declaration of is_tiny_optional in a class of the library (optional.h:1434). *)
Definition marker_value (s : string) : option bool :=
  if String.eqb s "static constexpr bool is_tiny_optional=true;" then Some true
  else if String.eqb s "static constexpr bool is_tiny_optional=false;" then Some false
  else None.
Definition own (c : string) : option decl :=
  match filter (fun m => String.eqb (fst (fst m)) c) Library.markers with
  | [] => None
  | [(_, access, s)] => Some (MkDecl (String.eqb access "public") (marker_value s))
  | _ => Some (MkDecl false None)
  end.
(** Does the class derive publicly from its base class? *)
Definition derives_publicly (c : string) : bool :=
  match find (fun h => String.eqb (fst (fst h)) c) Library.class_heads with
  | Some (_, _, access) => String.eqb access "public"
  | None => false
  end.

(** Lookup of the name and access, as [lookup] and [accessible], with the classes of the
    library as they are written: TinyOptionalImpl and optional, which derives from it. *)
Definition impl_lookup (n : nat) : result :=
  match own "TinyOptionalImpl" with Some _ => RFound (FImpl n) | None => RNone end.
Definition impl_public : bool :=
  match own "TinyOptionalImpl" with Some d => d_public d | None => false end.
Fixpoint text_lookup (c : class) : result :=
  match c with
  | CImpl n => impl_lookup n
  | COpt n => match own "optional" with Some d => RFound (FUser n d) | None => impl_lookup n end
  | CStd _ => RNone
  | CUser k (Some d) _ => RFound (FUser k d)
  | CUser _ None bases => fold_right (fun b r => merge (text_lookup (snd b)) r) RNone bases
  end.
Fixpoint text_accessible (c : class) : bool :=
  match c with
  | CImpl _ => impl_public
  | COpt _ =>
      match own "optional" with
      | Some d => d_public d
      | None => derives_publicly "optional" && impl_public
      end
  | CStd _ => false
  | CUser _ (Some d) _ => d_public d
  | CUser _ None bases => existsb (fun b => fst b && text_accessible (snd b)) bases
  end.
Definition text_value (f : found) : option bool :=
  match f with
  | FImpl _ => match own "TinyOptionalImpl" with Some d => d_value d | None => None end
  | FUser _ d => d_value d
  end.
Fixpoint text_constant (t : ty) : option bool :=
  match t with
  | Traits.TClass c =>
      match text_lookup c with
      | RFound f => if text_accessible c then text_value f else None
      | RNone | RAmbiguous => None
      end
  | TCv _ _ u => text_constant u
  | TOther _ | TIncomplete _ | TRef _ _ => None
  end.

(** A function template called as f<t>(nullptr): None if it cannot be, otherwise the rank of
    the conversion (a pointer 1, the ellipsis 0) and what it returns. *)
Definition helper_call (t : ty) (d : Library.fdecl) : option (nat * bool) :=
  match Library.fd_params d, Library.fd_args d, Library.fd_body d with
  | [("class", u, false, None)], [a], Some [SReturn (Some (EBool b))] =>
      let rank :=
        match a with
        | (Some (TxName x), suffix, false, _) =>
            if String.eqb x u && String.eqb suffix "const*" then
              match t with TRef _ _ => None | _ => Some 1 end
            else None
        | (None, suffix, false, _) => if String.eqb suffix "..." then Some 0 else None
        | _ => None
        end in
      let valid :=
        match Library.fd_ret d with
        | TxName x => String.eqb x "bool"
        | TxApp e [TxMem (TxName x) m; TxName y] =>
            String.eqb e "std::enable_if_t" && String.eqb x u && String.eqb m "is_tiny_optional"
            && String.eqb y "bool"
            && match text_constant t with Some true => true | _ => false end
        | _ => false
        end in
      match rank with Some r => if valid then Some (r, b) else None | None => None end
  | _, _, _ => None
  end.
Definition calls (t : ty) : list (nat * bool) :=
  flat_map (fun d => match helper_call t d with Some r => [r] | None => [] end)
    (filter (fun d => String.eqb (Library.fd_name d) "IsTinyOptionalHelper") Library.declared).
(** The only best one; None if there is none or if it is ambiguous. *)
Definition best_call (l : list (nat * bool)) : option bool :=
  match filter (fun c => forallb (fun d => Nat.leb (fst d) (fst c)) l) l with
  | [(_, b)] => Some b
  | _ => None
  end.

(** The variable templates; Some false and Some true for the two versions of IsStdOptional. *)
Definition defs (x : string) : list tdef :=
  filter (fun d => String.eqb (td_name d) x) Library.library.
Definition text_is_tiny_optional_v (t : ty) : option bool :=
  match defs "is_tiny_optional_v" with
  | [Template _ TVariable [] [(u, false, None)] None [([], TxText s)] []] =>
      if String.eqb s ("impl::IsTinyOptionalHelper<" ++ u ++ ">(nullptr)") then best_call (calls t) else None
  | _ => None
  end.
Definition is_std (t : ty) : bool := match t with Traits.TClass (CStd _) => true | _ => false end.
Definition text_IsStdOptional (t : ty) : option bool :=
  match defs "IsStdOptional" with
  | [Template _ TVariable [] [(_, false, None)] None [([], TxBool a)] [];
     Template _ TVariable [] [(u, false, None)] (Some [TxApp o [TxName x]]) [([], TxBool b)] []] =>
      if String.eqb o "std::optional" && String.eqb u x then Some (if is_std t then b else a) else None
  | _ => None
  end.
Fixpoint some_condition (u : string) (t : ty) (e : texpr) : option bool :=
  match e with
  | TxOr a b =>
      match some_condition u t a, some_condition u t b with
      | Some x, Some y => Some (x || y)
      | _, _ => None
      end
  | TxAnd a b =>
      match some_condition u t a, some_condition u t b with
      | Some x, Some y => Some (x && y)
      | _, _ => None
      end
  | TxNot a => option_map negb (some_condition u t a)
  | TxApp f [TxName x] =>
      if String.eqb x u then
        if String.eqb f "is_tiny_optional_v" then text_is_tiny_optional_v t
        else if String.eqb f "IsStdOptional" then text_IsStdOptional t else None
      else None
  | _ => None
  end.
Definition text_IsSomeOptional (t : ty) : option bool :=
  match defs "IsSomeOptional" with
  | [Template _ TVariable [] [(u, false, None)] None [([], e)] []] => some_condition u t e
  | _ => None
  end.
(** my_remove_cvref_t (optional.h:291-292). *)
Fixpoint cvref_expr (u : string) (t : ty) (e : texpr) : option ty :=
  match e with
  | TxName x => if String.eqb x u then Some t else None
  | TxApp f [a] =>
      if String.eqb f "std::remove_cv_t" then option_map remove_cv (cvref_expr u t a)
      else if String.eqb f "std::remove_reference_t" then option_map remove_reference (cvref_expr u t a)
      else None
  | _ => None
  end.
Definition text_remove_cvref (t : ty) : option ty :=
  match defs "my_remove_cvref_t" with
  | [Template _ TAlias [] [(u, false, None)] None [([], e)] []] => cvref_expr u t e
  | _ => None
  end.

Lemma own_impl : own "TinyOptionalImpl" = Some (MkDecl true (Some true)).
Proof. vm_compute. reflexivity. Qed.
Lemma own_optional : own "optional" = None.
Proof. vm_compute. reflexivity. Qed.
Lemma publicly_optional : derives_publicly "optional" = true.
Proof. vm_compute. reflexivity. Qed.

Lemma text_lookup_is c : text_lookup c = lookup c.
Proof.
  induction c as [n|n|n|k o bases IH] using class_deep; cbn [text_lookup lookup].
  - unfold impl_lookup. rewrite own_impl. reflexivity.
  - rewrite own_optional. unfold impl_lookup. rewrite own_impl. reflexivity.
  - reflexivity.
  - destruct o; [reflexivity|]. induction IH as [|b l H _ IHl]; [reflexivity|].
    cbn [fold_right]. rewrite H, IHl. reflexivity.
Qed.
Lemma text_accessible_is c : text_accessible c = accessible c.
Proof.
  induction c as [n|n|n|k o bases IH] using class_deep; cbn [text_accessible accessible].
  - unfold impl_public. rewrite own_impl. reflexivity.
  - rewrite own_optional, publicly_optional. unfold impl_public. rewrite own_impl. reflexivity.
  - reflexivity.
  - destruct o; [reflexivity|]. induction IH as [|b l H _ IHl]; [reflexivity|].
    cbn [existsb]. rewrite H, IHl. reflexivity.
Qed.
Lemma text_constant_is t : text_constant t = constant t.
Proof.
  induction t as [n|n|c|a b t IH|r t IH]; cbn [text_constant constant];
    [reflexivity|reflexivity| |exact IH|reflexivity].
  rewrite text_lookup_is, text_accessible_is. destruct (lookup c) as [|f|]; try reflexivity.
Qed.

Lemma constant_ref r t : constant (TRef r t) = None.
Proof. reflexivity. Qed.
Lemma helpers_are :
  filter (fun d => String.eqb (Library.fd_name d) "IsTinyOptionalHelper") Library.declared
  = [Library.l253_IsTinyOptionalHelper; Library.l259_IsTinyOptionalHelper].
Proof. vm_compute. reflexivity. Qed.
Lemma first_helper t :
  helper_call t Library.l253_IsTinyOptionalHelper =
    match constant t with Some true => Some (1, true) | _ => None end.
Proof.
  unfold helper_call. cbn [Library.fd_params Library.fd_args Library.fd_body Library.fd_ret
    Library.l253_IsTinyOptionalHelper].
  rewrite text_constant_is. cbn [String.eqb Ascii.eqb Bool.eqb andb].
  assert (R : forall r u, t = TRef r u -> constant t = None) by (intros r u ->; reflexivity).
  destruct (constant t) as [[|]|]; destruct t; try reflexivity.
  discriminate (R _ _ eq_refl).
Qed.
Lemma second_helper t : helper_call t Library.l259_IsTinyOptionalHelper = Some (0, false).
Proof. reflexivity. Qed.
Lemma text_trait t : text_is_tiny_optional_v t = Some (is_tiny_optional_v t).
Proof.
  unfold text_is_tiny_optional_v.
  replace (defs "is_tiny_optional_v") with [Library.t269_is_tiny_optional_v] by (vm_compute; reflexivity).
  cbn [Library.t269_is_tiny_optional_v].
  replace (String.eqb "impl::IsTinyOptionalHelper<U>(nullptr)"
             ("impl::IsTinyOptionalHelper<" ++ "U" ++ ">(nullptr)")) with true by (vm_compute; reflexivity).
  unfold calls. rewrite helpers_are. cbn [flat_map]. rewrite first_helper, second_helper.
  unfold is_tiny_optional_v, viable.
  destruct (constant t) as [[|]|]; reflexivity.
Qed.
Lemma text_std t : text_IsStdOptional t = Some (IsStdOptional t).
Proof.
  unfold text_IsStdOptional.
  replace (defs "IsStdOptional") with [Library.t329_IsStdOptional; Library.t331_IsStdOptional]
    by (vm_compute; reflexivity).
  destruct t as [n|n|[n|n|n|k o bases]|a b t|r t]; reflexivity.
Qed.
Lemma text_some t : text_IsSomeOptional t = Some (IsSomeOptional t).
Proof.
  unfold text_IsSomeOptional.
  replace (defs "IsSomeOptional") with [Library.t335_IsSomeOptional] by (vm_compute; reflexivity).
  cbn [Library.t335_IsSomeOptional some_condition String.eqb Ascii.eqb Bool.eqb andb].
  rewrite text_trait, text_std. reflexivity.
Qed.
Lemma text_cvref t : text_remove_cvref t = Some (remove_cvref t).
Proof. reflexivity. Qed.

(** ** C79: the trait *)

(** For every class, also one of the user: true exactly if the name means one declaration,
    which can be reached publicly and is the constant true; decided for every type. *)
Theorem C79_trait_of_classes :
  forall c, text_is_tiny_optional_v (Traits.TClass c) = Some true <->
    exists f, sees c f true /\ (forall g p, sees c g p -> g = f) /\ value_of f = Some true.
Proof.
  intros c. rewrite text_trait, <- C61_decided_by_one_declaration. split; intros H; congruence.
Qed.
Theorem C79_trait_is_decided :
  forall t, exists b, text_is_tiny_optional_v t = Some b /\
    (no_class t -> b = false) /\ (library t -> b = true).
Proof.
  intros t. exists (is_tiny_optional_v t). split; [apply text_trait|]. split.
  - apply C61_false_for_other_types.
  - intros H. induction H as [n|n|c v t H IH]; [reflexivity|reflexivity|].
    change (is_tiny_optional_v (TCv c v t)) with (is_tiny_optional_v t). exact IH.
Qed.
(** Classes that do not use the name themselves. *)
Theorem C79_trait_of_derived_classes :
  forall c, plain c ->
    (text_is_tiny_optional_v (Traits.TClass c) = Some true <->
     exists n, bases_of c n true /\ (forall m p, bases_of c m p -> m = n)).
Proof.
  intros c H. rewrite text_trait, <- (C61_derived_classes c H). split; intros E; congruence.
Qed.

(** ** static_asserts of the member functions *)

Section Asserts.
(** Traits of the payload, and is the argument of value_or convertible to it. *)
Variables copyable movable swappable convertible : bool.
(** What the callable returns for a payload that is const or not, as an lvalue or an rvalue;
    and without an argument. *)
Variable result_at : bool -> bool -> ty.
Variable result_alone : ty.
(** Properties of types: object type, array, nullopt_t, in_place_t, the class of the
    optional itself. *)
Variables object array nullopt in_place self : ty -> bool.

Definition raw (c lvalue : bool) : string :=
  "std::invoke_result_t<F,PayloadType" ++ (if c then " const" else "") ++ (if lvalue then "&" else "") ++ ">".
Definition raws : list (string * ty) :=
  [(raw false true, result_at false true); (raw false false, result_at false false);
   (raw true true, result_at true true); (raw true false, result_at true false);
   ("std::invoke_result_t<F>", result_alone)].
(** The types that the functions name. *)
Definition type_names : list (string * option ty) :=
  map (fun r => (fst r, Some (snd r))) raws ++
  map (fun r => ("std::remove_cv_t<" ++ fst r ++ ">", Some (remove_cv (snd r)))) raws ++
  map (fun r => ("my_remove_cvref_t<" ++ fst r ++ ">", text_remove_cvref (snd r))) raws ++
  map (fun r => ("impl::my_remove_cvref_t<" ++ fst r ++ ">", text_remove_cvref (snd r))) raws.
Definition find_name {A : Type} (l : list (string * A)) (x : string) : option A :=
  option_map snd (find (fun b => String.eqb (fst b) x) l).
(** With the using declarations [us] of the function. *)
Definition names (us : list (string * string)) : list (string * option ty) :=
  map (fun u => (fst u, match find_name type_names (snd u) with Some t => t | None => None end)) us
  ++ type_names.

(** The traits, for all types with a name. *)
Definition trait_names (cls : string) (us : list (string * string)) : list (string * option bool) :=
  [("std::is_copy_constructible_v<PayloadType>", Some copyable);
   ("std::is_move_constructible_v<PayloadType>", Some movable);
   ("std::is_swappable_v<PayloadType>", Some swappable);
   ("std::is_convertible_v<U,PayloadType>", Some convertible)] ++
  flat_map (fun n =>
    let at_type (f : ty -> option bool) := match snd n with Some t => f t | None => None end in
    [("IsSomeOptional<" ++ fst n ++ ">", at_type text_IsSomeOptional);
     ("std::is_same_v<" ++ fst n ++ ",std::nullopt_t>", at_type (fun t => Some (nullopt t)));
     ("std::is_same_v<" ++ fst n ++ ",std::in_place_t>", at_type (fun t => Some (in_place t)));
     ("std::is_same_v<" ++ fst n ++ "," ++ cls ++ ">", at_type (fun t => Some (self t)));
     ("std::is_object_v<" ++ fst n ++ ">", at_type (fun t => Some (object t)));
     ("std::is_array_v<" ++ fst n ++ ">", at_type (fun t => Some (array t)))]) (names us).

Fixpoint holds (traits : list (string * option bool)) (e : expr) : option bool :=
  match e with
  | EName x => match find_name traits x with Some b => b | None => None end
  | EUn o a => if String.eqb o "!" then option_map negb (holds traits a) else None
  | EBin o a b =>
      match holds traits a, holds traits b with
      | Some x, Some y =>
          if String.eqb o "&&" then Some (x && y)
          else if String.eqb o "||" then Some (x || y) else None
      | _, _ => None
      end
  | _ => None
  end.
Definition statements (f : fundef) : list stmt := match f_body f with Body l => l | _ => [] end.
Definition asserts (f : fundef) : list expr :=
  flat_map (fun s => match s with SStaticAssert e => [e] | _ => [] end) (statements f).
Definition usings (f : fundef) : list (string * string) :=
  flat_map (fun s => match s with SUsing x t => [(x, t)] | _ => [] end) (statements f).
(** Does the function compile, as far as its static_asserts are concerned?  None if one of
    them is not understood. *)
Definition accepts (f : fundef) : option bool :=
  fold_right (fun e r =>
    match holds (trait_names (f_class f) (usings f)) e, r with
    | Some x, Some y => Some (x && y)
    | _, _ => None
    end) (Some true) (asserts f).

Definition member (cls x : string) : list fundef :=
  filter (fun f => String.eqb (f_class f) cls && String.eqb (f_name f) x) source.
Lemma member_in cls x f : In f source -> f_class f = cls -> f_name f = x -> In f (member cls x).
Proof.
  intros H A B. apply filter_In. split; [exact H|]. rewrite A, B, !String.eqb_refl. reflexivity.
Qed.
Definition is_lvalue (f : fundef) : bool := String.eqb (f_ref f) "&".

(** ** C79: what the member functions refuse *)

(** value_or: as [optional.observe], the payload has to be copyable (for an rvalue: movable)
    and the argument has to be convertible to it. *)
Theorem C79_value_or :
  forall f, In f source -> f_class f = "TinyOptionalImpl" -> f_name f = "value_or" ->
    accepts f = Some ((if is_lvalue f then copyable else movable) && convertible).
Proof.
  intros f H A B. pose proof (member_in _ _ f H A B) as M. clear H A B.
  replace (member "TinyOptionalImpl" "value_or") with [f1633_value_or; f1644_value_or] in M
    by (vm_compute; reflexivity).
  cbn [In] in M. destruct M as [<-|[<-|[]]]; cbn; rewrite andb_true_r; reflexivity.
Qed.
Theorem C79_swap :
  forall f, In f source -> f_class f = "TinyOptionalImpl" -> f_name f = "swap" ->
    accepts f = Some (movable && swappable).
Proof.
  intros f H A B. pose proof (member_in _ _ f H A B) as M. clear H A B.
  replace (member "TinyOptionalImpl" "swap") with [f1656_swap] in M by (vm_compute; reflexivity).
  cbn [In] in M. destruct M as [<-|[]]; cbn; rewrite andb_true_r; reflexivity.
Qed.
(** and_then: what the callable returns for this payload is, apart from const and reference, a
    std::optional or has the trait. *)
Theorem C79_and_then :
  forall f, In f source -> f_class f = "TinyOptionalImpl" -> f_name f = "and_then" ->
    let r := remove_cvref (result_at (f_const f) (is_lvalue f)) in
    exists b, accepts f = Some b /\
      (b = true <-> (exists n, r = Traits.TClass (CStd n)) \/ text_is_tiny_optional_v r = Some true).
Proof.
  intros f H A B r.
  enough (E : accepts f = Some (and_then_accepts (result_at (f_const f) (is_lvalue f)))).
  { eexists. split; [exact E|]. rewrite C61_and_then_accepts, text_trait. fold r.
    split; (intros [X|X]; [left; exact X|right; congruence]). }
  pose proof (member_in _ _ f H A B) as M. clear H A B r.
  replace (member "TinyOptionalImpl" "and_then")
    with [f1682_and_then; f1695_and_then; f1708_and_then; f1721_and_then] in M
    by (vm_compute; reflexivity).
  cbn [In] in M.
  destruct M as [<-|[<-|[<-|[<-|[]]]]]; cbv -[text_IsSomeOptional text_remove_cvref and_then_accepts];
    rewrite text_cvref, text_some; unfold and_then_accepts; destruct (IsSomeOptional _); reflexivity.
Qed.
(** transform: what it returns, without const and volatile, is an object type that is no
    array, nullopt_t or in_place_t; so not a reference or void. *)
Theorem C79_transform :
  forall f, In f source -> f_class f = "TinyOptionalImpl" -> f_name f = "transform" ->
    let u := remove_cv (result_at (f_const f) (is_lvalue f)) in
    accepts f = Some (negb (nullopt u) && negb (in_place u) && (object u && negb (array u))).
Proof.
  intros f H A B. pose proof (member_in _ _ f H A B) as M. clear H A B.
  replace (member "TinyOptionalImpl" "transform")
    with [f1734_transform; f1757_transform; f1777_transform; f1797_transform] in M
    by (vm_compute; reflexivity).
  cbn [In] in M.
  destruct M as [<-|[<-|[<-|[<-|[]]]]]; cbv -[remove_cv andb negb];
    rewrite andb_true_r, andb_assoc; reflexivity.
Qed.
(** or_else: the callable returns the optional itself, apart from const and reference. *)
Theorem C79_or_else :
  forall f, In f source -> In (f_class f) ["TinyOptionalImpl"; "optional"] -> f_name f = "or_else" ->
    accepts f = Some (self (remove_cvref result_alone)).
Proof.
  intros f H A B.
  assert (M : In f (member "TinyOptionalImpl" "or_else" ++ member "optional" "or_else")%list).
  { apply in_or_app. destruct A as [A|[A|[]]]; [left|right]; apply member_in; auto. }
  clear H A B.
  replace (member "TinyOptionalImpl" "or_else" ++ member "optional" "or_else")%list
    with [f1820_or_else; f1830_or_else; f2253_or_else; f2263_or_else] in M
    by (vm_compute; reflexivity).
  cbn [In] in M.
  destruct M as [<-|[<-|[<-|[<-|[]]]]]; cbv -[text_remove_cvref remove_cvref andb];
    rewrite text_cvref, andb_true_r; reflexivity.
Qed.
(** All other member functions, and the free ones, are not restricted in this way. *)
Theorem C79_no_other_restrictions :
  forall f, In f source -> In (f_class f) ["TinyOptionalImpl"; "optional"; ""; "hash"] ->
    ~ In (f_name f) ["value_or"; "swap"; "and_then"; "transform"; "or_else"] ->
    accepts f = Some true.
Proof.
  intros f H A B.
  enough (E : asserts f = []) by (unfold accepts; rewrite E; reflexivity).
  assert (T : forallb (fun f =>
    negb (existsb (String.eqb (f_class f)) ["TinyOptionalImpl"; "optional"; ""; "hash"])
    || existsb (String.eqb (f_name f)) ["value_or"; "swap"; "and_then"; "transform"; "or_else"]
    || match asserts f with [] => true | _ => false end) source = true) by (vm_compute; reflexivity).
  rewrite forallb_forall in T. specialize (T f H).
  assert (X : existsb (String.eqb (f_class f)) ["TinyOptionalImpl"; "optional"; ""; "hash"] = true).
  { apply existsb_exists. exists (f_class f). split; [exact A|apply String.eqb_refl]. }
  rewrite X in T. destruct (existsb (String.eqb (f_name f)) _) eqn:E.
  - apply existsb_exists in E. destruct E as [x [Hx Ex]]. apply String.eqb_eq in Ex. subst x.
    destruct (B Hx).
  - destruct (asserts f); [reflexivity|discriminate T].
Qed.
End Asserts.

(** ** Default constructors and destructors *)

(** Can a class be default constructed and destroyed: its own function is not deleted, and
    those of its base classes are not, for the versions of the base classes that the traits
    of the payload choose.  A class that declares other constructors only has no default
    constructor. *)
Definition own_default (cls : string) (fs : list fundef) : option bool :=
  let cs := filter (fun f => String.eqb (f_name f) cls) fs in
  match filter (fun f => match f_params f with [] => true | _ => false end) cs with
  | [] => Some (match cs with [] => true | _ => false end)
  | [f] => Some (match f_body f with Deleted => false | _ => true end)
  | _ => None
  end.
Definition own_destructor (cls : string) (fs : list fundef) : option bool :=
  match filter (fun f => String.eqb (f_name f) ("~" ++ cls)) fs with
  | [] => Some true
  | [f] => Some (match f_body f with Deleted => false | _ => true end)
  | _ => None
  end.
Fixpoint along (own : string -> list fundef -> option bool) (n : nat) (t : Smf.traits) (cls : string)
  : option bool :=
  match n with
  | 0 => None
  | S m =>
      match Declared.version t cls with
      | Some (b, fs) =>
          match own cls fs, match b with Some c => along own m t c | None => Some true end with
          | Some x, Some y => Some (x && y)
          | _, _ => None
          end
      | None => None
      end
  end.

(** Whatever can be done with the payload. *)
Theorem C79_default_constructor_and_destructor :
  forall t cls, In cls Declared.optional_classes ->
    along own_default 8 t cls = Some true /\ along own_destructor 8 t cls = Some true.
Proof.
  intros [[] [] [] [] x y] cls [<-|[<-|[]]]; split; vm_compute; reflexivity.
Qed.

(** ** static_asserts of the storage *)

Section Storage.
(** [nothrow c f t]: the function [f] of the decomposition or flag manipulator can be called
    with an argument of type [t] and is noexcept. *)
Variable nothrow : string -> string -> string -> bool.
(** The payload: is it, const and volatile aside, nullopt_t or in_place_t; is it an object
    type, destructible, an array. *)
Variables p_nullopt p_in_place p_object p_destructible p_array : bool.

Definition noexcept_names : list (string * bool) :=
  flat_map (fun c => flat_map (fun f => map (fun t =>
      ("noexcept(" ++ c ++ "::" ++ f ++ "(std::declval<" ++ t ++ ">()))", nothrow c f t))
    ["StoredType&"; "StoredType const&"; "FlagType&"; "FlagType const&"; "PayloadType&"])
    ["GetIsEmptyFlag"; "GetPayload"; "is_empty"; "init_empty_flag"; "invalidate_empty_flag"])
    ["StoredTypeDecomposition"; "FlagManipulator"].
Fixpoint storage_condition (e : texpr) : option bool :=
  match e with
  | TxText s => find_name noexcept_names s
  | TxNot a => option_map negb (storage_condition a)
  | TxAnd a b =>
      match storage_condition a, storage_condition b with
      | Some x, Some y => Some (x && y)
      | _, _ => None
      end
  | TxOr a b =>
      match storage_condition a, storage_condition b with
      | Some x, Some y => Some (x || y)
      | _, _ => None
      end
  | TxApp f [TxName x] =>
      if String.eqb x "PayloadType" then
        if String.eqb f "std::is_object_v" then Some p_object
        else if String.eqb f "std::is_destructible_v" then Some p_destructible
        else if String.eqb f "std::is_array_v" then Some p_array else None
      else None
  | TxApp f [TxApp g [TxName x]; TxName y] =>
      if String.eqb f "std::is_same_v" && String.eqb g "std::remove_cv_t" && String.eqb x "PayloadType" then
        if String.eqb y "std::nullopt_t" then Some p_nullopt
        else if String.eqb y "std::in_place_t" then Some p_in_place else None
      else None
  | _ => None
  end.
(** The static_asserts of StorageBase.  FlagType is what GetIsEmptyFlag returns. *)
Definition storage_accepts : option bool :=
  match filter (fun d => String.eqb (td_name d) "StorageBase") Templates.templates with
  | [d] =>
      if existsb (fun i => match i with
                           | ([], IUsing x (TxText s)) =>
                               String.eqb x "FlagType" &&
                               String.eqb s "std::remove_reference_t<decltype(StoredTypeDecomposition::GetIsEmptyFlag(std::declval<StoredType&>()))>"
                           | _ => false
                           end) (td_items d)
      then
        fold_right (fun i r =>
          match i with
          | ([], IAssert e) =>
              match storage_condition e, r with Some x, Some y => Some (x && y) | _, _ => None end
          | (_ :: _, IAssert _) => None
          | _ => r
          end) (Some true) (td_items d)
      else None
  | _ => None
  end.

(** Exactly these requirements: on a flag manipulator, also one that is written by the user,
    on the decomposition, and on the payload those of [optional.optional]. *)
Theorem C79_storage :
  storage_accepts = Some true <->
    (nothrow "FlagManipulator" "is_empty" "FlagType const&" = true /\
     nothrow "FlagManipulator" "init_empty_flag" "FlagType&" = true /\
     nothrow "FlagManipulator" "invalidate_empty_flag" "FlagType&" = true) /\
    (nothrow "StoredTypeDecomposition" "GetIsEmptyFlag" "StoredType&" = true /\
     nothrow "StoredTypeDecomposition" "GetPayload" "StoredType&" = true) /\
    p_nullopt = false /\ p_in_place = false /\
    p_object = true /\ p_destructible = true /\ p_array = false.
Proof.
  unfold storage_accepts.
  replace (filter (fun d => String.eqb (td_name d) "StorageBase") Templates.templates)
    with [Templates.t916_StorageBase] by (vm_compute; reflexivity).
  cbv - [andb negb iff not].
  set (a := nothrow "FlagManipulator" "is_empty" "FlagType const&").
  set (b := nothrow "FlagManipulator" "init_empty_flag" "FlagType&").
  set (c := nothrow "FlagManipulator" "invalidate_empty_flag" "FlagType&").
  set (d := nothrow "StoredTypeDecomposition" "GetIsEmptyFlag" "StoredType&").
  set (e := nothrow "StoredTypeDecomposition" "GetPayload" "StoredType&").
  clearbody a b c d e.
  destruct a, b, c, d, e, p_nullopt, p_in_place, p_object, p_destructible, p_array; cbn;
    split; intros H; try reflexivity; try discriminate H; intuition discriminate.
Qed.
End Storage.

(** The manipulators and decompositions of the header have these functions: static, noexcept,
    with one parameter that takes an lvalue (for is_empty a const one). *)
Definition takes_const (t : string) : bool :=
  existsb (String.eqb t) ["FlagType const&"; "PayloadType const&"; "bool"; "bool const&"].
Definition takes_mutable (t : string) : bool :=
  existsb (String.eqb t) ["FlagType&"; "PayloadType&"; "bool&"; "StoredType&"].
Definition qualifies (takes : string -> bool) (cls x : string) : Prop :=
  exists f t y, member cls x = [f] /\ f_static f = true /\ f_noexcept f = Some (EBool true) /\
    f_params f = [Param t y false] /\ takes t = true.
Theorem C79_own_functions_qualify :
  (forall m, In m ["SeparateFlagManipulator"; "MemcpyAndCmpFlagManipulator";
                   "AssignmentFlagManipulator"; "sentinel_flag_manipulator"] ->
     qualifies takes_const m "is_empty" /\ qualifies takes_mutable m "init_empty_flag" /\
     qualifies takes_mutable m "invalidate_empty_flag") /\
  (forall d, In d ["DecompositionForSeparateFlag"; "InplaceStoredTypeDecomposition";
                   "InplaceDecompositionViaMemPtr"] ->
     qualifies takes_mutable d "GetIsEmptyFlag" /\ qualifies takes_mutable d "GetPayload").
Proof.
  split; intros m H; cbn [In] in H;
    repeat match type of H with _ \/ _ => destruct H as [<-|H] | False => destruct H end;
    repeat split; unfold qualifies;
    match goal with |- exists f t y, ?l = _ /\ _ =>
      let l' := eval vm_compute in l in
      match l' with [?f] =>
        exists f; let ps := eval vm_compute in (f_params f) in
        match ps with [Param ?t ?y _] => exists t, y end
      end
    end; vm_compute; repeat split.
Qed.

(** A callable that returns a const reference to a class derived from an optional is fine for
    and_then, one that returns int is not; transform refuses an array; value_or needs the
    conversion; a manipulator without noexcept is refused. *)
Example C79_example :
  let r (c l : bool) := TRef false (TCv true false (Traits.TClass (CUser 0 None [(true, COpt 7)]))) in
  let no (t : ty) := false in
  accepts true true true true r (TOther 0) no no no no no f1695_and_then = Some true /\
  accepts true true true true (fun _ _ => TOther 0) (TOther 0) no no no no no f1695_and_then = Some false /\
  accepts true true true true (fun _ _ => TOther 1) (TOther 0) (fun _ => true)
    (fun t => match t with TOther 1 => true | _ => false end) no no no f1734_transform = Some false /\
  accepts true true true false r (TOther 0) no no no no no f1633_value_or = Some false /\
  storage_accepts (fun _ _ _ => true) false false true true false = Some true /\
  storage_accepts (fun _ f _ => negb (String.eqb f "is_empty")) false false true true false = Some false.
Proof. vm_compute. repeat split. Qed.

Print Assumptions C79_trait_of_classes.
Print Assumptions C79_and_then.
Print Assumptions C79_no_other_restrictions.
Print Assumptions C79_storage.
