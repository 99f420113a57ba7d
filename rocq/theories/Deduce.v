(** * Deduce: class template argument deduction and make_optional (C57)

    [tiny::optional{x}] and [tiny::make_optional(...)] leave the type of the optional to
    the compiler.  This file contains the deduction guides that the class template has
    (the declared one, optional.h:2274-2275, and those that C++ derives from the
    constructors, optional.h:2209-2217), the three functions make_optional
    (optional.h:2278-2310), the rules for template argument deduction, partial ordering
    and overload resolution as far as they matter here, and the same for std::optional.

    Simplifications: no volatile; classes have at most one direct base class; classes
    derived from initializer_list and explicit template arguments that are function types
    do not occur; conversions between unrelated types are arbitrary predicates. *)

From Coq Require Import List Bool Arith Lia.
Import ListNotations.

(** ** Types and arguments *)

(** A non-type template argument: [UseDefaultValue] or another constant. *)
Inductive targ : Type := ADefault | AValue (n : nat).

Inductive ty : Type :=
| TName (n : nat)                  (* any other type *)
| TClass (n : nat) (b : ty)        (* a class with base class [b] *)
| TTiny (p : ty) (a b : targ)      (* tiny::optional<p, a, b> *)
| TImpl (n : nat) (p : ty)         (* a TinyOptionalImpl, e.g. optional_inplace<p, ...> *)
| TStd (p : ty)                    (* std::optional<p> *)
| TNullopt | TInPlace              (* std::nullopt_t, std::in_place_t *)
| TInit (p : ty)                   (* std::initializer_list<p> *)
| TPtr (t : ty)
| TArray (t : ty) (n : nat)
| TFun (n : nat)
| TConst (t : ty).

Definition targ_eq_dec (a b : targ) : {a = b} + {a <> b}.
Proof. decide equality; apply Nat.eq_dec. Defined.
Definition ty_eq_dec (a b : ty) : {a = b} + {a <> b}.
Proof. decide equality; try apply Nat.eq_dec; apply targ_eq_dec. Defined.
Definition ty_eqb (a b : ty) : bool := if ty_eq_dec a b then true else false.
Definition targ_eqb (a b : targ) : bool := if targ_eq_dec a b then true else false.

Fixpoint remove_const (t : ty) : ty := match t with TConst u => remove_const u | _ => t end.
Definition is_const (t : ty) : bool := match t with TConst _ => true | _ => false end.

(** std::decay for types that are not references: an array becomes a pointer to its
    elements (const if the array is), a function a pointer to it, otherwise const is
    removed. *)
Definition decay (t : ty) : ty :=
  match remove_const t with
  | TArray u _ => TPtr (if is_const t then TConst u else u)
  | TFun n => TPtr (TFun n)
  | u => u
  end.

Inductive cat : Type := L | R.
(** An argument of a call: an expression with its type and value category, or a braced
    list of expressions with the given types. *)
Inductive argx : Type := AExpr (t : ty) (c : cat) | ABraces (ts : list ty).

(** A class and its base classes, nearest first. *)
Fixpoint chain (t : ty) : list ty :=
  match t with TClass _ b => t :: chain b | _ => [t] end.

(** ** Template argument deduction *)

(** The type of a function parameter without reference and const, with variables for the
    template parameters. *)
Inductive pat : Type :=
| PVar (i : nat) | PTiny (p : pat) (a b : nat) | PStd (p : pat) | PNullopt | PInPlace.
(** How the parameter is passed: [T], [T const &], [T &&] for a template parameter of the
    class (an rvalue reference), [T &&] for one of the function (a forwarding
    reference). *)
Inductive form : Type := ByVal | ByConstRef | ByRRef | ByForward.

(** What the variables stand for. *)
Record subst : Type := MkSubst { s_ty : list (nat * ty); s_arg : list (nat * targ) }.
Definition no_subst : subst := MkSubst [] [].
Fixpoint lookup {A : Type} (i : nat) (l : list (nat * A)) : option A :=
  match l with [] => None | (j, x) :: r => if Nat.eqb i j then Some x else lookup i r end.
Definition bind_ty (i : nat) (t : ty) (s : subst) : option subst :=
  match lookup i (s_ty s) with
  | None => Some (MkSubst ((i, t) :: s_ty s) (s_arg s))
  | Some u => if ty_eqb t u then Some s else None
  end.
Definition bind_arg (i : nat) (a : targ) (s : subst) : option subst :=
  match lookup i (s_arg s) with
  | None => Some (MkSubst (s_ty s) ((i, a) :: s_arg s))
  | Some u => if targ_eqb a u then Some s else None
  end.

(** Deduce the variables of [p] from the type [t] ([temp.deduct.type]). *)
Fixpoint deduce (p : pat) (t : ty) (s : subst) : option subst :=
  match p, t with
  | PVar i, _ => bind_ty i t s
  | PTiny q a b, TTiny u x y =>
      match deduce q u s with
      | Some s1 => match bind_arg a x s1 with Some s2 => bind_arg b y s2 | None => None end
      | None => None
      end
  | PStd q, TStd u => deduce q u s
  | PNullopt, TNullopt => Some s
  | PInPlace, TInPlace => Some s
  | _, _ => None
  end.

(** The first of some types from which the deduction succeeds, and its position. *)
Fixpoint deduce_first (p : pat) (ts : list ty) (n : nat) (s : subst) : option (subst * nat) :=
  match ts with
  | [] => None
  | t :: r => match deduce p t s with Some s' => Some (s', n) | None => deduce_first p r (S n) s end
  end.

(** Deduction from an expression ([temp.deduct.call]): the number is the length of the
    derived-to-base conversion, 0 for an exact match.  A parameter that is a
    specialization of a class template is also deduced from the base classes. *)
Definition deduce_expr (f : form) (p : pat) (t : ty) (c : cat) (s : subst) : option (subst * nat) :=
  match f, p with
  | ByVal, PVar i => option_map (fun s' => (s', 0)) (bind_ty i (decay t) s)
  | ByForward, PVar i => option_map (fun s' => (s', 0)) (bind_ty i t s)
  | ByRRef, _ =>
      match c with L => None | R => if is_const t then None else deduce_first p (chain t) 0 s end
  | _, _ => deduce_first p (chain (remove_const t)) 0 s
  end.

(** ** Deduction guides *)

(** A guide: the template parameters (types, and constants), the defaults of some type
    parameters (which are other type parameters), the function parameters, is there a
    parameter pack after them, the class it names, and: is it declared by the user, is it
    the copy deduction candidate. *)
Record guide : Type := MkGuide {
  g_tys : list nat;
  g_args : list nat;
  g_defaults : list (nat * nat);
  g_params : list (form * pat);
  g_pack : bool;
  g_result : subst -> option ty;
  g_user : bool;
  g_copy : bool }.

(** Deduce from all arguments; a braced list makes the parameter non-deduced, which in
    these guides never leaves a parameter that could be initialized from it. *)
Fixpoint deduce_all (ps : list (form * pat)) (pack : bool) (xs : list argx) (s : subst)
  : option (subst * list nat) :=
  match ps, xs with
  | [], [] => Some (s, [])
  | [], _ :: _ => if pack then Some (s, []) else None
  | (f, p) :: ps', AExpr t c :: xs' =>
      match deduce_expr f p t c s with
      | Some (s1, n) =>
          match deduce_all ps' pack xs' s1 with Some (s2, ns) => Some (s2, n :: ns) | None => None end
      | None => None
      end
  | _, _ => None
  end.
(** Parameters that were not deduced get their defaults. *)
Definition add_defaults (ds : list (nat * nat)) (s : subst) : option subst :=
  fold_left (fun o d =>
    match o with
    | None => None
    | Some s' =>
        match lookup (fst d) (s_ty s') with
        | Some _ => o
        | None => match lookup (snd d) (s_ty s') with
                  | Some t => bind_ty (fst d) t s'
                  | None => None
                  end
        end
    end) ds (Some s).
Definition bound {A : Type} (l : list (nat * A)) (i : nat) : bool :=
  match lookup i l with Some _ => true | None => false end.
Definition viable (xs : list argx) (g : guide) : option (subst * list nat) :=
  match deduce_all (g_params g) (g_pack g) xs no_subst with
  | None => None
  | Some (s, ns) =>
      match add_defaults (g_defaults g) s with
      | None => None
      | Some s' =>
          if forallb (bound (s_ty s')) (g_tys g) && forallb (bound (s_arg s')) (g_args g)
          then Some (s', ns) else None
      end
  end.

(** Partial ordering ([temp.deduct.partial]): [q] is deducible from [p] with unique types
    for the variables of [p]. *)
Fixpoint unique (p : pat) : ty :=
  match p with
  | PVar i => TName i
  | PTiny q a b => TTiny (unique q) (AValue a) (AValue b)
  | PStd q => TStd (unique q)
  | PNullopt => TNullopt
  | PInPlace => TInPlace
  end.
Definition at_least (p q : pat) : bool :=
  match deduce q (unique p) no_subst with Some _ => true | None => false end.
Definition more_specialized (g h : guide) : bool :=
  match g_params g, g_params h with
  | (_, p) :: _, (_, q) :: _ => at_least p q && negb (at_least q p)
  | _, _ => false
  end.

(** Both parameters are references and the first binds better to the argument: an rvalue
    reference to an rvalue, a less const one to an lvalue ([over.ics.rank]). *)
Definition binds_better (x : argx) (f g : form) : bool :=
  match x, f, g with
  | AExpr _ R, (ByRRef | ByForward), ByConstRef => true
  | AExpr t L, ByForward, ByConstRef => negb (is_const t)
  | _, _, _ => false
  end.

(** [g] is better than [h] ([over.match.best]), for calls with one argument. *)
Definition better_guide (x : argx) (g h : guide) (n m : list nat) : bool :=
  match g_params g, g_params h, n, m with
  | (f, _) :: _, (k, _) :: _, a :: _, b :: _ =>
      match Nat.compare a b with
      | Lt => true
      | Gt => false
      | Eq =>
      if binds_better x f k then true
      else if binds_better x k f then false
      else if more_specialized g h then true
      else if more_specialized h g then false
      else if g_user g && negb (g_user h) then true
      else if g_user h && negb (g_user g) then false
      else g_copy g && negb (g_copy h)
      end
  | _, _, _, _ => false
  end.

(** The viable guides with the substitutions, and the position in the list. *)
Fixpoint candidates (xs : list argx) (gs : list guide) (i : nat) : list (nat * guide * subst * list nat) :=
  match gs with
  | [] => []
  | g :: r =>
      match viable xs g with
      | Some (s, ns) => (i, g, s, ns) :: candidates xs r (S i)
      | None => candidates xs r (S i)
      end
  end.
(** Class template argument deduction: the class named by the best guide; [None] if no
    guide is viable or none is the best. *)
Definition ctad (gs : list guide) (xs : list argx) : option ty :=
  let cs := candidates xs gs 0 in
  let x0 := match xs with x :: _ => x | [] => ABraces [] end in
  match find (fun c => forallb (fun d =>
                 match c, d with
                 | (i, g, _, n), (j, h, _, m) => Nat.eqb i j || better_guide x0 g h n m
                 end) cs) cs with
  | Some (_, g, s, _) => g_result g s
  | None => None
  end.

(** The class template optional<PayloadType_, sentinelOrMemPtr, irrelevantOrSentinel>
    (optional.h:2195-2217).  Variables: 0 the payload, constants 0 and 1.  Inherited
    constructors (line 2217) do not contribute guides in C++17 and C++20; in C++23 they
    contribute those of the base class, whose template arguments cannot be deduced
    because they are computed by SelectDecomposition (comment in optional.h:2180-2187). *)
Definition tiny_of (s : subst) : option ty :=
  match lookup 0 (s_ty s), lookup 0 (s_arg s), lookup 1 (s_arg s) with
  | Some t, Some a, Some b => Some (TTiny t a b)
  | _, _, _ => None
  end.
Definition ptiny : pat := PTiny (PVar 0) 0 1.
(** [optional()] (optional.h:2209): nothing to deduce from. *)
Definition tiny_default : guide := MkGuide [0] [0; 1] [] [] false tiny_of false false.
(** [optional(optional const &)] (optional.h:2210). *)
Definition tiny_copy : guide := MkGuide [0] [0; 1] [] [(ByConstRef, ptiny)] false tiny_of false false.
(** [optional(optional &&)] (optional.h:2211). *)
Definition tiny_move : guide := MkGuide [0] [0; 1] [] [(ByRRef, ptiny)] false tiny_of false false.
(** The copy deduction candidate ([over.match.class.deduct]). *)
Definition tiny_self : guide := MkGuide [0] [0; 1] [] [(ByVal, ptiny)] false tiny_of false true.
(** [optional(T) -> optional<T, UseDefaultValue, UseDefaultValue>] (optional.h:2274-2275). *)
Definition tiny_user : guide :=
  MkGuide [0] [] [] [(ByVal, PVar 0)] false
    (fun s => option_map (fun t => TTiny t ADefault ADefault) (lookup 0 (s_ty s))) true false.
Definition tiny_guides : list guide := [tiny_default; tiny_copy; tiny_move; tiny_self; tiny_user].

(** std::optional<T> ([optional.optional]): all of its constructors, the copy deduction
    candidate and its deduction guide.  Variables: 0 is T, 1 is U. *)
Definition std_of_subst (s : subst) : option ty := option_map TStd (lookup 0 (s_ty s)).
Definition std_default : guide := MkGuide [0] [] [] [] false std_of_subst false false.
Definition std_null : guide := MkGuide [0] [] [] [(ByVal, PNullopt)] false std_of_subst false false.
Definition std_copy : guide :=
  MkGuide [0] [] [] [(ByConstRef, PStd (PVar 0))] false std_of_subst false false.
Definition std_move : guide := MkGuide [0] [] [] [(ByRRef, PStd (PVar 0))] false std_of_subst false false.
Definition std_in_place : guide := MkGuide [0] [] [] [(ByVal, PInPlace)] true std_of_subst false false.
Definition std_value : guide :=
  MkGuide [0; 1] [] [(1, 0)] [(ByForward, PVar 1)] false std_of_subst false false.
Definition std_conv_copy : guide :=
  MkGuide [0; 1] [] [] [(ByConstRef, PStd (PVar 1))] false std_of_subst false false.
Definition std_conv_move : guide :=
  MkGuide [0; 1] [] [] [(ByRRef, PStd (PVar 1))] false std_of_subst false false.
Definition std_self : guide := MkGuide [0] [] [] [(ByVal, PStd (PVar 0))] false std_of_subst false true.
Definition std_user : guide := MkGuide [0] [] [] [(ByVal, PVar 0)] false std_of_subst true false.
Definition std_guides : list guide :=
  [std_default; std_null; std_copy; std_move; std_in_place; std_value; std_conv_copy;
   std_conv_move; std_self; std_user].

(** ** C57: what optional{x} is *)

Lemma remove_const_not_const t : is_const (remove_const t) = false.
Proof. induction t; cbn; auto. Qed.
Lemma remove_const_id t : is_const t = false -> remove_const t = t.
Proof. destruct t; cbn; congruence. Qed.

Definition tiny_subst (p : ty) (a b : targ) : subst := MkSubst [(0, p)] [(1, b); (0, a)].
Lemma deduce_ptiny t :
  deduce ptiny t no_subst =
    match t with TTiny p a b => Some (tiny_subst p a b) | _ => None end.
Proof. destruct t; reflexivity. Qed.
Lemma first_ptiny ts n :
  deduce_first ptiny ts n no_subst = None \/
  exists p a b m, deduce_first ptiny ts n no_subst = Some (tiny_subst p a b, n + m).
Proof.
  revert n. induction ts as [|t r IH]; intros n; [left; reflexivity|].
  cbn [deduce_first]. rewrite deduce_ptiny.
  destruct t; try (destruct (IH (S n)) as [H|(q & x & y & m & H)];
    [left; exact H|right; exists q, x, y, (S m); rewrite H; f_equal; f_equal; lia]).
  right. exists t, a, b, 0. f_equal. f_equal. lia.
Qed.
Lemma chain_ptiny t :
  match t with
  | TTiny p a b => deduce_first ptiny (chain t) 0 no_subst = Some (tiny_subst p a b, 0)
  | _ => deduce_first ptiny (chain t) 0 no_subst = None \/
         exists p a b m, deduce_first ptiny (chain t) 0 no_subst = Some (tiny_subst p a b, S m)
  end.
Proof.
  destruct t; try (left; reflexivity); try reflexivity.
  change (chain (TClass n t)) with (TClass n t :: chain t).
  cbn [deduce_first]. rewrite deduce_ptiny. exact (first_ptiny (chain t) 1).
Qed.

Lemma first_pstd i ts n :
  deduce_first (PStd (PVar i)) ts n no_subst = None \/
  exists p m, deduce_first (PStd (PVar i)) ts n no_subst = Some (MkSubst [(i, p)] [], n + m).
Proof.
  revert n. induction ts as [|t r IH]; intros n; [left; reflexivity|].
  cbn [deduce_first].
  destruct t; cbn [deduce];
    try (destruct (IH (S n)) as [H|(q & m & H)];
      [left; exact H|right; exists q, (S m); rewrite H; f_equal; f_equal; lia]).
  right. exists t, 0. cbn. f_equal. f_equal. lia.
Qed.
Lemma chain_pstd i t :
  match t with
  | TStd p => deduce_first (PStd (PVar i)) (chain t) 0 no_subst = Some (MkSubst [(i, p)] [], 0)
  | _ => deduce_first (PStd (PVar i)) (chain t) 0 no_subst = None \/
         exists p m, deduce_first (PStd (PVar i)) (chain t) 0 no_subst = Some (MkSubst [(i, p)] [], S m)
  end.
Proof.
  destruct t; try (left; reflexivity); try reflexivity.
  change (chain (TClass n t)) with (TClass n t :: chain t).
  cbn [deduce_first deduce]. exact (first_pstd i (chain t) 1).
Qed.

(** One argument: an optional gives the same type, sentinel included (the optional is
    copied or moved, not wrapped); everything else, in particular an object of a class
    derived from an optional, gives the optional of the decayed type with the default
    storage. *)
Theorem C57_deduced_type :
  forall t c,
    ctad tiny_guides [AExpr t c] =
      Some (match remove_const t with
            | TTiny p a b => TTiny p a b
            | _ => TTiny (decay t) ADefault ADefault
            end).
Proof.
  intros t c. unfold ctad, tiny_guides, candidates, viable.
  cbn [deduce_all g_params g_pack tiny_default tiny_copy tiny_move tiny_self tiny_user].
  assert (Hm : deduce_expr ByRRef ptiny t c no_subst = None \/
               (c = R /\ deduce_expr ByRRef ptiny t c no_subst =
                  deduce_first ptiny (chain (remove_const t)) 0 no_subst)).
  { destruct c; cbn; [left; reflexivity|].
    destruct (is_const t) eqn:E; [left; reflexivity|].
    right. rewrite (remove_const_id _ E). split; reflexivity. }
  change (deduce_expr ByConstRef ptiny t c no_subst)
    with (deduce_first ptiny (chain (remove_const t)) 0 no_subst).
  change (deduce_expr ByVal ptiny t c no_subst)
    with (deduce_first ptiny (chain (remove_const t)) 0 no_subst).
  change (deduce_expr ByVal (PVar 0) t c no_subst)
    with (Some (MkSubst [(0, decay t)] [], 0)).
  pose proof (chain_ptiny (remove_const t)) as Hc.
  destruct (remove_const t) eqn:Er;
    try (destruct Hc as [Hc|(p' & a' & b' & m & Hc)]);
    destruct Hm as [Hm|[Hcr Hm]]; rewrite Hm; rewrite ?Hc; try subst c; cbn;
    rewrite ?Nat.compare_refl; cbn; try destruct c; reflexivity.
Qed.

(** The guides of std::optional from which the payload type cannot be deduced. *)
Definition unbound0 (s : subst) : Prop := lookup 0 (s_ty s) = None.
Lemma bind_unbound i t s s' : i <> 0 -> unbound0 s -> bind_ty i t s = Some s' -> unbound0 s'.
Proof.
  unfold bind_ty, unbound0. intros Hi Hs H. destruct (lookup i (s_ty s)).
  - destruct (ty_eqb t t0); inversion H; subst; exact Hs.
  - inversion H; subst. cbn. destruct i; [congruence|exact Hs].
Qed.
(** [p] does not contain the variable 0 (for the patterns of std::optional). *)
Definition without0 (p : pat) : Prop :=
  p = PNullopt \/ p = PInPlace \/ p = PVar 1 \/ p = PStd (PVar 1).
Lemma deduce_unbound p t s s' :
  without0 p -> unbound0 s -> deduce p t s = Some s' -> unbound0 s'.
Proof.
  intros [->|[->|[->| ->]]] Hs H.
  1,2: destruct t; cbn in H; try discriminate; inversion H; subst; exact Hs.
  - cbn in H. eapply bind_unbound; [|exact Hs|exact H]. discriminate.
  - destruct t; cbn in H; try discriminate. eapply bind_unbound; [|exact Hs|exact H]. discriminate.
Qed.
Lemma deduce_first_unbound p ts n s s' m :
  without0 p -> unbound0 s -> deduce_first p ts n s = Some (s', m) -> unbound0 s'.
Proof.
  intros Hp Hs. revert n. induction ts as [|t r IH]; intros n H; cbn in H; [discriminate|].
  destruct (deduce p t s) eqn:E; [|exact (IH _ H)].
  inversion H; subst. exact (deduce_unbound _ _ _ _ Hp Hs E).
Qed.
Lemma deduce_expr_unbound f p t c s s' m :
  without0 p -> unbound0 s -> deduce_expr f p t c s = Some (s', m) -> unbound0 s'.
Proof.
  intros Hp Hs H.
  assert (Hf : forall ts n, deduce_first p ts n s = Some (s', m) -> unbound0 s')
    by (intros ts n; apply deduce_first_unbound; assumption).
  assert (Hb : forall u, p = PVar 1 -> option_map (fun x => (x, 0)) (bind_ty 1 u s) = Some (s', m) ->
                 unbound0 s').
  { intros u _ Hu. destruct (bind_ty 1 u s) eqn:E; cbn in Hu; [|discriminate].
    inversion Hu; subst. eapply bind_unbound; [|exact Hs|exact E]. discriminate. }
  unfold deduce_expr in H.
  destruct f.
  - destruct Hp as [->|[->|[->| ->]]]; eauto.
  - eauto.
  - destruct c; [discriminate|]. destruct (is_const t); [discriminate|]. eauto.
  - destruct Hp as [->|[->|[->| ->]]]; eauto.
Qed.
Lemma not_deducible t c g f p :
  g_params g = [(f, p)] -> without0 p -> In 0 (g_tys g) ->
  (g_defaults g = [] \/ g_defaults g = [(1, 0)]) ->
  viable [AExpr t c] g = None.
Proof.
  intros Hg Hp Hin Hd. unfold viable. rewrite Hg. cbn [deduce_all].
  destruct (deduce_expr f p t c no_subst) as [[s n]|] eqn:E; [|reflexivity].
  pose proof (deduce_expr_unbound _ _ _ _ _ _ _ Hp (eq_refl : unbound0 no_subst) E) as Hs. unfold unbound0 in Hs.
  assert (Hout : forall s', lookup 0 (s_ty s') = None ->
                   forallb (bound (s_ty s')) (g_tys g) = false).
  { intros s' Hs'. destruct (forallb (bound (s_ty s')) (g_tys g)) eqn:F; [|reflexivity].
    rewrite forallb_forall in F. specialize (F 0 Hin). unfold bound in F. rewrite Hs' in F.
    discriminate. }
  destruct Hd as [-> | ->]; cbn.
  - rewrite (Hout _ Hs). reflexivity.
  - destruct (lookup 1 (s_ty s)); cbn.
    + rewrite (Hout _ Hs). reflexivity.
    + rewrite Hs. reflexivity.
Qed.

(** The same for std::optional. *)
Lemma std_deduced_type t c :
  ctad std_guides [AExpr t c] =
    Some (match remove_const t with TStd p => TStd p | _ => TStd (decay t) end).
Proof.
  unfold ctad, std_guides, candidates.
  rewrite (not_deducible t c std_null ByVal PNullopt);
    [|reflexivity|unfold without0; tauto|left; reflexivity|left; reflexivity].
  rewrite (not_deducible t c std_in_place ByVal PInPlace);
    [|reflexivity|unfold without0; tauto|left; reflexivity|left; reflexivity].
  rewrite (not_deducible t c std_value ByForward (PVar 1));
    [|reflexivity|unfold without0; tauto|left; reflexivity|right; reflexivity].
  rewrite (not_deducible t c std_conv_copy ByConstRef (PStd (PVar 1)));
    [|reflexivity|unfold without0; tauto|left; reflexivity|left; reflexivity].
  rewrite (not_deducible t c std_conv_move ByRRef (PStd (PVar 1)));
    [|reflexivity|unfold without0; tauto|left; reflexivity|left; reflexivity].
  change (viable [AExpr t c] std_default) with (@None (subst * list nat)).
  unfold viable.
  cbn [deduce_all g_params g_pack std_copy std_move std_self std_user].
  assert (Hm : deduce_expr ByRRef (PStd (PVar 0)) t c no_subst = None \/
               (c = R /\ deduce_expr ByRRef (PStd (PVar 0)) t c no_subst =
                  deduce_first (PStd (PVar 0)) (chain (remove_const t)) 0 no_subst)).
  { destruct c; cbn; [left; reflexivity|].
    destruct (is_const t) eqn:E; [left; reflexivity|].
    right. rewrite (remove_const_id _ E). split; reflexivity. }
  change (deduce_expr ByVal (PVar 0) t c no_subst)
    with (Some (MkSubst [(0, decay t)] [], 0)).
  change (deduce_expr ByConstRef (PStd (PVar 0)) t c no_subst)
    with (deduce_first (PStd (PVar 0)) (chain (remove_const t)) 0 no_subst).
  change (deduce_expr ByVal (PStd (PVar 0)) t c no_subst)
    with (deduce_first (PStd (PVar 0)) (chain (remove_const t)) 0 no_subst).
  pose proof (chain_pstd 0 (remove_const t)) as Hc.
  destruct (remove_const t) eqn:Er;
    try (destruct Hc as [Hc|(p' & m & Hc)]);
    destruct Hm as [Hm|[Hcr Hm]]; rewrite Hm; rewrite ?Hc; try subst c; cbn;
    rewrite ?Nat.compare_refl; cbn; try destruct c; reflexivity.
Qed.

(** No argument, several arguments (also [optional{std::in_place, ...}]) or a braced list:
    nothing is deduced, as with std::optional. *)
Theorem C57_nothing_else_is_deduced :
  forall xs,
    (forall t c, xs <> [AExpr t c]) ->
    ctad tiny_guides xs = None /\ ctad std_guides xs = None.
Proof.
  intros xs Hx.
  assert (Hn : forall g, (exists f p, g_params g = [(f, p)]) -> g_pack g = false ->
                 viable xs g = None).
  { intros g (f & p & Hg) Hp. unfold viable. rewrite Hg, Hp.
    destruct xs as [|[t c|ts] r]; try reflexivity.
    cbn [deduce_all]. destruct (deduce_expr f p t c no_subst) as [[s n]|]; [|reflexivity].
    destruct r as [|y r]; [destruct (Hx t c); reflexivity|reflexivity]. }
  assert (Hd : forall g, g_params g = [] -> g_pack g = false -> In 0 (g_tys g) -> g_defaults g = [] ->
                 viable xs g = None).
  { intros g Hg Hp Hi Hf. unfold viable. rewrite Hg, Hp, Hf.
    destruct xs as [|y r]; [|reflexivity]. cbn.
    destruct (forallb (bound []) (g_tys g)) eqn:F; [|reflexivity].
    rewrite forallb_forall in F. specialize (F 0 Hi). discriminate. }
  split; unfold ctad, tiny_guides, std_guides, candidates.
  - rewrite (Hd tiny_default); [|reflexivity|reflexivity|left; reflexivity|reflexivity].
    rewrite (Hn tiny_copy), (Hn tiny_move), (Hn tiny_self), (Hn tiny_user);
      try reflexivity; eexists; eexists; reflexivity.
  - rewrite (Hd std_default); [|reflexivity|reflexivity|left; reflexivity|reflexivity].
    assert (Hi : viable xs std_in_place = None).
    { unfold viable. cbn [g_params g_pack std_in_place].
      destruct xs as [|[t c|ts] r]; try reflexivity. cbn [deduce_all].
      destruct (deduce_expr ByVal PInPlace t c no_subst) as [[s n]|] eqn:E; [|reflexivity].
      pose proof (deduce_expr_unbound _ _ _ _ _ _ _ (or_intror (or_introl eq_refl))
                    (eq_refl : unbound0 no_subst) E) as Hs.
      unfold unbound0 in Hs.
      destruct r; cbn; unfold bound; rewrite Hs; reflexivity. }
    rewrite Hi.
    rewrite (Hn std_null), (Hn std_copy), (Hn std_move), (Hn std_value), (Hn std_conv_copy),
      (Hn std_conv_move), (Hn std_self), (Hn std_user);
      try reflexivity; eexists; eexists; reflexivity.
Qed.

(** A type with std::optional in the place of tiny::optional. *)
Fixpoint as_std (t : ty) : ty :=
  match t with
  | TTiny p _ _ => TStd (as_std p)
  | TClass n b => TClass n (as_std b)
  | TImpl n p => TImpl n (as_std p)
  | TStd p => TStd (as_std p)
  | TInit p => TInit (as_std p)
  | TPtr u => TPtr (as_std u)
  | TArray u n => TArray (as_std u) n
  | TConst u => TConst (as_std u)
  | _ => t
  end.
Lemma as_std_const t : is_const (as_std t) = is_const t.
Proof. destruct t; reflexivity. Qed.
Lemma as_std_remove_const t : remove_const (as_std t) = as_std (remove_const t).
Proof. induction t; cbn; auto. Qed.
Lemma as_std_decay t : decay (as_std t) = as_std (decay t).
Proof.
  unfold decay. rewrite as_std_remove_const, as_std_const.
  destruct (remove_const t); cbn; try reflexivity. destruct (is_const t); reflexivity.
Qed.

(** The deduced type is the one that std::optional's guides deduce in a program that uses
    std::optional in the place of tiny::optional, unless the argument is a std::optional:
    that one is a payload like any other here. *)
Theorem C57_deduced_type_as_std :
  forall t c,
    (forall p, remove_const t <> TStd p) ->
    ctad std_guides [AExpr (as_std t) c] = option_map as_std (ctad tiny_guides [AExpr t c]).
Proof.
  intros t c H. rewrite C57_deduced_type, std_deduced_type, as_std_remove_const, as_std_decay.
  destruct (remove_const t) eqn:E; try reflexivity. destruct (H _ eq_refl).
Qed.
Theorem C57_std_optional_is_wrapped :
  forall p c,
    ctad tiny_guides [AExpr (TStd p) c] = Some (TTiny (TStd p) ADefault ADefault) /\
    ctad std_guides [AExpr (TStd p) c] = Some (TStd p).
Proof. intros p c. rewrite C57_deduced_type, std_deduced_type. split; reflexivity. Qed.

(** ** make_optional *)

(** The explicit template argument for PayloadType: an object type or a reference. *)
Inductive xty : Type := XObj (t : ty) | XLRef (t : ty) | XRRef (t : ty).
(** The explicit template arguments: none, or the payload and the two constants, which
    are UseDefaultValue if they are not given (optional.h:2278, 2286-2290, 2297-2302). *)
Record explicit : Type := MkExplicit { x_ty : xty; x_a : targ; x_b : targ }.

(** The functions make_optional(PayloadType &&), make_optional(ArgsT &&...) and
    make_optional(std::initializer_list<U>, ArgsT &&...)
    (optional.h:2278-2283, 2286-2294, 2297-2310). *)
Inductive mfn : Type := MValue | MArgs | MList.

(** Binding the parameter of the first function with an explicit payload type:
    [BExact]: directly, without adding const and not an rvalue to an lvalue reference;
    [BQual]: directly, but with such an adjustment; [BConv]: after a conversion;
    [BNone]: impossible. *)
Inductive binding : Type := BExact | BQual | BConv | BNone.

Section Make.
(** Is there an implicit conversion from an expression (or braced list) to the type, for
    types that are not the same up to const? *)
Variable conv : argx -> ty -> bool.

Definition bind_rref (t : ty) (x : argx) : binding :=
  match x with
  | ABraces _ => if conv x t then BConv else BNone
  | AExpr u c =>
      if ty_eqb (remove_const u) (remove_const t) then
        match c with
        | L => BNone
        | R => if Bool.eqb (is_const u) (is_const t) then BExact
               else if is_const u then BNone else BQual
        end
      else if conv x t then BConv else BNone
  end.
Definition bind_lref (t : ty) (x : argx) : binding :=
  match x with
  | ABraces _ => if is_const t && conv x t then BConv else BNone
  | AExpr u c =>
      if ty_eqb (remove_const u) (remove_const t) then
        match c with
        | L => if Bool.eqb (is_const u) (is_const t) then BExact
               else if is_const u then BNone else BQual
        | R => if is_const t then BQual else BNone
        end
      else if is_const t && conv x t then BConv else BNone
  end.
(** PayloadType && with reference collapsing. *)
Definition bind_param (y : xty) (x : argx) : binding :=
  match y with XObj t | XRRef t => bind_rref t x | XLRef t => bind_lref t x end.

Definition is_expr (x : argx) : bool := match x with AExpr _ _ => true | _ => false end.
Definition homogeneous (ts : list ty) : bool :=
  match ts with [] => false | t :: r => forallb (ty_eqb t) r end.
(** Can the parameter std::initializer_list<U> be deduced from the argument: from an
    initializer_list, or from a braced list of expressions of one type. *)
Definition is_list (x : argx) : bool :=
  match x with
  | AExpr u _ => match remove_const u with TInit _ => true | _ => false end
  | ABraces ts => homogeneous (map decay ts)
  end.

(** Which of the functions can be called?  Without an explicit payload type, the second
    and third one cannot deduce it.  A parameter pack cannot be deduced from a braced
    list. *)
Definition mviable (e : option explicit) (xs : list argx) (f : mfn) : bool :=
  match f, e with
  | MValue, None => match xs with [AExpr _ _] => true | _ => false end
  | MValue, Some y =>
      match xs with
      | [x] => match bind_param (x_ty y) x with BNone => false | _ => true end
      | _ => false
      end
  | MArgs, Some _ => forallb is_expr xs
  | MList, Some _ => match xs with x :: r => is_list x && forallb is_expr r | [] => false end
  | _, None => false
  end.

(** Conversions of the first argument.  [ArgsT &&] binds it exactly; so does
    [initializer_list<U>].  A braced list prefers an initializer_list
    ([over.ics.rank] 3.1). *)
Definition mconv (e : option explicit) (x : argx) (f : mfn) : nat :=
  match f with
  | MValue =>
      match e with
      | None => 0
      | Some y => match bind_param (x_ty y) x with BExact => 0 | BQual => 1 | _ => 2 end
      end
  | MArgs | MList => 0
  end.
(** [BQual] is only worse than another reference; the parameter of the third function is
    not one. *)
Definition mcompare (e : option explicit) (x : argx) (f g : mfn) : comparison :=
  match f, g, mconv e x f, mconv e x g with
  | MValue, MList, 1, _ | MList, MValue, _, 1 => Eq
  | _, _, a, b => Nat.compare a b
  end.
(** Partial ordering: a parameter that is no pack is more specialized than a pack, an
    initializer_list<U> more than a variable type. *)
Definition mmore (f g : mfn) : bool :=
  match f, g with
  | MList, MValue | MList, MArgs | MValue, MArgs => true
  | _, _ => false
  end.
Definition mbetter (e : option explicit) (xs : list argx) (f g : mfn) : bool :=
  match xs with
  | [] => false
  | x :: _ => match mcompare e x f g with Lt => true | Gt => false | Eq => mmore f g end
  end.
Definition mfn_eqb (f g : mfn) : bool :=
  match f, g with MValue, MValue | MArgs, MArgs | MList, MList => true | _, _ => false end.
Definition mcalled (e : option explicit) (xs : list argx) : option mfn :=
  let cs := filter (mviable e xs) [MValue; MArgs; MList] in
  find (fun f => forallb (fun g => mfn_eqb f g || mbetter e xs f g) cs) cs.

(** The payload type of the result and whether it is a valid one: references are not. *)
Definition of_xty (y : xty) : option ty := match y with XObj t => Some t | _ => None end.
Definition xty_decay (y : xty) : ty := match y with XObj t | XLRef t | XRRef t => decay t end.
(** How the payload is initialized: from the argument by the constructor from a value, or
    by the in_place constructors. *)
Inductive minit : Type := IValue | IInPlace | IInPlaceList.
(** The result of the call: the returned optional (its payload, and its constants), and
    how it is constructed (optional.h:2282, 2293, 2309). *)
Definition make_optional (e : option explicit) (xs : list argx) : option (ty * minit) :=
  match mcalled e xs, e, xs with
  | Some MValue, None, [AExpr u _] => Some (TTiny (decay u) ADefault ADefault, IValue)
  | Some MValue, Some y, _ => Some (TTiny (xty_decay (x_ty y)) (x_a y) (x_b y), IValue)
  | Some MArgs, Some y, _ =>
      option_map (fun t => (TTiny t (x_a y) (x_b y), IInPlace)) (of_xty (x_ty y))
  | Some MList, Some y, _ =>
      option_map (fun t => (TTiny t (x_a y) (x_b y), IInPlaceList)) (of_xty (x_ty y))
  | _, _, _ => None
  end.

(** std::make_optional ([optional.specalg]): the same parameters, no constants. *)
Definition std_make_optional (y : option xty) (xs : list argx) : option (ty * minit) :=
  match mcalled (option_map (fun y => MkExplicit y ADefault ADefault) y) xs, y, xs with
  | Some MValue, None, [AExpr u _] => Some (TStd (decay u), IValue)
  | Some MValue, Some y, _ => Some (TStd (xty_decay y), IValue)
  | Some MArgs, Some y, _ => option_map (fun t => (TStd t, IInPlace)) (of_xty y)
  | Some MList, Some y, _ => option_map (fun t => (TStd t, IInPlaceList)) (of_xty y)
  | _, _, _ => None
  end.

(** Without an explicit payload type: exactly one expression; the payload has its decayed
    type, and the storage is the default one. *)
Theorem C57_make_optional_of_a_value :
  forall xs,
    make_optional None xs =
      match xs with
      | [AExpr u _] => Some (TTiny (decay u) ADefault ADefault, IValue)
      | _ => None
      end.
Proof. intros [|[t c|ts] [|y r]]; reflexivity. Qed.

Definition exact_rvalue (t : ty) (x : argx) : bool :=
  match x with
  | AExpr u R => ty_eqb (remove_const u) (remove_const t) && Bool.eqb (is_const u) (is_const t)
  | _ => false
  end.

Lemma ty_eqb_eq a b : ty_eqb a b = true <-> a = b.
Proof. unfold ty_eqb. destruct (ty_eq_dec a b); split; congruence. Qed.

Lemma mcalled_one y x :
  mcalled (Some y) [x] =
    match bind_param (x_ty y) x, is_list x, is_expr x with
    | BConv, true, _ => Some MList
    | BConv, false, true => Some MArgs
    | BConv, false, false => Some MValue
    | BNone, true, _ => Some MList
    | BNone, false, true => Some MArgs
    | BNone, false, false => None
    | (BExact | BQual), true, _ => Some MList
    | BExact, false, _ => Some MValue
    | BQual, false, true => Some MArgs
    | BQual, false, false => Some MValue
    end.
Proof.
  unfold mcalled, mviable. cbn [filter forallb].
  destruct (bind_param (x_ty y) x) eqn:E, (is_list x), (is_expr x); cbn;
    unfold mcompare, mconv; rewrite ?E; reflexivity.
Qed.
Lemma mcalled_more y x x2 l :
  mcalled (Some y) (x :: x2 :: l) =
    if forallb is_expr (x2 :: l)
    then if is_list x then Some MList else if is_expr x then Some MArgs else None
    else None.
Proof.
  unfold mcalled, mviable. cbn [filter].
  change (forallb is_expr (x :: x2 :: l)) with (is_expr x && forallb is_expr (x2 :: l)).
  destruct (forallb is_expr (x2 :: l)), (is_list x), (is_expr x); reflexivity.
Qed.

(** With an explicit object type [t], if the call compiles: the result is an optional of
    exactly [t] with the given constants, constructed in place from the arguments, with
    the overload for initializer lists if the first argument is one; except that an rvalue
    of type [t] itself (or a braced list that is no initializer list) is taken as the
    value, which drops const. *)
Theorem C57_make_optional_explicit :
  forall t a b xs r,
    make_optional (Some (MkExplicit (XObj t) a b)) xs = Some r ->
    r = match xs with
        | x :: _ =>
            if is_list x then
              (TTiny t a b, IInPlaceList)
            else if exact_rvalue t x && Nat.eqb (length xs) 1 then
              (TTiny (decay t) a b, IValue)
            else match x with
                 | AExpr _ _ => (TTiny t a b, IInPlace)
                 | ABraces _ => (TTiny (decay t) a b, IValue)
                 end
        | [] => (TTiny t a b, IInPlace)
        end.
Proof.
  intros t a b xs r. unfold make_optional.
  destruct xs as [|x [|x2 l]].
  - cbn. intros H. inversion H. reflexivity.
  - rewrite mcalled_one. cbn [x_ty x_a x_b bind_param of_xty xty_decay option_map].
    destruct (is_list x) eqn:El.
    + destruct (bind_rref t x); intros H; inversion H; reflexivity.
    + destruct x as [u [|]|ts]; cbn [bind_rref is_expr exact_rvalue andb length Nat.eqb].
      * destruct (ty_eqb (remove_const u) (remove_const t)), (conv (AExpr u L) t);
          intros H; inversion H; reflexivity.
      * destruct (ty_eqb (remove_const u) (remove_const t)); cbn [andb].
        -- destruct (Bool.eqb (is_const u) (is_const t)), (is_const u);
             intros H; inversion H; reflexivity.
        -- destruct (conv (AExpr u R) t); intros H; inversion H; reflexivity.
      * destruct (conv (ABraces ts) t); intros H; inversion H; reflexivity.
  - rewrite mcalled_more. cbn [x_ty x_a x_b length Nat.eqb]. rewrite andb_false_r.
    destruct (forallb is_expr (x2 :: l)), (is_list x), x as [u c|ts];
      cbn; intros H; inversion H; reflexivity.
Qed.
(** And it compiles whenever the arguments are expressions (constructing the payload from
    them is then the remaining requirement). *)
Theorem C57_make_optional_is_callable :
  forall t a b xs,
    forallb is_expr xs = true ->
    make_optional (Some (MkExplicit (XObj t) a b)) xs <> None.
Proof.
  intros t a b xs H. unfold make_optional.
  destruct xs as [|x [|x2 l]].
  - discriminate.
  - cbn in H. rewrite andb_true_r in H. rewrite mcalled_one, H. cbn [x_ty].
    destruct (bind_param (XObj t) x), (is_list x); discriminate.
  - change (is_expr x && forallb is_expr (x2 :: l) = true) in H.
    apply andb_true_iff in H. destruct H as [H1 H2].
    rewrite mcalled_more, H1, H2. destruct (is_list x); discriminate.
Qed.

(** For a non-const object type that is no array, that is, for every payload one can
    write in [optional<t>] except the const ones, the overload does not matter for the
    type: it is optional<t, a, b>. *)
Theorem C57_make_optional_type :
  forall t a b xs r i,
    decay t = t ->
    make_optional (Some (MkExplicit (XObj t) a b)) xs = Some (r, i) ->
    r = TTiny t a b.
Proof.
  intros t a b xs r i Hd H. apply C57_make_optional_explicit in H. rewrite Hd in H.
  destruct xs as [|x l]; [congruence|].
  destruct (is_list x); [congruence|].
  destruct (exact_rvalue t x && Nat.eqb (length (x :: l)) 1); [congruence|].
  destruct x; congruence.
Qed.

(** As std::make_optional: the same calls compile (the constants apart, which std does not
    have), with the same payload type and the same initialization. *)
Lemma mcalled_constants y a b xs :
  mcalled (Some (MkExplicit y a b)) xs = mcalled (Some (MkExplicit y ADefault ADefault)) xs.
Proof.
  destruct xs as [|x [|x2 l]].
  - reflexivity.
  - rewrite !mcalled_one. reflexivity.
  - rewrite !mcalled_more. reflexivity.
Qed.
Definition std_result (r : ty * minit) : ty * minit :=
  match r with (TTiny p _ _, i) => (TStd p, i) | _ => r end.
Theorem C57_make_optional_as_std :
  forall e xs,
    std_make_optional (option_map x_ty e) xs = option_map std_result (make_optional e xs).
Proof.
  intros [[y a b]|] xs; unfold std_make_optional, make_optional; cbn [option_map x_ty x_a x_b].
  - rewrite (mcalled_constants y a b).
    destruct (mcalled (Some (MkExplicit y ADefault ADefault)) xs) as [[| |]|]; try reflexivity;
      destruct y; reflexivity.
  - destruct (mcalled None xs) as [[| |]|]; try reflexivity;
      destruct xs as [|[t c|ts] [|x2 l]]; reflexivity.
Qed.
End Make.

(** ** Examples *)

Definition int_t : ty := TName 0.
Definition char_t : ty := TName 1.
Definition string_t : ty := TName 2.
Definition vector_t : ty := TName 3.

(** The repository's tests of the guide (tests/ExerciseTinyOptionalPayload1.cpp and
    2.cpp): an int, an array; an optional with a sentinel; a class derived from it; a
    std::optional. *)
Example C57_guide_ex :
  ctad tiny_guides [AExpr int_t R] = Some (TTiny int_t ADefault ADefault) /\
  ctad tiny_guides [AExpr (TArray (TConst char_t) 4) L] =
    Some (TTiny (TPtr (TConst char_t)) ADefault ADefault) /\
  ctad tiny_guides [AExpr (TConst (TTiny int_t (AValue 42) ADefault)) L] =
    Some (TTiny int_t (AValue 42) ADefault) /\
  ctad tiny_guides [AExpr (TClass 7 (TTiny int_t ADefault ADefault)) R] =
    Some (TTiny (TClass 7 (TTiny int_t ADefault ADefault)) ADefault ADefault) /\
  ctad tiny_guides [AExpr (TStd int_t) R] = Some (TTiny (TStd int_t) ADefault ADefault) /\
  ctad tiny_guides [] = None.
Proof. repeat split. Qed.

(** make_optional (tests/ConstructionTests.cpp:611-690): [int -> string] is no conversion,
    [char const[4] -> string] is one. *)
Definition conv_ex (x : argx) (t : ty) : bool :=
  match x, t with AExpr (TArray (TConst (TName 1)) _) _, TName 2 => true | _, _ => false end.
Example C57_make_ex :
  make_optional conv_ex None [AExpr int_t R] = Some (TTiny int_t ADefault ADefault, IValue) /\
  make_optional conv_ex (Some (MkExplicit (XObj int_t) (AValue 0) ADefault)) [AExpr int_t R] =
    Some (TTiny int_t (AValue 0) ADefault, IValue) /\
  make_optional conv_ex (Some (MkExplicit (XObj int_t) (AValue 0) ADefault)) [AExpr int_t L] =
    Some (TTiny int_t (AValue 0) ADefault, IInPlace) /\
  make_optional conv_ex (Some (MkExplicit (XObj string_t) ADefault ADefault))
    [AExpr (TArray (TConst char_t) 4) L] = Some (TTiny string_t ADefault ADefault, IInPlace) /\
  make_optional conv_ex (Some (MkExplicit (XObj vector_t) ADefault ADefault)) [ABraces [int_t; int_t]] =
    Some (TTiny vector_t ADefault ADefault, IInPlaceList) /\
  make_optional conv_ex (Some (MkExplicit (XObj (TConst int_t)) ADefault ADefault))
    [AExpr (TConst int_t) R] = Some (TTiny int_t ADefault ADefault, IValue) /\
  make_optional conv_ex (Some (MkExplicit (XObj (TConst int_t)) ADefault ADefault)) [AExpr int_t R] =
    Some (TTiny (TConst int_t) ADefault ADefault, IInPlace) /\
  make_optional conv_ex (Some (MkExplicit (XLRef int_t) ADefault ADefault)) [AExpr int_t L] =
    Some (TTiny int_t ADefault ADefault, IValue) /\
  make_optional conv_ex None [AExpr int_t R; AExpr int_t R] = None.
Proof. repeat split. Qed.
