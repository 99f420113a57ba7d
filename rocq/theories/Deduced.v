(** * Deduced: deduction guides, make_optional and std::hash from the text (C78)

    [Deduce.v] and [HashEnable.v] contain models of the deduction guides, of the functions
    make_optional and of the specializations of std::hash, written by hand.  Here they are
    computed from the syntax trees of [Library.v] and [Source.v], by rules for declarations
    of any such kind; the rules for deduction and overload resolution are those of
    [Deduce.v]. *)

From Coq Require Import List Bool Arith Lia.
From Coq Require Import String.
From Verif Require Import Deduce HashEnable Syntax TemplateSyntax Source Library.
Import ListNotations.
Local Open Scope string_scope.

(** ** Names *)

Fixpoint index (x : string) (l : list string) : option nat :=
  match l with
  | [] => None
  | y :: r => if String.eqb x y then Some 0 else option_map S (index x r)
  end.

(** A template parameter: class or auto, name, pack, default. *)
Definition tparam : Type := (string * string * bool * option texpr)%type.
Definition p_kind (p : tparam) : string := fst (fst (fst p)).
Definition p_id (p : tparam) : string := snd (fst (fst p)).
Definition p_is_pack (p : tparam) : bool := snd (fst p).
Definition p_default (p : tparam) : option texpr := snd p.
Definition of_kind (k : string) (ps : list tparam) : list string :=
  map p_id (filter (fun p => String.eqb (p_kind p) k) ps).

(** The template parameters of a class. *)
Definition class_params (c : string) : list tparam :=
  match find (fun h => String.eqb (fst (fst h)) c) class_heads with
  | Some (_, ps, _) => ps
  | None => []
  end.

(** ** Deduction guides *)

(** The type of a parameter as a pattern; [tys] and [args] are the template parameters. *)
Fixpoint pattern (tys args : list string) (e : texpr) : option pat :=
  match e with
  | TxName x =>
      match index x tys with
      | Some i => Some (PVar i)
      | None =>
          if String.eqb x "std::nullopt_t" then Some PNullopt
          else if String.eqb x "std::in_place_t" then Some PInPlace else None
      end
  | TxApp f [p; TxName a; TxName b] =>
      if String.eqb f "optional" then
        match pattern tys args p, index a args, index b args with
        | Some q, Some i, Some j => Some (PTiny q i j)
        | _, _, _ => None
        end
      else None
  | TxApp f [p] => if String.eqb f "std::optional" then option_map PStd (pattern tys args p) else None
  | _ => None
  end.

(** How it is passed; [own]: the parameters of the function template itself, whose [T &&]
    are forwarding references ([temp.deduct.call]/3). *)
Definition form_of (own : list string) (e : texpr) (suffix : string) : option form :=
  if String.eqb suffix "" then Some ByVal
  else if String.eqb suffix "const&" then Some ByConstRef
  else if String.eqb suffix "&&" then
    match e with
    | TxName x => match index x own with Some _ => Some ByForward | None => Some ByRRef end
    | _ => Some ByRRef
    end
  else None.

(** What a constant and a type mean, if the parameters are [s]. *)
Definition const_of (args : list string) (s : subst) (e : texpr) : option targ :=
  match e with
  | TxName x =>
      match index x args with
      | Some i => lookup i (s_arg s)
      | None => if String.eqb x "UseDefaultValue" then Some ADefault else None
      end
  | _ => None
  end.
Fixpoint type_of (tys args : list string) (s : subst) (e : texpr) : option ty :=
  match e with
  | TxName x => match index x tys with Some i => lookup i (s_ty s) | None => None end
  | TxApp f [p] =>
      if String.eqb f "std::decay_t" then option_map decay (type_of tys args s p)
      else if String.eqb f "std::remove_const_t" then option_map remove_const (type_of tys args s p)
      else if String.eqb f "std::optional" then option_map TStd (type_of tys args s p)
      else None
  | TxApp f [p; a; b] =>
      if String.eqb f "optional" then
        match type_of tys args s p, const_of args s a, const_of args s b with
        | Some t, Some x, Some y => Some (TTiny t x y)
        | _, _, _ => None
        end
      else None
  | _ => None
  end.

Fixpoint all {A : Type} (l : list (option A)) : option (list A) :=
  match l with
  | [] => Some []
  | Some x :: r => option_map (cons x) (all r)
  | None :: _ => None
  end.

(** A guide with the template parameters [ps], of which [own] belong to a function template,
    for the parameters [xs] (type and what follows it) and the class [ret]. *)
Definition guide_of (ps : list tparam) (own : list string) (xs : list (texpr * string)) (ret : texpr)
    (user copy : bool) : option guide :=
  let tys := of_kind "class" ps in
  let args := of_kind "auto" ps in
  match all (map (fun x => match form_of own (fst x) (snd x), pattern tys args (fst x) with
                           | Some f, Some p => Some (f, p)
                           | _, _ => None
                           end) xs) with
  | Some l =>
      Some (MkGuide (List.seq 0 (List.length tys)) (List.seq 0 (List.length args)) []
              l false (fun s => type_of tys args s ret) user copy)
  | None => None
  end.

(** The class itself, with its own parameters ([temp.local]). *)
Definition self_type (c : string) : texpr := TxApp c (map (fun p => TxName (p_id p)) (class_params c)).

(** The type of a parameter of a constructor of the class [c], as [Source.v] writes it: the
    class, by value or by reference. *)
Definition self_param (c : string) (p : param) : option (texpr * string) :=
  if p_pack p then None
  else if String.eqb (p_type p) c then Some (self_type c, "")
  else if String.eqb (p_type p) (c ++ " const&") then Some (self_type c, "const&")
  else if String.eqb (p_type p) (c ++ "&&") then Some (self_type c, "&&")
  else None.
(** [over.match.class.deduct]/1.1: one guide for every constructor of the class itself. *)
Definition constructors (c : string) : list fundef :=
  filter (fun f => String.eqb (f_class f) c && String.eqb (f_name f) c) source.
Definition constructor_guide (c : string) (f : fundef) : option guide :=
  match all (map (self_param c) (f_params f)) with
  | Some xs => guide_of (class_params c) [] xs (self_type c) false false
  | None => None
  end.
(** /1.3: the copy deduction candidate. *)
Definition copy_guide (c : string) : option guide :=
  guide_of (class_params c) [] [(self_type c, "")] (self_type c) false true.
(** /1.4: the declared ones. *)
Definition declared_guide (d : fdecl) : option guide :=
  match all (map (fun a => match a with (Some e, s, false, _) => Some (e, s) | _ => None end) (fd_args d)) with
  | Some xs => guide_of (fd_params d) (of_kind "class" (fd_params d)) xs (fd_ret d) true false
  | None => None
  end.
Definition is_guide (c : string) (d : fdecl) : bool :=
  String.eqb (fd_name d) c && match fd_body d with None => true | Some _ => false end.
Definition text_guides : option (list guide) :=
  all (map (constructor_guide "optional") (constructors "optional")
       ++ [copy_guide "optional"]
       ++ map declared_guide (filter (is_guide "optional") declared)).

(** Two lists of guides that differ in the way of writing the class only. *)
Definition same_guide (g h : guide) : Prop :=
  g_tys g = g_tys h /\ g_args g = g_args h /\ g_defaults g = g_defaults h /\
  g_params g = g_params h /\ g_pack g = g_pack h /\ (forall s, g_result g s = g_result h s) /\
  g_user g = g_user h /\ g_copy g = g_copy h.

Lemma same_viable xs g h : same_guide g h -> viable xs g = viable xs h.
Proof.
  intros (H1 & H2 & H3 & H4 & H5 & _). unfold viable. rewrite H1, H2, H3, H4, H5. reflexivity.
Qed.
Lemma same_better x g h g' h' n m :
  same_guide g g' -> same_guide h h' -> better_guide x g h n m = better_guide x g' h' n m.
Proof.
  intros (_ & _ & _ & A & _ & _ & B & C) (_ & _ & _ & D & _ & _ & E & F).
  unfold better_guide, more_specialized. rewrite A, B, C, D, E, F. reflexivity.
Qed.
Definition same_candidate (c d : nat * guide * subst * list nat) : Prop :=
  fst (fst (fst c)) = fst (fst (fst d)) /\ same_guide (snd (fst (fst c))) (snd (fst (fst d))) /\
  snd (fst c) = snd (fst d) /\ snd c = snd d.
Lemma same_candidates xs gs hs i :
  Forall2 same_guide gs hs -> Forall2 same_candidate (candidates xs gs i) (candidates xs hs i).
Proof.
  intros H. revert i. induction H as [|g h gs hs Hg _ IH]; intros i; cbn; [constructor|].
  rewrite (same_viable xs g h Hg). destruct (viable xs h) as [[s ns]|]; [|apply IH].
  constructor; [|apply IH]. repeat split; apply Hg.
Qed.
Lemma same_forallb c c' cs ds x :
  same_candidate c c' -> Forall2 same_candidate cs ds ->
  forallb (fun d => match c, d with
                    | (i, g, _, n), (j, h, _, m) => Nat.eqb i j || better_guide x g h n m
                    end) cs =
  forallb (fun d => match c', d with
                    | (i, g, _, n), (j, h, _, m) => Nat.eqb i j || better_guide x g h n m
                    end) ds.
Proof.
  intros Hc. induction 1 as [|d d' cs ds Hd _ IH]; [reflexivity|]. cbn [forallb]. rewrite IH.
  f_equal. destruct c as [[[i g] s] n], c' as [[[i' g'] s'] n'], d as [[[j h] u] m],
    d' as [[[j' h'] u'] m'].
  destruct Hc as (E1 & E2 & _ & E4), Hd as (F1 & F2 & _ & F4). cbn in E1, E2, E4, F1, F2, F4. subst.
  rewrite (same_better x g h g' h' n' m' E2 F2). reflexivity.
Qed.
Lemma same_ctad xs gs hs : Forall2 same_guide gs hs -> ctad gs xs = ctad hs xs.
Proof.
  intros H. apply (same_candidates xs gs hs 0) in H. unfold ctad.
  set (x := match xs with x :: _ => x | [] => ABraces [] end).
  set (cs := candidates xs gs 0) in *. set (ds := candidates xs hs 0) in *.
  enough (E : forall l k, Forall2 same_candidate l k ->
    match find (fun c => forallb (fun d =>
                 match c, d with
                 | (i, g, _, n), (j, h, _, m) => Nat.eqb i j || better_guide x g h n m
                 end) cs) l with
    | Some (_, g, s, _) => g_result g s
    | None => None
    end =
    match find (fun c => forallb (fun d =>
                 match c, d with
                 | (i, g, _, n), (j, h, _, m) => Nat.eqb i j || better_guide x g h n m
                 end) ds) k with
    | Some (_, g, s, _) => g_result g s
    | None => None
    end) by (apply E, H).
  induction 1 as [|c c' l k Hc _ IH]; [reflexivity|]. cbn [find].
  rewrite (same_forallb c c' cs ds x Hc H).
  destruct (forallb _ ds); [|exact IH].
  destruct c as [[[i g] s] n], c' as [[[i' g'] s'] n'].
  destruct Hc as (_ & (_ & _ & _ & _ & _ & E & _) & F & _). cbn in E, F. subst. apply E.
Qed.

Lemma text_guides_are :
  exists gs, text_guides = Some gs /\ Forall2 same_guide gs tiny_guides.
Proof.
  eexists. split; [vm_compute; reflexivity|].
  assert (T : forall s,
    match lookup 0 (s_ty s) with
    | Some t => match lookup 0 (s_arg s) with
                | Some x => match lookup 1 (s_arg s) with Some y => Some (TTiny t x y) | None => None end
                | None => None
                end
    | None => None
    end = tiny_of s) by (intros s; unfold tiny_of; repeat (destruct (lookup _ _)); reflexivity).
  repeat match goal with
  | |- Forall2 _ [] _ => constructor
  | |- Forall2 _ (_ :: _) _ => constructor
  | |- same_guide _ _ => repeat split
  end; try reflexivity; try exact T.
Qed.

(** ** C78: class template argument deduction *)

(** With the guides that the text of the header gives: from one argument that is an optional
    the same type, from any other one an optional of its decayed type with default storage. *)
Theorem C78_deduced_type :
  exists gs, text_guides = Some gs /\
    forall t c,
      ctad gs [AExpr t c] =
        Some (match remove_const t with
              | TTiny p a b => TTiny p a b
              | _ => TTiny (decay t) ADefault ADefault
              end).
Proof.
  destruct text_guides_are as (gs & Hg & Hs). exists gs. split; [exact Hg|]. intros t c.
  rewrite (same_ctad _ _ _ Hs). apply C57_deduced_type.
Qed.
(** Nothing is deduced from no argument, several arguments or braces, as with std::optional. *)
Theorem C78_nothing_else_is_deduced :
  exists gs, text_guides = Some gs /\
    forall xs, (forall t c, xs <> [AExpr t c]) -> ctad gs xs = None /\ ctad std_guides xs = None.
Proof.
  destruct text_guides_are as (gs & Hg & Hs). exists gs. split; [exact Hg|]. intros xs H.
  rewrite (same_ctad _ _ _ Hs). apply C57_nothing_else_is_deduced, H.
Qed.
(** The type that std::optional's guides deduce if it takes the place of tiny::optional,
    unless the argument is a std::optional, which is a payload here. *)
Theorem C78_deduced_type_as_std :
  exists gs, text_guides = Some gs /\
    forall t c,
      (forall p, remove_const t <> TStd p) ->
      ctad std_guides [AExpr (as_std t) c] = option_map as_std (ctad gs [AExpr t c]).
Proof.
  destruct text_guides_are as (gs & Hg & Hs). exists gs. split; [exact Hg|]. intros t c H.
  rewrite (same_ctad _ _ _ Hs). apply C57_deduced_type_as_std, H.
Qed.

(** ** make_optional *)

(** The parameters of a function template: [T &&], [T &&...] and initializer_list<T>, for a
    template parameter T. *)
Inductive shape : Type := ShForward (x v : string) | ShPack (x v : string) | ShList (x v : string).
Definition shape_of (ps : list tparam) (a : option texpr * string * bool * string) : option shape :=
  let is x pack := existsb (fun p => String.eqb (p_id p) x && String.eqb (p_kind p) "class"
                                     && Bool.eqb (p_is_pack p) pack) ps in
  match a with
  | (Some (TxName x), suffix, pack, v) =>
      if String.eqb suffix "&&" && is x pack
      then Some (if pack then ShPack x v else ShForward x v) else None
  | (Some (TxApp f [TxName x]), suffix, false, v) =>
      if String.eqb suffix "" && String.eqb f "std::initializer_list" && is x false
      then Some (ShList x v) else None
  | _ => None
  end.

(** Which of the three kinds of functions it is.  Explicit template arguments go to the
    first template parameters, which are a type and two constants; only the remaining ones
    are deduced, in all of them but the first kind. *)
Definition explicit_params (ps : list tparam) : option (string * tparam * tparam) :=
  match ps with
  | p :: a :: b :: _ =>
      if String.eqb (p_kind p) "class" && negb (p_is_pack p) &&
         match p_default p with None => true | Some _ => false end &&
         String.eqb (p_kind a) "auto" && negb (p_is_pack a) &&
         String.eqb (p_kind b) "auto" && negb (p_is_pack b)
      then Some (p_id p, a, b) else None
  | _ => None
  end.
Definition kind_of (d : fdecl) : option mfn :=
  match explicit_params (fd_params d), all (map (shape_of (fd_params d)) (fd_args d)) with
  | Some (x, _, _), Some [ShForward y _] =>
      if String.eqb x y && Nat.eqb (List.length (fd_params d)) 3 then Some MValue else None
  | Some (x, _, _), Some [ShPack y _] =>
      if Nat.eqb (List.length (fd_params d)) 4 then Some MArgs else None
  | Some (x, _, _), Some [ShList z _; ShPack y _] =>
      if negb (String.eqb x z) && negb (String.eqb z y) && Nat.eqb (List.length (fd_params d)) 5
      then Some MList else None
  | _, _ => None
  end.

(** [return T{args};] of the return type with all parameters, in their order, forwarded: how
    the payload is constructed. *)
Fixpoint show (e : texpr) : string :=
  match e with
  | TxName x => x
  | TxApp f l =>
      f ++ "<" ++ (fix go l := match l with
                               | [] => ""
                               | [e] => show e
                               | e :: r => show e ++ "," ++ go r
                               end) l ++ ">"
  | _ => ""
  end.
Definition is_forward (x v : string) (e : expr) : bool :=
  match e with
  | ECall (EName f) [EName y] => String.eqb f ("std::forward<" ++ x ++ ">") && String.eqb y v
  | _ => false
  end.
Definition passes (s : shape) (e : expr) : bool :=
  match s, e with
  | ShForward x v, _ => is_forward x v e
  | ShPack x v, EPack e' => is_forward x v e'
  | ShPack _ _, _ => false
  | ShList _ v, EName y => String.eqb y v
  | ShList _ _, _ => false
  end.
Fixpoint passes_all (l : list shape) (es : list expr) : bool :=
  match l, es with
  | [], [] => true
  | s :: l', e :: es' => passes s e && passes_all l' es'
  | _, _ => false
  end.
Definition init_of (d : fdecl) : option minit :=
  match all (map (shape_of (fd_params d)) (fd_args d)), fd_body d with
  | Some l, Some [SReturn (Some (EBrace t es))] =>
      if String.eqb t (show (fd_ret d)) then
        match l, es with
        | [ShForward _ _], [_] => if passes_all l es then Some IValue else None
        | s :: _, EName tag :: es' =>
            if String.eqb tag "std::in_place" && passes_all l es' then
              Some (match s with ShList _ _ => IInPlaceList | _ => IInPlace end)
            else None
        | _, _ => None
        end
      else None
  | _, _ => None
  end.

(** The returned type, if the payload parameter is [y] and the constants [ca] and [cb]; an
    optional of a reference is not valid. *)
Definition xtype_of (x : string) (y : xty) (e : texpr) : option ty :=
  match e with
  | TxName z => if String.eqb z x then of_xty y else None
  | TxApp f [TxName z] =>
      if String.eqb f "std::decay_t" && String.eqb z x then Some (xty_decay y) else None
  | _ => None
  end.
Definition ret_of (d : fdecl) (y : xty) (given : list targ) : option ty :=
  match explicit_params (fd_params d), fd_ret d with
  | Some (x, a, b), TxApp f [p; ea; eb] =>
      let value k (q : tparam) :=
        match nth_error given k with
        | Some v => Some v
        | None => match p_default q with Some e => const_of [] no_subst e | None => None end
        end in
      match xtype_of x y p, value 0 a, value 1 b with
      | Some t, Some va, Some vb =>
          let s := MkSubst [] [(0, va); (1, vb)] in
          match const_of [p_id a; p_id b] s ea, const_of [p_id a; p_id b] s eb with
          | Some ca, Some cb => if String.eqb f "optional" then Some (TTiny t ca cb) else None
          | _, _ => None
          end
      | _, _, _ => None
      end
  | _, _ => None
  end.

Definition makers : list fdecl := filter (fun d => String.eqb (fd_name d) "make_optional") declared.
Definition kinds : option (list mfn) := all (map kind_of makers).

Section Make.
Variable conv : argx -> ty -> bool.

(** A call with an explicit payload type and up to two constants, or without. *)
Definition call : Type := option (xty * list targ).
Definition explicit_of (e : call) : option explicit :=
  option_map (fun p => MkExplicit (fst p) (nth 0 (snd p) ADefault) (nth 1 (snd p) ADefault)) e.

(** Overload resolution among the declared functions; then the return type, for a deduced
    [PayloadType &&] from the argument ([temp.deduct.call]/3). *)
Definition resolved (fs : list mfn) (e : option explicit) (xs : list argx) : option mfn :=
  let cs := filter (mviable conv e xs) fs in
  find (fun f => forallb (fun g => mfn_eqb f g || mbetter conv e xs f g) cs) cs.
Definition payload_arg (e : call) (xs : list argx) : option xty :=
  match e, xs with
  | Some (y, _), _ => Some y
  | None, [AExpr u L] => Some (XLRef u)
  | None, [AExpr u R] => Some (XObj u)
  | None, _ => None
  end.
Definition text_make_optional (e : call) (xs : list argx) : option (ty * minit) :=
  match kinds with
  | Some fs =>
      match resolved fs (explicit_of e) xs with
      | Some f =>
          match find (fun d => match kind_of d with Some g => mfn_eqb f g | None => false end) makers,
                payload_arg e xs with
          | Some d, Some y =>
              match ret_of d y (match e with Some (_, g) => g | None => [] end), init_of d with
              | Some t, Some i => Some (t, i)
              | _, _ => None
              end
          | _, _ => None
          end
      | None => None
      end
  | None => None
  end.

Lemma kinds_are : kinds = Some [MValue; MArgs; MList].
Proof. vm_compute. reflexivity. Qed.
Lemma makers_are : makers = [l2280_make_optional; l2292_make_optional; l2304_make_optional].
Proof. vm_compute. reflexivity. Qed.

Lemma ret_value y g :
  List.length g <= 2 ->
  ret_of l2280_make_optional y g =
    Some (TTiny (xty_decay y) (nth 0 g ADefault) (nth 1 g ADefault)).
Proof. intros H. destruct g as [|a [|b [|c g]]]; cbn in *; try lia; reflexivity. Qed.
Lemma ret_args y g :
  List.length g <= 2 ->
  ret_of l2292_make_optional y g =
    option_map (fun t => TTiny t (nth 0 g ADefault) (nth 1 g ADefault)) (of_xty y).
Proof.
  intros H. destruct g as [|a [|b [|c g]]]; cbn in *; try lia; destruct y; reflexivity.
Qed.
Lemma ret_list y g :
  List.length g <= 2 ->
  ret_of l2304_make_optional y g =
    option_map (fun t => TTiny t (nth 0 g ADefault) (nth 1 g ADefault)) (of_xty y).
Proof.
  intros H. destruct g as [|a [|b [|c g]]]; cbn in *; try lia; destruct y; reflexivity.
Qed.

Lemma text_make_optional_is e xs :
  match e with Some (_, g) => List.length g <= 2 | None => True end ->
  text_make_optional e xs = make_optional conv (explicit_of e) xs.
Proof.
  intros H. unfold text_make_optional, make_optional. rewrite kinds_are.
  change (resolved [MValue; MArgs; MList] (explicit_of e) xs) with (mcalled conv (explicit_of e) xs).
  destruct (mcalled conv (explicit_of e) xs) as [f|] eqn:E; [|destruct e, xs; reflexivity].
  rewrite makers_are.
  assert (F : find (fun d => match kind_of d with Some g => mfn_eqb f g | None => false end)
                [l2280_make_optional; l2292_make_optional; l2304_make_optional] =
              Some (match f with
                    | MValue => l2280_make_optional
                    | MArgs => l2292_make_optional
                    | MList => l2304_make_optional
                    end)) by (destruct f; vm_compute; reflexivity).
  rewrite F. clear F.
  assert (I : forall f, init_of (match f with
                    | MValue => l2280_make_optional
                    | MArgs => l2292_make_optional
                    | MList => l2304_make_optional
                    end) = Some (match f with MValue => IValue | MArgs => IInPlace | MList => IInPlaceList end))
    by (intros []; vm_compute; reflexivity).
  rewrite I. clear I.
  destruct e as [[y g]|]; cbn [explicit_of option_map fst snd payload_arg].
  - destruct f; cbn [x_ty x_a x_b].
    + rewrite (ret_value y g H). reflexivity.
    + rewrite (ret_args y g H). destruct (of_xty y); reflexivity.
    + rewrite (ret_list y g H). destruct (of_xty y); reflexivity.
  - cbn [explicit_of option_map] in E.
    destruct xs as [|[u c|ts] [|x2 l]]; try discriminate E.
    inversion E. subst f. destruct c; rewrite (ret_value _ [] (Nat.le_0_l 2)); reflexivity.
Qed.

(** ** C78: make_optional *)

(** Without explicit template arguments: one argument, its decayed type, default storage. *)
Theorem C78_make_optional_of_a_value :
  forall xs,
    text_make_optional None xs =
      match xs with
      | [AExpr u _] => Some (TTiny (decay u) ADefault ADefault, IValue)
      | _ => None
      end.
Proof. intros xs. rewrite (text_make_optional_is None xs I). apply C57_make_optional_of_a_value. Qed.

(** With an explicit object type and no, one or two constants: the optional of exactly that
    type with these constants, constructed in place from the arguments; an rvalue of that type
    itself (or braces that are no initializer list) is taken as the value. *)
Theorem C78_make_optional_explicit :
  forall t g xs r,
    List.length g <= 2 ->
    text_make_optional (Some (XObj t, g)) xs = Some r ->
    r = match xs with
        | x :: _ =>
            if is_list x then
              (TTiny t (nth 0 g ADefault) (nth 1 g ADefault), IInPlaceList)
            else if exact_rvalue t x && Nat.eqb (List.length xs) 1 then
              (TTiny (decay t) (nth 0 g ADefault) (nth 1 g ADefault), IValue)
            else match x with
                 | AExpr _ _ => (TTiny t (nth 0 g ADefault) (nth 1 g ADefault), IInPlace)
                 | ABraces _ => (TTiny (decay t) (nth 0 g ADefault) (nth 1 g ADefault), IValue)
                 end
        | [] => (TTiny t (nth 0 g ADefault) (nth 1 g ADefault), IInPlace)
        end.
Proof.
  intros t g xs r Hg H. rewrite (text_make_optional_is (Some (XObj t, g)) xs Hg) in H.
  exact (C57_make_optional_explicit conv t _ _ xs r H).
Qed.
Theorem C78_make_optional_is_callable :
  forall t g xs,
    List.length g <= 2 -> forallb is_expr xs = true ->
    text_make_optional (Some (XObj t, g)) xs <> None.
Proof.
  intros t g xs Hg H. rewrite (text_make_optional_is (Some (XObj t, g)) xs Hg).
  exact (C57_make_optional_is_callable conv t _ _ xs H).
Qed.
(** As std::make_optional, the constants apart. *)
Theorem C78_make_optional_as_std :
  forall e xs,
    match e with Some (_, g) => List.length g <= 2 | None => True end ->
    std_make_optional conv (option_map fst e) xs = option_map std_result (text_make_optional e xs).
Proof.
  intros e xs H. rewrite (text_make_optional_is e xs H), <- C57_make_optional_as_std.
  destruct e as [[y g]|]; reflexivity.
Qed.
End Make.

(** ** std::hash *)

Fixpoint replace (env : list (string * texpr)) (e : texpr) : texpr :=
  match e with
  | TxName x =>
      match find (fun b => String.eqb (fst b) x) env with Some (_, r) => r | None => e end
  | TxApp f l => TxApp f (map (replace env) l)
  | TxMem a x => TxMem (replace env a) x
  | TxNot a => TxNot (replace env a)
  | TxAnd a b => TxAnd (replace env a) (replace env b)
  | TxOr a b => TxOr (replace env a) (replace env b)
  | TxNe a b => TxNe (replace env a) (replace env b)
  | TxDecltype a => TxDecltype (replace env a)
  | TxBool _ | TxText _ => e
  end.

(** The conditions of std::enable_if_t in the arguments of an alias: they have to hold also
    if the alias does not use the argument ([temp.alias]/3). *)
Definition enabling (l : list texpr) : list texpr :=
  flat_map (fun e => match e with
                     | TxApp f (c :: _) => if String.eqb f "std::enable_if_t" then [c] else []
                     | _ => []
                     end) l.
(** The type that the argument of a specialization is, aliases expanded [n] times, and the
    conditions. *)
Fixpoint expand (n : nat) (e : texpr) : option (texpr * list texpr) :=
  match n, e with
  | S m, TxApp f l =>
      match filter (fun t => String.eqb (td_name t) f) library with
      | [] => Some (e, [])
      | [Template _ TAlias [] ps None [([], b)] []] =>
          if Nat.eqb (List.length ps) (List.length l) then
            match expand m (replace (combine (map (fun p => fst (fst p)) ps) l) b) with
            | Some (t, cs) => Some (t, enabling l ++ cs)%list
            | None => None
            end
          else None
      | _ => None
      end
  | S _, _ => Some (e, [])
  | 0, _ => None
  end.

(** A condition on the hash of the payload, which the text calls [p]: Some true for
    is_default_constructible_v<hash<remove_const_t<p>>>, Some false without remove_const. *)
Fixpoint texpr_eqb (a b : texpr) : bool :=
  match a, b with
  | TxName x, TxName y => String.eqb x y
  | TxMem e x, TxMem f y => texpr_eqb e f && String.eqb x y
  | _, _ => false
  end.
Definition hash_condition (p c : texpr) : option bool :=
  match c with
  | TxApp f [TxApp g [TxApp h [q]]] =>
      if String.eqb f "std::is_default_constructible_v" && String.eqb g "std::hash"
         && String.eqb h "std::remove_const_t" && texpr_eqb p q then Some true else None
  | TxApp f [TxApp g [q]] =>
      if String.eqb f "std::is_default_constructible_v" && String.eqb g "std::hash"
         && texpr_eqb p q then Some false else None
  | _ => None
  end.
(** How a specialization of std::hash names the payload: the first argument of optional, or
    [PayloadType] of the first argument of TinyOptionalImpl (optional.h:572, 593, 637, 1399). *)
Definition payload_name (c : string) (t : texpr) (ps : list string) : option texpr :=
  match t with
  | TxApp f (TxName x :: r) =>
      if String.eqb f c
         && match all (map (fun e => match e with TxName y => Some y | _ => None end) (TxName x :: r)) with
            | Some l => if list_eq_dec string_dec l ps then true else false
            | None => false
            end
      then Some (if String.eqb c "TinyOptionalImpl" then TxMem (TxName x) "PayloadType" else TxName x)
      else None
  | _ => None
  end.
(** The specializations that match every instance of the class [c], as their conditions. *)
Definition specialized (c : string) : list (list (option bool)) :=
  flat_map (fun t =>
    match t with
    | Template h TClass [] ps (Some [a]) [] [] =>
        if String.eqb h "hash" then
          match expand 3 a with
          | Some (ty, cs) =>
              match payload_name c ty (map (fun p => fst (fst p)) ps) with
              | Some p => [map (hash_condition p) cs]
              | None => []
              end
          | None => []
          end
        else []
    | _ => []
    end) library.

Section Hash.
Variable named : nat -> provided.
Variable derived : nat -> provided.

(** The specialization that std::hash<t> names, as [hash_at], but for the library's classes
    from the text. *)
Fixpoint text_hash_at (strip : bool) (t : ty) : provided :=
  let at_class c p :=
    match specialized c with
    | [] => PNothing
    | [cs] =>
        if forallb (fun o => match o with
                             | Some st => default_constructible (text_hash_at st p)
                             | None => false
                             end) cs
        then PGood else PNothing
    | _ => PNothing
    end in
  match t with
  | TName n => named n
  | Deduce.TClass n _ => derived n
  | TTiny p _ _ => at_class "optional" p
  | TImpl _ p => at_class "TinyOptionalImpl" p
  | TStd p => match text_hash_at true p with PGood => PGood | _ => PNothing end
  | TPtr _ => PGood
  | TConst u => if strip then text_hash_at true u else PNothing
  | TNullopt | TInPlace | TInit _ | TArray _ _ | TFun _ => PNothing
  end.
Definition text_enabled (t : ty) : Prop := text_hash_at false t = PGood.

Lemma specialized_optional : specialized "optional" = [[Some true]].
Proof. vm_compute. reflexivity. Qed.
Lemma specialized_impl : specialized "TinyOptionalImpl" = [[Some true]].
Proof. vm_compute. reflexivity. Qed.

Lemma text_hash_at_is b t : text_hash_at b t = hash_at named derived b t.
Proof.
  revert b. induction t; intros st; cbn [text_hash_at hash_at]; try reflexivity.
  - rewrite specialized_optional. cbn [forallb]. rewrite IHt, andb_true_r. reflexivity.
  - rewrite specialized_impl. cbn [forallb]. rewrite IHt, andb_true_r. reflexivity.
  - rewrite IHt. reflexivity.
  - rewrite IHt. reflexivity.
Qed.

(** ** C78: std::hash *)

(** With the specializations in the text: hashable exactly if the type is with std::optional
    in the place of tiny::optional; the innermost payload decides. *)
Theorem C78_hash_enabled_as_std : forall t, text_enabled t <-> text_enabled (as_std t).
Proof.
  intros t. unfold text_enabled. rewrite !text_hash_at_is. apply C58_hash_enabled_as_std.
Qed.
Theorem C78_hash_innermost_payload :
  forall t u, layers t u -> (text_enabled t <-> text_enabled u).
Proof.
  intros t u H. unfold text_enabled. rewrite !text_hash_at_is.
  exact (C58_innermost_payload_decides named derived t u H).
Qed.
Theorem C78_hash_disabled_is_detectable :
  forall p a b,
    ~ text_enabled (TTiny p a b) -> default_constructible (text_hash_at false (TTiny p a b)) = false.
Proof.
  intros p a b H. unfold text_enabled in H. rewrite text_hash_at_is in *.
  exact (C58_disabled_is_detectable named derived p a b H).
Qed.
End Hash.

(** A type as it is written in a function within namespace std (the reader of [Library.v]
    leaves out the namespaces of the library and typename). *)
Definition qualified (f : string) : string :=
  if String.eqb f "optional" then "tiny::optional"
  else if String.eqb f "TinyOptionalImpl" then "tiny::impl::TinyOptionalImpl" else f.
Fixpoint written (e : texpr) : string :=
  match e with
  | TxName x => x
  | TxApp f l =>
      qualified f ++ "<" ++
      (fix args (l : list texpr) : string :=
         match l with [] => "" | [a] => written a | a :: l' => written a ++ "," ++ args l' end) l ++ ">"
  | TxMem a x => "typename " ++ written a ++ "::" ++ x
  | _ => ""
  end.

(** The call operator of a specialization takes a const reference to the very class that the
    specialization is for, and hashes a value with the hash that the condition of the
    specialization asks for; an empty optional gives 0. *)
Definition hashes (t : tdef) (f : fundef) : Prop :=
  exists a ty h o,
    td_pattern t = Some [a] /\
    expand 3 a = Some (ty, [TxApp "std::is_default_constructible_v" [TxApp "std::hash" [h]]]) /\
    f_params f = [Param (written ty ++ "const&") o false] /\ f_const f = true /\
    f_ret f = RValue "size_t" /\
    f_body f = Body [SReturn (Some (ECond (ECall (EMember (EName o) "has_value") [])
      (ECall (EBrace ("hash<" ++ written h ++ ">") []) [EUn "*" (EName o)]) (ENum 0)))].
Theorem C78_hash_call :
  Forall2 hashes (filter (fun t => String.eqb (td_name t) "hash") library)
                 (filter (fun f => String.eqb (f_class f) "hash") source).
Proof.
  assert (L : filter (fun t => String.eqb (td_name t) "hash") library = [t2779_hash; t2794_hash]) by (vm_compute; reflexivity).
  assert (S : filter (fun f => String.eqb (f_class f) "hash") source = [f2786_op_call; f2801_op_call]) by (vm_compute; reflexivity).
  rewrite L, S.
  repeat constructor; do 4 eexists; repeat (split; [vm_compute; reflexivity|]); vm_compute; reflexivity.
Qed.

(** An argument that is a const lvalue of optional<int, 5>, an array, make_optional of a
    string with a constant and a braced list, and hashes of optionals of optionals. *)
Example C78_example :
  (exists gs, text_guides = Some gs /\
     ctad gs [AExpr (TConst (TTiny int_t (AValue 5) ADefault)) L] = Some (TTiny int_t (AValue 5) ADefault) /\
     ctad gs [AExpr (TArray char_t 4) L] = Some (TTiny (TPtr char_t) ADefault ADefault)) /\
  text_make_optional conv_ex (Some (XObj vector_t, [AValue 3])) [ABraces [int_t; int_t]] =
    Some (TTiny vector_t (AValue 3) ADefault, IInPlaceList) /\
  text_make_optional conv_ex None [AExpr (TArray char_t 4) L] =
    Some (TTiny (TPtr char_t) ADefault ADefault, IValue) /\
  text_enabled named_ex named_ex
    (TTiny (TConst (TTiny (TName 0) (AValue 5) ADefault)) ADefault ADefault) /\
  ~ text_enabled named_ex named_ex (TTiny (TTiny (TName 1) ADefault ADefault) ADefault ADefault).
Proof.
  split; [|split; [|split; [|split]]]; try (vm_compute; reflexivity).
  - eexists. split; [vm_compute; reflexivity|]. split; vm_compute; reflexivity.
  - intros H. vm_compute in H. discriminate H.
Qed.

Print Assumptions C78_deduced_type.
Print Assumptions C78_make_optional_explicit.
Print Assumptions C78_hash_enabled_as_std.
