(** * Categories: which overload is meant, and what is copied or moved (C64)

    The member functions that give access to the value exist in several overloads for
    const and non-const, lvalue and rvalue objects.  Which one is called is decided by the
    binding of the implicit object parameter ([over.match.funcs]/4-5, [over.ics.rank]/3.2),
    and each one returns, or passes to its callable, a reference of its own kind.  or_else
    returns the value of a conditional expression, whose type and value category follow
    [expr.cond]; they decide whether the result is copied or moved.

    Simplifications: no conversion functions, so that the operands of the conditional
    expression in or_else are of one class type up to cv-qualification, as its static_assert
    demands; a callable is what it returns for each kind of argument. *)

From Coq Require Import List NArith ZArith Bool Arith Lia.
From Verif Require Import Cells CellsFacts Machine Optional Program Spec Laws Refine Contract
  Effects Frame Lifetime Bits Manip Sample Histories ExampleTac Clients Callables.
Import ListNotations.

(** ** Expressions and references *)

Record cv : Type := MkCv { is_const : bool; is_volatile : bool }.
Definition plain : cv := MkCv false false.
Definition cst : cv := MkCv true false.
(** [a] is at most as qualified as [b]. *)
Definition cv_le (a b : cv) : bool :=
  implb (is_const a) (is_const b) && implb (is_volatile a) (is_volatile b).
Definition cv_or (a b : cv) : cv := MkCv (is_const a || is_const b) (is_volatile a || is_volatile b).
Definition cv_eqb (a b : cv) : bool :=
  Bool.eqb (is_const a) (is_const b) && Bool.eqb (is_volatile a) (is_volatile b).

Inductive category : Type := Lvalue | Xvalue | Prvalue.
(** An expression of a given type: its category and qualifiers. *)
Record expr : Type := MkE { e_cat : category; e_cv : cv }.
Definition is_rvalue (c : category) : bool := match c with Lvalue => false | _ => true end.

(** A reference to a type with qualifiers: & or &&. *)
Record refty : Type := MkR { r_rvalue : bool; r_cv : cv }.

(** ** Overloads *)

(** Qualifiers of a member function. *)
Inductive refq : Type := NoRef | LRef | RRef.
Record overload : Type := MkO { o_const : bool; o_ref : refq }.

Inductive member : Type :=
| MArrow | MDeref | MValue | MValueOr | MAndThen | MTransform | MOrElse
| MHasValue | MBool | MReset | MEmplace | MSwap | MAssign.

(** The overloads (optional.h: operator-> 1560-1570, operator* 1573-1595, value 1598-1628,
    value_or 1631-1653, and_then 1682-1731, transform 1733-1812, or_else 1817-1837 and
    2250-2270, has_value 993 and reset 998-1010 (using-declarations 1430-1431), operator bool
    1554, emplace 1530-1551, swap 1656, assignments 1448-1449, 1514-1526, 2232-2246; the
    using-declarations 2218-2229 make them members of tiny::optional). *)
Definition overloads (m : member) : list overload :=
  match m with
  | MArrow => [MkO false NoRef; MkO true NoRef]
  | MDeref | MValue | MAndThen | MTransform =>
      [MkO false LRef; MkO true LRef; MkO false RRef; MkO true RRef]
  | MValueOr | MOrElse => [MkO true LRef; MkO false RRef]
  | MHasValue | MBool => [MkO true NoRef]
  | MReset | MEmplace | MSwap | MAssign => [MkO false NoRef]
  end.

Definition o_cv (o : overload) : cv := MkCv (o_const o) false.
(** [over.match.funcs]/4-5 and [dcl.init.ref]: may the implicit object parameter be bound to
    the object?  Without ref-qualifier it may be bound to rvalues as well. *)
Definition binds (e : expr) (o : overload) : bool :=
  cv_le (e_cv e) (o_cv o) &&
  match o_ref o with
  | NoRef => true
  | LRef => negb (is_rvalue (e_cat e)) || o_const o
  | RRef => is_rvalue (e_cat e)
  end.
(** [over.ics.rank]/3.2.3 and 3.2.6 for two overloads that can both be called: an rvalue
    reference is better for an rvalue than an lvalue reference (if both have ref-qualifiers),
    less qualifiers are better. *)
Definition better (e : expr) (a b : overload) : bool :=
  match o_ref a, o_ref b with
  | RRef, LRef => is_rvalue (e_cat e)
  | LRef, RRef => false
  | _, _ => o_const b && negb (o_const a)
  end.
Definition same_overload (a b : overload) : bool :=
  Bool.eqb (o_const a) (o_const b) &&
  match o_ref a, o_ref b with NoRef, NoRef | LRef, LRef | RRef, RRef => true | _, _ => false end.
(** The overload that is called: the one that is better than all others. *)
Definition called (m : member) (e : expr) : option overload :=
  let v := filter (binds e) (overloads m) in
  find (fun o => forallb (fun o' => same_overload o o' || better e o o') v) v.

(** ** What the overloads return and pass on *)

(** GetPayload() (optional.h:1071-1082) inside of a member function with the qualifiers of
    [o], for a payload type with the qualifiers [p]; std::move. *)
Definition get_payload (p : cv) (o : overload) : refty := MkR false (cv_or p (o_cv o)).
Definition std_move (r : refty) : refty := MkR true (r_cv r).

(** operator* and value (1573-1628). *)
Definition returned (p : cv) (o : overload) : refty :=
  match o_ref o with RRef => std_move (get_payload p o) | _ => get_payload p o end.
(** operator-> : the qualifiers of what the pointer points to. *)
Definition pointee (p : cv) (o : overload) : cv := r_cv (get_payload p o).

(** [**this] in a member function with the qualifiers of [o]: [*this] is an lvalue. *)
Definition star_star_this (p : cv) (o : overload) : option refty :=
  match called MDeref (MkE Lvalue (o_cv o)) with
  | Some d => Some (returned p d)
  | None => None
  end.
(** The argument that and_then and transform pass to the callable: [**this] or
    [std::move( **this)]. *)
Definition passed (p : cv) (o : overload) : option refty :=
  match star_star_this p o with
  | Some r => Some (match o_ref o with RRef => std_move r | _ => r end)
  | None => None
  end.
(** The argument type for which they ask invoke_result_t: [PayloadType &],
    [PayloadType const &], [PayloadType], [PayloadType const]; std::declval makes rvalue
    references of the latter. *)
Definition asked (p : cv) (o : overload) : refty :=
  MkR (match o_ref o with RRef => true | _ => false end) (cv_or p (o_cv o)).

(** Types that a callable may return. *)
Inductive base : Type :=
| BTiny (n : nat)      (* an optional of the library *)
| BStd (n : nat)       (* a std::optional *)
| BObject (n : nat)    (* any other object type except arrays *)
| BArray | BFunction | BVoid | BNullopt | BInPlace.
Record rty : Type := MkT { t_ref : option bool; t_cv : cv; t_base : base }.
(** A callable: what it returns for an argument of a given kind; None: not callable. *)
Definition callee : Type := refty -> option rty.

Definition some_optional (b : base) : bool :=
  match b with BTiny _ | BStd _ => true | _ => false end.
Definition base_eqb (a b : base) : bool :=
  match a, b with
  | BTiny n, BTiny m | BStd n, BStd m | BObject n, BObject m => Nat.eqb n m
  | BArray, BArray | BFunction, BFunction | BVoid, BVoid | BNullopt, BNullopt
  | BInPlace, BInPlace => true
  | _, _ => false
  end.

(** and_then (1682-1731): the type that it returns.  The static_assert looks at the type
    found with [asked]; the function returns what the callable gives for [passed]; both
    return statements must have the same type. *)
Definition and_then_type (p : cv) (f : callee) (e : expr) : option base :=
  match called MAndThen e with
  | Some o =>
      match f (asked p o), passed p o with
      | Some r, Some a =>
          match f a with
          | Some q => if some_optional (t_base r) && base_eqb (t_base r) (t_base q)
                      then Some (t_base r) else None
          | None => None
          end
      | _, _ => None
      end
  | None => None
  end.

(** transform (1733-1812): the type in the returned tiny::optional. *)
Definition transform_ok (r : rty) : bool :=
  match t_ref r, t_base r with
  | None, BTiny _ | None, BStd _ | None, BObject _ => true
  | _, _ => false
  end.
Definition transform_type (p : cv) (f : callee) (e : expr) : option base :=
  match called MTransform e with
  | Some o =>
      match f (asked p o), passed p o with
      | Some r, Some a =>
          match f a with
          | Some q => if transform_ok r && base_eqb (t_base r) (t_base q)
                      then Some (t_base r) else None
          | None => None
          end
      | _, _ => None
      end
  | None => None
  end.

(** ** Copying and moving *)

(** How an object is made from an expression of its own type: by elision ([dcl.init]/17.6.1),
    by the copy or the move constructor; None: no constructor takes it (volatile). *)
Inductive how : Type := Elided | Copied | Moved.
Definition made_from (e : expr) : option how :=
  match e_cat e with
  | Prvalue => Some Elided
  | Lvalue => if is_volatile (e_cv e) then None else Some Copied
  | Xvalue => if is_volatile (e_cv e) then None
              else if is_const (e_cv e) then Some Copied else Some Moved
  end.

(** value_or (1631-1653): [GetPayload()] for const &, [std::move(GetPayload())] for &&. *)
Definition value_or_takes (p : cv) (e : expr) : option how :=
  match called MValueOr e with
  | Some o => made_from (MkE (match o_ref o with RRef => Xvalue | _ => Lvalue end)
                             (r_cv (get_payload p o)))
  | None => None
  end.

(** [expr.cond]/4-7 for operands of one class type up to qualifiers. [dr]: with the wording
    of CWG2352 (C++20), where an lvalue reference may be bound to an xvalue in /4.1. *)
Section Conditional.
  Variable dr : bool.
  (** /4: the conversion of [x] to the type of [y]. *)
  Definition matches (x y : expr) : option expr :=
    let as_lref := cv_le (e_cv x) (e_cv y) &&
                   match e_cat x with
                   | Lvalue => true
                   | Xvalue => dr && cv_eqb (e_cv y) cst
                   | Prvalue => false
                   end in
    let as_rref := cv_le (e_cv x) (e_cv y) && is_rvalue (e_cat x) in
    let by_value := if cv_le (e_cv x) (e_cv y) then Some (MkE Prvalue (e_cv y)) else None in
    match e_cat y with
    | Lvalue => if as_lref then Some (MkE Lvalue (e_cv y)) else by_value
    | Xvalue => if as_rref then Some (MkE Xvalue (e_cv y)) else by_value
    | Prvalue => by_value
    end.
  (** How the result of a conversion is made from the operand: a reference refers to it. *)
  Definition step_how (from to : expr) : option how :=
    match e_cat to with Prvalue => made_from from | _ => Some Elided end.
  Definition same_cat (a b : category) : bool :=
    match a, b with Lvalue, Lvalue | Xvalue, Xvalue | Prvalue, Prvalue => true | _, _ => false end.
  (** /5-7, for operands of the same type: how an object is made from the conditional
      expression if the operand [x], or [y], is chosen. *)
  Definition joined (x y : expr) : option (option how * option how) :=
    if cv_eqb (e_cv x) (e_cv y)
    then if same_cat (e_cat x) (e_cat y) then Some (made_from x, made_from x)
         else Some (made_from x, made_from y)
    else None.
  (** First the conversion makes the operand, then the result is made from it. *)
  Definition after (first second : option how) : option how :=
    match first, second with
    | Some Elided, h | h, Some Elided => h
    | _, _ => None
    end.
  Definition conditional (x y : expr) : option (option how * option how) :=
    if cv_eqb (e_cv x) (e_cv y) then joined x y
    else match matches x y, matches y x with
         | Some _, Some _ => None
         | None, None => joined x y
         | Some x', None =>
             match joined x' y with
             | Some (a, b) => Some (after (step_how x x') a, b)
             | None => None
             end
         | None, Some y' =>
             match joined x y' with
             | Some (a, b) => Some (a, after (step_how y y') b)
             | None => None
             end
         end.
End Conditional.

(** The expression that a callable's call is. *)
Definition call_expr (r : rty) : expr :=
  MkE (match t_ref r with None => Prvalue | Some false => Lvalue | Some true => Xvalue end) (t_cv r).

(** or_else (1817-1837, 2250-2270) for an optional of the type [BTiny n] whose payload is copy
    constructible ([cc]) and move constructible ([mc]): how the result is made from the
    optional if it has a value, and from the callable's result otherwise.  [r]: what the
    callable returns. *)
Definition or_else_makes (dr cc mc : bool) (n : nat) (r : option rty) (e : expr) : option (how * how) :=
  let ctor h := match h with Elided => true | Copied => cc | Moved => mc end in
  let ok := fun o => match o_ref o with RRef => mc | _ => cc end in
  let v := filter (fun o => binds e o && ok o && match r with Some _ => true | None => false end)
                  (overloads MOrElse) in
  match find (fun o => forallb (fun o' => same_overload o o' || better e o o') v) v, r with
  | Some o, Some r =>
      if base_eqb (t_base r) (BTiny n)
      then
        let this := match o_ref o with RRef => MkE Xvalue plain | _ => MkE Lvalue cst end in
        match conditional dr this (call_expr r) with
        | Some (Some a, Some b) => if ctor a && ctor b then Some (a, b) else None
        | _ => None
        end
      else None
  | _, _ => None
  end.
(** The standard ([optional.monadic]): [if ( *this) return *this; else return f();], with
    std::move( *this) for rvalues; each return statement makes the result from its own
    operand. *)
Definition or_else_std (cc mc : bool) (n : nat) (r : option rty) (e : expr) : option (how * how) :=
  let ctor h := match h with Elided => true | Copied => cc | Moved => mc end in
  match r with
  | Some r =>
      let rv := is_rvalue (e_cat e) && negb (is_const (e_cv e)) in
      if negb (is_volatile (e_cv e)) && (if rv then mc else cc) && base_eqb (t_base r) (BTiny n)
      then match made_from (call_expr r) with
           | Some b => let a := if rv then Moved else Copied in
                       if ctor a && ctor b then Some (a, b) else None
           | None => None
           end
      else None
  | None => None
  end.

(** ** C64 *)

(** The kind of reference that the standard demands for access to the value of the object
    [e]: as const as the object or the type of the value, an rvalue exactly for an rvalue. *)
Definition like (p : cv) (e : expr) : refty := MkR (is_rvalue (e_cat e)) (cv_or p (e_cv e)).

Lemma base_eqb_refl b : base_eqb b b = true.
Proof. destruct b; cbn; auto using Nat.eqb_refl. Qed.
Lemma base_eqb_eq a b : base_eqb a b = true <-> a = b.
Proof.
  split; [|intros ->; apply base_eqb_refl].
  destruct a, b; cbn; try discriminate; try reflexivity; rewrite Nat.eqb_eq; congruence.
Qed.

(** operator* and value(): there is no ambiguity, the reference has the category of the
    object and its constness; nothing can be called for volatile objects. *)
Theorem C64_reference_like_object :
  forall m p e, m = MDeref \/ m = MValue ->
    (is_volatile (e_cv e) = false ->
     exists o, called m e = Some o /\ returned p o = like p e) /\
    (is_volatile (e_cv e) = true -> called m e = None).
Proof.
  intros m [pc pv] [c [cc vv]] H. destruct H as [-> | ->];
    (split; intros V; cbn in V; subst vv; [|destruct c, cc; reflexivity]);
    destruct c, cc; (eexists; split; [reflexivity|]); unfold returned, like; cbn; rewrite ?orb_false_r; reflexivity.
Qed.

(** operator->: a pointer to const exactly for const objects (or types). *)
Theorem C64_arrow :
  forall p e, is_volatile (e_cv e) = false ->
    exists o, called MArrow e = Some o /\ pointee p o = cv_or p (e_cv e).
Proof.
  intros [pc pv] [c [cc vv]] V. cbn in V. subst vv.
  destruct c, cc; (eexists; split; [reflexivity|]); reflexivity.
Qed.

(** Nothing that modifies the optional can be called for const objects; has_value() and
    operator bool can always be called, unless the object is volatile. *)
Theorem C64_const_correct :
  forall m e,
    (m = MReset \/ m = MEmplace \/ m = MSwap \/ m = MAssign ->
     (called m e <> None <-> is_const (e_cv e) = false /\ is_volatile (e_cv e) = false)) /\
    (m = MHasValue \/ m = MBool -> (called m e <> None <-> is_volatile (e_cv e) = false)).
Proof.
  intros m [c [cc vv]]. split.
  - intros [-> |[-> |[-> | ->]]]; destruct c, cc, vv; cbn;
      split; intros H; try (split; reflexivity); try discriminate; try (exfalso; apply H; reflexivity);
      destruct H; discriminate.
  - intros [-> | ->]; destruct c, cc, vv; cbn; split; intros H; try reflexivity; try discriminate;
      try (exfalso; apply H; reflexivity).
Qed.

(** value_or moves the value out of non-const rvalues and copies it otherwise. *)
Theorem C64_value_or :
  forall e, is_volatile (e_cv e) = false ->
    value_or_takes plain e =
    Some (if is_rvalue (e_cat e) && negb (is_const (e_cv e)) then Moved else Copied).
Proof. intros [c [cc vv]] V. cbn in V. subst vv. destruct c, cc; reflexivity. Qed.

(** and_then and transform: the callable is called with the reference that the standard
    demands, and this is the type for which the static assertions ask; so they compile exactly
    for the callables for which those of std::optional do, and return that type. *)
Lemma asked_passed m p e :
  m = MAndThen \/ m = MTransform -> is_volatile (e_cv e) = false ->
  exists o, called m e = Some o /\ asked p o = like p e /\ passed p o = Some (like p e).
Proof.
  intros H V. destruct p as [pc pv], e as [c [cc vv]]. cbn in V. subst vv.
  destruct H as [-> | ->]; destruct c, cc; (eexists; split; [reflexivity|]);
    unfold asked, passed, star_star_this, like; cbn; rewrite ?orb_false_r; split; reflexivity.
Qed.
Lemma monadic_volatile m e :
  m = MAndThen \/ m = MTransform -> is_volatile (e_cv e) = true -> called m e = None.
Proof.
  intros H V. destruct e as [c [cc vv]]. cbn in V. subst vv.
  destruct H as [-> | ->]; destruct c, cc; reflexivity.
Qed.

Theorem C64_and_then :
  forall p f e b,
    and_then_type p f e = Some b <->
    is_volatile (e_cv e) = false /\
    exists r, f (like p e) = Some r /\ t_base r = b /\ some_optional b = true.
Proof.
  intros p f e b. unfold and_then_type.
  destruct (is_volatile (e_cv e)) eqn:V.
  - rewrite (monadic_volatile _ e (or_introl eq_refl) V). split; [discriminate|intros [[=] _]].
  - destruct (asked_passed MAndThen p e (or_introl eq_refl) V) as (o & -> & -> & ->).
    destruct (f (like p e)) as [r|].
    + rewrite base_eqb_refl, andb_true_r. destruct (some_optional (t_base r)) eqn:S.
      * split; [intros [= <-]; split; [reflexivity|]; exists r; auto|].
        intros (_ & r' & [= <-] & <- & _). reflexivity.
      * split; [discriminate|]. intros (_ & r' & [= <-] & <- & S'). congruence.
    + split; [discriminate|]. intros (_ & r' & [=] & _).
Qed.

Theorem C64_transform :
  forall p f e b,
    transform_type p f e = Some b <->
    is_volatile (e_cv e) = false /\
    exists q, f (like p e) = Some (MkT None q b) /\
      b <> BArray /\ b <> BFunction /\ b <> BVoid /\ b <> BNullopt /\ b <> BInPlace.
Proof.
  intros p f e b. unfold transform_type.
  destruct (is_volatile (e_cv e)) eqn:V.
  - rewrite (monadic_volatile _ e (or_intror eq_refl) V). split; [discriminate|intros [[=] _]].
  - destruct (asked_passed MTransform p e (or_intror eq_refl) V) as (o & -> & -> & ->).
    destruct (f (like p e)) as [[tr q bb]|].
    + cbn [t_base]. rewrite base_eqb_refl, andb_true_r. unfold transform_ok. cbn [t_ref t_base].
      destruct tr as [x|].
      * destruct bb; (split; intros H; [discriminate H|]); destruct H as (_ & q' & E & _); discriminate E.
      * destruct bb; split; intros H;
          try discriminate H;
          try (injection H as <-; split; [reflexivity|]; exists q; repeat split; discriminate);
          destruct H as (_ & q' & E & A1 & A2 & A3 & A4 & A5); inversion E; subst; congruence.
    + split; [discriminate|]. intros (_ & r' & [=] & _).
Qed.

(** or_else compiles exactly if that of std::optional does (for callables that return no
    volatile optionals).  It copies and moves as
    std::optional does if the callable returns an optional by value, or a non-const lvalue;
    the exact condition is: not (the callable returns a const && and the object is a non-const
    rvalue), and with CWG2352 neither (it returns a const & and the object is a non-const
    rvalue) nor (it returns a non-const && and the object is an lvalue or const). *)
Definition moved_object (e : expr) : bool := is_rvalue (e_cat e) && negb (is_const (e_cv e)).
Definition as_std (dr : bool) (r : rty) (e : expr) : bool :=
  match t_ref r with
  | None => true
  | Some true => if is_const (t_cv r) then negb (moved_object e)
                 else negb dr || moved_object e
  | Some false => negb dr || negb (is_const (t_cv r)) || negb (moved_object e)
  end.

Theorem C64_or_else_compiles :
  forall dr cc mc n r e, implb cc mc = true ->
    (forall q, r = Some q -> is_volatile (t_cv q) = false) ->
    (or_else_makes dr cc mc n r e <> None <-> or_else_std cc mc n r e <> None).
Proof.
  intros dr cc mc n r [c [ec ev]] HC HV. destruct r as [[tr [tc tv] b]|].
  - specialize (HV _ eq_refl). cbn in HV. subst tv. unfold or_else_makes, or_else_std. cbn [t_base].
    destruct (base_eqb b (BTiny n)).
    + destruct dr, cc, mc; try discriminate HC;
        destruct c, ec, ev, tr as [[|]|], tc; cbn; split; intros H; congruence.
    + destruct dr, cc, mc; try discriminate HC; destruct c, ec, ev; cbn; split; intros H; congruence.
  - unfold or_else_makes, or_else_std. destruct cc, mc; try discriminate HC;
      destruct c, ec, ev; cbn; split; intros H; congruence.
Qed.

Theorem C64_or_else_exact :
  forall dr cc mc n r e h, implb cc mc = true -> is_volatile (t_cv r) = false ->
    or_else_std cc mc n (Some r) e = Some h ->
    (or_else_makes dr cc mc n (Some r) e = Some h <-> as_std dr r e = true).
Proof.
  intros dr cc mc n [tr [tc tv] b] [c [ec ev]] h HC HV. cbn in HV. subst tv.
  unfold or_else_makes, or_else_std. cbn [t_base].
  destruct (base_eqb b (BTiny n)).
  - destruct dr, cc, mc; try discriminate HC;
      destruct c, ec, ev, tr as [[|]|], tc; cbn; intros H;
      first [discriminate H | injection H as <-; split; intros X; congruence].
  - rewrite andb_false_r. discriminate.
Qed.

(** In particular for every callable that returns an optional by value. *)
Theorem C64_or_else_by_value :
  forall dr cc mc n r e, implb cc mc = true -> t_ref r = None -> is_volatile (t_cv r) = false ->
    or_else_makes dr cc mc n (Some r) e = or_else_std cc mc n (Some r) e.
Proof.
  intros dr cc mc n r e HC Ht HV.
  assert (HV' : forall q, Some r = Some q -> is_volatile (t_cv q) = false) by (intros q [= <-]; exact HV).
  pose proof (C64_or_else_compiles dr cc mc n (Some r) e HC HV') as W.
  pose proof (C64_or_else_exact dr cc mc n r e) as X.
  destruct (or_else_std cc mc n (Some r) e) as [h|].
  - apply (X h HC HV eq_refl). unfold as_std. rewrite Ht. reflexivity.
  - destruct (or_else_makes dr cc mc n (Some r) e); [|reflexivity].
    exfalso. apply (proj1 W); congruence.
Qed.

(** ** What this means for an execution *)

(** [k = o.or_else(f)] for the optional [i], with a callable that returns a reference to the
    optional [j]. *)
Definition or_else_prog {W L} (get : L -> bool) (put : bool -> L -> L) (h : how * how) (k i j : L -> loc) :
  stmt W L :=
  code_or_else get put k i (match fst h with Moved => true | _ => false end)
    (CCall (fun l _ => match snd h with Moved => OMoveCtor (k l) (j l) | _ => OCopyCtor (k l) (j l) end)
           (fun _ l => l)).

(** Where the exact condition holds, the program does with tiny::optional what it does with
    std::optional: it ends in the same way and leaves all optionals and the user's objects in
    the same state. *)
Theorem C64_or_else_runs_as_std :
  forall W L (E : env W) (get : L -> bool) put k i j n l procs w f t dr cc mc m r e h h' pre,
    env_ok E -> stmt_ok pre -> (forall p, stmt_ok (procs p)) ->
    implb cc mc = true -> is_volatile (t_cv r) = false -> as_std dr r e = true ->
    or_else_makes dr cc mc m (Some r) e = Some h ->
    or_else_std cc mc m (Some r) e = Some h' ->
    exec_std E procs n (CSeq pre (or_else_prog get put h' k i j)) l (sinit_state w) = (f, t) -> f <> FBad ->
    exists s, exec_tiny E procs n (CSeq pre (or_else_prog get put h k i j)) l (init_state w) = (f, s) /\
      world s = sworld t /\
      (forall q o, objs t q = Some (SOpt o) -> peek E q s = Some o).
Proof.
  intros W L E get put k i j n l procs w f t dr cc mc m r e h h' pre HE Hpre Hp HC HV HA Hm Hs Hx Hf.
  assert (h = h').
  { pose proof (proj2 (C64_or_else_exact dr cc mc m r e h' HC HV Hs) HA). congruence. }
  subst h'.
  assert (Hok : stmt_ok (CSeq pre (or_else_prog (W := W) get put h k i j))).
  { split; [exact Hpre|]. unfold or_else_prog, code_or_else. destruct h as [a b].
    destruct a, b; cbn; repeat split. }
  destruct (C59_no_program_can_tell W L E procs n _ l w f t HE Hp Hok Hx Hf) as (s & H1 & H2 & H3 & _).
  exists s. auto.
Qed.

(** Not so otherwise.  [std::move(o).or_else([&]() -> optional const & { return d; })] with the
    rules of C++20, and the same with [const &&] with all rules: std::optional moves the value
    out of [o], tiny::optional copies it.  [o.or_else([&]() -> optional && { return
    std::move(d); })] with the rules of C++20: std::optional moves the value out of [d],
    tiny::optional copies it. *)
Definition by_ref (rvalue is_cst : bool) : rty := MkT (Some rvalue) (MkCv is_cst false) (BTiny 0).
Theorem C64_or_else_refuted :
  forall dbg,
    let E := sample dbg in
    let both dr r e (P : option (option rep) -> option (option rep) -> Prop) (full : bool) (q : loc) :=
      exists h h' l l' s t,
        or_else_makes dr true true 0 (Some r) e = Some h /\
        or_else_std true true 0 (Some r) e = Some h' /\
        let pre := CSeq (one (if full then OInPlace 0 (mkP 5 6) else ODefault 0)) (one (OInPlace 1 (mkP 7 8))) in
        exec_tiny E (fun _ => CSkip) 20 (CSeq pre (or_else_prog f_has f_put h (at_ 2) (at_ 0) (at_ 1)))
          (MkF false []) (init_state quiet) = (FNorm l, s) /\
        exec_std E (fun _ => CSkip) 20 (CSeq pre (or_else_prog f_has f_put h' (at_ 2) (at_ 0) (at_ 1)))
          (MkF false []) (sinit_state quiet) = (FNorm l', t) /\
        P (peek E q s) (match objs t q with Some (SOpt o) => Some o | _ => None end) in
    both true (by_ref false true) (MkE Xvalue plain)
      (fun x y => x = Some (Some [Atom 5; Atom 6]) /\ y = Some (Some [Atom 99; Atom 6])) true 0 /\
    (forall dr, both dr (by_ref true true) (MkE Xvalue plain)
      (fun x y => x = Some (Some [Atom 5; Atom 6]) /\ y = Some (Some [Atom 99; Atom 6])) true 0) /\
    both true (by_ref true false) (MkE Lvalue plain)
      (fun x y => x = Some (Some [Atom 7; Atom 8]) /\ y = Some (Some [Atom 99; Atom 8])) false 1.
Proof.
  intros dbg. cbv zeta. split; [|split].
  - do 6 eexists. split; [reflexivity|]. split; [reflexivity|].
    destruct dbg; (split; [vm_compute; reflexivity|]; split; [vm_compute; reflexivity|]; vm_compute; auto).
  - intros dr. do 6 eexists. split; [destruct dr; reflexivity|]. split; [reflexivity|].
    destruct dbg; (split; [vm_compute; reflexivity|]; split; [vm_compute; reflexivity|]; vm_compute; auto).
  - do 6 eexists. split; [reflexivity|]. split; [reflexivity|].
    destruct dbg; (split; [vm_compute; reflexivity|]; split; [vm_compute; reflexivity|]; vm_compute; auto).
Qed.

(** [o.value()] on an rvalue; and_then with a callable for non-const lvalues only; transform
    with a callable that returns a reference; or_else of a move-only payload. *)
Example C64_example :
  like plain (MkE Prvalue plain) = MkR true plain /\ like cst (MkE Lvalue plain) = MkR false cst /\
  (let f (a : refty) := if r_rvalue a || is_const (r_cv a) then None
                        else Some (MkT None plain (BStd 3)) in
   and_then_type plain f (MkE Lvalue plain) = Some (BStd 3) /\
   and_then_type plain f (MkE Lvalue cst) = None /\ and_then_type plain f (MkE Xvalue plain) = None) /\
  (let f (a : refty) := Some (MkT (if is_const (r_cv a) then Some false else None) plain (BObject 1)) in
   transform_type plain f (MkE Xvalue plain) = Some (BObject 1) /\
   transform_type plain f (MkE Xvalue cst) = None) /\
  or_else_makes true false true 0 (Some (MkT None plain (BTiny 0))) (MkE Xvalue plain) = Some (Moved, Elided) /\
  or_else_makes true false true 0 (Some (MkT None plain (BTiny 0))) (MkE Lvalue plain) = None /\
  or_else_makes true true true 0 (Some (MkT None plain (BTiny 0))) (MkE Lvalue plain) = Some (Copied, Elided) /\
  or_else_makes true true true 0 (Some (MkT (Some false) plain (BTiny 0))) (MkE Xvalue plain) = Some (Moved, Copied) /\
  or_else_makes true true true 0 (Some (MkT None plain (BTiny 1))) (MkE Lvalue plain) = None /\
  as_std true (MkT (Some false) plain (BTiny 0)) (MkE Xvalue plain) = true.
Proof. repeat split. Qed.
