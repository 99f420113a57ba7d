(** * Overload: which constructor or assignment operator is called (C44, C45)

    The conditions of optional.h:1402-1425, 1478-1496, 1522-1530, 2231-2247, and enough of
    C++'s overload resolution to say what [o = {}], [o = x], [O o(x)] and [O o = x] do. *)

From Coq Require Import List NArith ZArith Bool Arith Lia.
From Verif Require Import Cells CellsFacts Machine Optional Program Spec Laws Refine Effects Frame.
From Verif Require Import Contract Bits Manip Sample ExampleTac SpecTac Select Selection Smf.
Import ListNotations.

(** ** Types and arguments *)

(** The class [optional<...>] number [n], or the implementation class
    [impl::TinyOptionalImpl<...>] number [k] (also known under the names
    optional_sentinel_via_type<...>, optional_inplace<...>). *)
Inductive oty : Type := OOpt (n : nat) | OImpl (k : nat).
(** An argument's type without reference, const, volatile ... *)
Inductive thing : Type := TOpt (o : oty) | TVal (t : uty) | TNullopt | TInPlace.
(** ... and its value category and constness. *)
Inductive vcat : Type := Lvalue | ConstLvalue | Rvalue | ConstRvalue.
Definition atype : Type := (thing * vcat)%type.

Inductive rank : Type := Exact | Conversion | UserDefined.

(** What C++ says about the program's types. *)
Record lang : Type := MkLang {
  l_base : nat -> nat;                        (* the base class of optional class n *)
  l_payload : nat -> cvty;                    (* of implementation class k *)
  l_traits : cvty -> traits;
  l_constructible : cvty -> atype -> bool;    (* is_constructible_v<P, U> *)
  l_convertible : cvty -> atype -> bool;      (* is_convertible_v<U, P> *)
  l_assignable : cvty -> atype -> bool;       (* is_assignable_v<P&, U> *)
  l_default : cvty -> bool;                   (* is_constructible_v<P> *)
  l_braces : cvty -> option rank              (* implicit conversion of {} to P&& *)
}.

(** std::is_scalar_v *)
Definition is_scalar (t : uty) : bool :=
  match t with
  | UBool | UInt _ | UFloat | UDouble | ULongDouble | UPtr _ | UEnum _ | UOther _ => true
  | _ => false
  end.
(** An expression of type [P]. *)
Definition of_payload (P : cvty) : atype := (TVal (base P), if cv_const P then ConstRvalue else Rvalue).

(** The part of the language that is used: scalars have no constructors, an optional has
    only the conversion function [explicit operator bool] (optional.h:1552-1555). *)
Record lang_ok (L : lang) : Prop := {
  lo_opt_construct : forall P o c, is_scalar (base P) = true ->
    l_constructible L P (TOpt o, c) = is_bool (base P);
  lo_opt_convert : forall P o c, is_scalar (base P) = true -> l_convertible L P (TOpt o, c) = false;
  lo_opt_assign : forall P o c, is_scalar (base P) = true -> l_assignable L P (TOpt o, c) = false;
  lo_scalar_braces : forall P, is_scalar (base P) = true -> l_braces L P = Some Exact;
  lo_class_braces : forall P, is_scalar (base P) = false ->
    l_braces L P = None \/ l_braces L P = Some UserDefined;
  lo_scalar_self : forall P c, is_scalar (base P) = true ->
    l_constructible L P (TVal (base P), c) = true /\ l_convertible L P (TVal (base P), c) = true /\
    l_assignable L P (TVal (base P), c) = negb (cv_const P);
  lo_scalar_traits : forall P, is_scalar (base P) = true ->
    l_traits L P = MkTraits true true (negb (cv_const P)) (negb (cv_const P)) true (negb (cv_const P))
}.

Section Overload.
  Variable L : lang.

  Definition impl_of (o : oty) : nat := match o with OOpt n => l_base L n | OImpl k => k end.
  Definition payload (o : oty) : cvty := l_payload L (impl_of o).
  Definition smf (o : oty) : class_members :=
    match o with
    | OOpt _ => optional_members (l_traits L (payload o)) 0
    | OImpl _ => impl_members (l_traits L (payload o))
    end.
  Definition oty_eqb (a b : oty) : bool :=
    match a, b with
    | OOpt n, OOpt m | OImpl n, OImpl m => Nat.eqb n m
    | _, _ => false
    end.

  (** ** The library's conditions *)

  (** EnableConvertingConstructor<U> (optional.h:1404-1414) of [TinyOptionalImpl] number
      [k]; [optional] inherits these constructors (2216). *)
  Definition enable_ctor (k : nat) (x : atype) : bool :=
    l_constructible L (l_payload L k) x &&
    match fst x with
    | TInPlace => false
    | TOpt o => negb (Nat.eqb (impl_of o) k)  (* the same, or derived from it *)
    | _ => true
    end.
  (** EnableConvertingAssignment<O, U> (optional.h:1418-1425).  Simplification: arrays and
      functions as arguments, which [decay_t] would turn into pointers, are not modelled. *)
  Definition enable_assign (o : oty) (x : atype) : bool :=
    let P := payload o in
    negb (match fst x with TOpt o' => oty_eqb o' o | _ => false end) &&
    l_constructible L P x && l_assignable L P x &&
    (negb (is_scalar (base P)) ||
     negb (match fst x with TVal t => cvty_eqb (plain t) P | _ => false end)).

  (** ** Overload resolution *)

  Inductive how : Type := ByCopy | ByMove.
  (** What a constructor does. *)
  Inductive ceffect : Type :=
  | CEmpty                 (* default constructor, nullopt *)
  | CFrom (h : how)        (* copies or moves the argument, which is an optional *)
  | CInPlace               (* the payload is constructed without arguments *)
  | CValue.                (* the payload is constructed from the argument *)
  (** What an assignment does. *)
  Inductive aeffect : Type :=
  | AClear                           (* operator=(nullopt_t) *)
  | AFrom (h : how)                  (* copies or moves the argument, which is an optional *)
  | ATemp (c : ceffect) (h : how)    (* constructs a temporary optional, moves or copies it *)
  | AValue.                          (* AssignValue with the argument *)

  (** A viable function: the rank of the argument's conversion; its order among functions
      of equal rank (a function with an rvalue reference parameter before one with a
      reference to const, ordinary functions before templates); its effect, [None] if it
      is deleted. *)
  Definition cand (A : Type) : Type := (rank * nat * option A)%type.
  Definition rank_n (r : rank) : nat := match r with Exact => 0 | Conversion => 1 | UserDefined => 2 end.
  Definition score {A} (c : cand A) : nat := rank_n (fst (fst c)) * 4 + snd (fst c).
  Definition better {A} (c d : cand A) : cand A := if Nat.leb (score c) (score d) then c else d.
  Fixpoint best {A} (cs : list (cand A)) : option (cand A) :=
    match cs with
    | [] => None
    | c :: cs' => match best cs' with None => Some c | Some d => Some (better c d) end
    end.
  (** [None]: does not compile. *)
  Definition resolve {A} (cs : list (cand A)) : option A :=
    match best cs with Some (_, _, e) => e | None => None end.

  Definition usable {A} (m : member) (e : A) : option A :=
    match m with Usable _ _ => Some e | _ => None end.
  Definition rvalue (x : atype) : bool := match snd x with Rvalue => true | _ => false end.
  (** Conversion of the argument to a reference to [o] without conversion functions and
      constructors. *)
  Definition ref_rank (o : oty) (x : atype) : option rank :=
    match fst x, o with
    | TOpt (OOpt n), OOpt m => if Nat.eqb n m then Some Exact else None
    | TOpt (OImpl n), OImpl m => if Nat.eqb n m then Some Exact else None
    | TOpt (OOpt n), OImpl k => if Nat.eqb (l_base L n) k then Some Conversion else None
    | _, _ => None
    end.
  Definition if_rank {A} (r : option rank) (ord : nat) (e : option A) : list (cand A) :=
    match r with Some r => [(r, ord, e)] | None => [] end.
  Definition if_true {A} (b : bool) (ord : nat) (e : A) : list (cand A) :=
    if b then [(Exact, ord, Some e)] else [].
  Definition if_declared {A} (m : member) (l : list (cand A)) : list (cand A) :=
    match m with Absent => [] | _ => l end.

  (** The constructors of [o] for one argument, in direct ([O o(x)]) or copy
      ([O o = x], argument passing) initialization.  The copy constructors of the base
      class are not inherited; converting [x] to [o] for the parameter of the copy
      constructor is never better than the converting constructor itself. *)
  Definition constructors (direct : bool) (o : oty) (x : atype) : list (cand ceffect) :=
    let k := impl_of o in
    let conv := l_convertible L (l_payload L k) x in
    if_rank (ref_rank o x) 1 (usable (m_cctor (smf o)) (CFrom ByCopy)) ++
    (if rvalue x
     then if_declared (m_mctor (smf o)) (if_rank (ref_rank o x) 0 (usable (m_mctor (smf o)) (CFrom ByMove)))
     else []) ++
    if_true (match fst x with TNullopt => true | _ => false end) 0 CEmpty ++     (* 1451-1454 *)
    if_true (match fst x with TInPlace => direct && l_default L (payload o) | _ => false end) 0 CInPlace ++
    if_true (enable_ctor k x && conv) 2 CValue ++                                 (* 1478-1485 *)
    if_true (direct && (enable_ctor k x && negb conv)) 2 CValue.                  (* 1488-1496 *)
  Definition construct (direct : bool) (o : oty) (x : atype) : option ceffect :=
    resolve (constructors direct o x).

  (** The argument of an assignment. *)
  Inductive aarg : Type := Braces | Arg (x : atype).

  (** The assignment operators of [o] (those of the base class are hidden). *)
  Definition assignments (o : oty) (a : aarg) : list (cand aeffect) :=
    match a with
    | Braces =>
        (* {} converts to [o] by the default constructor; the template's parameter
           cannot be deduced and defaults to the payload type; nullopt_t has no default
           constructor *)
        [(UserDefined, 1, usable (m_cassign (smf o)) (ATemp CEmpty ByCopy))] ++
        if_declared (m_massign (smf o))
          [(UserDefined, 0, usable (m_massign (smf o)) (ATemp CEmpty ByMove))] ++
        (if enable_assign o (of_payload (payload o))
         then if_rank (l_braces L (payload o)) 2 (Some AValue) else [])
    | Arg x =>
        match ref_rank o x with
        | Some r =>
            [(r, 1, usable (m_cassign (smf o)) (AFrom ByCopy))] ++
            (if rvalue x
             then if_declared (m_massign (smf o)) [(r, 0, usable (m_massign (smf o)) (AFrom ByMove))]
             else [])
        | None =>
            match construct false o x with
            | Some e =>
                [(UserDefined, 1, usable (m_cassign (smf o)) (ATemp e ByCopy))] ++
                if_declared (m_massign (smf o))
                  [(UserDefined, 0, usable (m_massign (smf o)) (ATemp e ByMove))]
            | None => []
            end
        end ++
        if_true (match fst x with TNullopt => true | _ => false end) 0 AClear ++
        if_true (enable_assign o x) 2 AValue
    end.
  Definition assign_to (o : oty) (a : aarg) : option aeffect := resolve (assignments o a).
End Overload.

(** The whole call: the template of [optional] forwards its argument to
    [Base::operator=] (optional.h:2237-2247), which is resolved again. *)
Definition assign_effect (L : lang) (o : oty) (a : aarg) : option aeffect :=
  match o, assign_to L o a with
  | OOpt n, Some AValue =>
      assign_to L (OImpl (l_base L n))
        (Arg (match a with Braces => of_payload (payload L o) | Arg x => x end))
  | _, r => r
  end.

(** ** C44 *)

Ltac members_cases L P :=
  destruct (l_traits L P) as [[] [] [] [] [] []].

(** [o = {}] never stores a value, for all payload types except volatile scalars: if it
    compiles, then a temporary empty optional is assigned. *)
Theorem C44_braces_empty :
  forall L o e,
    lang_ok L ->
    (is_scalar (base (payload L o)) = true -> cv_volatile (payload L o) = false) ->
    assign_effect L o Braces = Some e -> exists h, e = ATemp CEmpty h.
Proof.
  intros L o e HL Hv H.
  assert (B : forall r, assign_to L o Braces = Some r -> exists h, r = ATemp CEmpty h).
  { intros r Hr. unfold assign_to, assignments in Hr.
    set (P := payload L o) in *.
    destruct (is_scalar (base P)) eqn:Hs.
    - replace (enable_assign L o (of_payload P)) with false in Hr.
      + unfold smf in Hr. fold P in Hr.
        destruct o; members_cases L P; cbn in Hr; try discriminate; injection Hr as <-; eauto.
      + unfold enable_assign, of_payload. fold P. cbn [fst]. rewrite Hs.
        destruct (lo_scalar_self L HL P (if cv_const P then ConstRvalue else Rvalue) Hs) as (_ & _ & ->).
        destruct (cv_const P) eqn:Hc; cbn; [rewrite !andb_false_r; reflexivity|].
        assert (plain (base P) = P) as ->.
        { specialize (Hv eq_refl). destruct P as [c v t]. cbn in *. subst. reflexivity. }
        rewrite cvty_eqb_refl. rewrite !andb_false_r. reflexivity.
    - pose proof (lo_class_braces L HL P Hs) as Hb.
      unfold smf in Hr. fold P in Hr.
      destruct (enable_assign L o (of_payload P)); destruct Hb as [Hb|Hb]; rewrite ?Hb in Hr;
        destruct o; members_cases L P; cbn in Hr; try discriminate; injection Hr as <-; eauto. }
  unfold assign_effect in H. destruct o as [n|k].
  - destruct (assign_to L (OOpt n) Braces) as [r|] eqn:Hr; [|discriminate].
    destruct (B r eq_refl) as (h & ->). injection H as <-. eauto.
  - apply B, H.
Qed.
(** For cv-unqualified scalars it compiles. *)
Theorem C44_braces_compile :
  forall L o, lang_ok L -> is_scalar (base (payload L o)) = true ->
    cv_const (payload L o) = false -> cv_volatile (payload L o) = false ->
    assign_effect L o Braces = Some (ATemp CEmpty ByMove).
Proof.
  intros L o HL Hs Hc Hv. 
  assert (assign_to L o Braces = Some (ATemp CEmpty ByMove)) as H.
  { unfold assign_to, assignments, smf. set (P := payload L o) in *.
    replace (enable_assign L o (of_payload P)) with false.
    - destruct o; rewrite (lo_scalar_traits L HL P Hs), Hc; reflexivity.
    - unfold enable_assign. fold P. cbn [fst of_payload]. rewrite Hs.
      assert (plain (base P) = P) as ->.
      { destruct P as [c v t]. cbn in *. subst. reflexivity. }
      rewrite cvty_eqb_refl, !andb_false_r. reflexivity. }
  unfold assign_effect. destruct o; rewrite H; reflexivity.
Qed.
(** The exception: for a volatile scalar the value 0 is assigned.  This follows from the
    standard's own condition, which the library copies. *)
Theorem C44_braces_volatile :
  forall L o, lang_ok L -> is_scalar (base (payload L o)) = true ->
    cv_const (payload L o) = false -> cv_volatile (payload L o) = true ->
    assign_effect L o Braces = Some AValue.
Proof.
  intros L o HL Hs Hc Hv.
  set (P := payload L o) in *.
  assert (Hp : cvty_eqb (plain (base P)) P = false).
  { destruct (cvty_eqb (plain (base P)) P) eqn:Q; [|reflexivity]. apply cvty_eqb_eq in Q.
    rewrite <- Q in Hv. discriminate. }
  assert (EN : forall o', payload L o' = P -> enable_assign L o' (of_payload P) = true).
  { intros o' Ho'. unfold enable_assign, of_payload. rewrite Ho'. cbn [fst]. rewrite Hs, Hp.
    destruct (lo_scalar_self L HL P (if cv_const P then ConstRvalue else Rvalue) Hs) as (-> & _ & ->).
    rewrite Hc. reflexivity. }
  assert (A : assign_to L o Braces = Some AValue).
  { unfold assign_to, assignments, smf. fold P. rewrite (EN o eq_refl), (lo_scalar_braces L HL P Hs).
    destruct o; rewrite (lo_scalar_traits L HL P Hs), Hc; reflexivity. }
  unfold assign_effect. destruct o as [n|k]; rewrite A; [|reflexivity].
  fold P. unfold assign_to, assignments. 
  assert (R : ref_rank L (OImpl (l_base L n)) (of_payload P) = None) by reflexivity. rewrite R.
  rewrite EN by reflexivity.
  unfold construct, constructors. rewrite R. cbn [fst of_payload if_rank].
  unfold enable_ctor. cbn [impl_of fst of_payload]. change (l_payload L (l_base L n)) with P.
  destruct (lo_scalar_self L HL P (if cv_const P then ConstRvalue else Rvalue) Hs) as (C & D & _).
  unfold of_payload. rewrite C, D. unfold smf. change (payload L (OImpl (l_base L n))) with P.
  rewrite (lo_scalar_traits L HL P Hs), Hc. reflexivity.
Qed.

Lemma if_true_In {A} b n (e : A) r m x :
  In (r, m, x) (if_true b n e) <-> b = true /\ (r, m, x) = (Exact, n, Some e).
Proof. unfold if_true. destruct b; cbn; intuition congruence. Qed.

(** A smallest score wins. *)
Lemma best_In {A} (cs : list (cand A)) c : best cs = Some c -> In c cs.
Proof.
  revert c. induction cs as [|d cs IH]; cbn; [discriminate|]. intros c H.
  destruct (best cs) as [e|]; [|injection H as <-; auto].
  injection H as <-. unfold better. destruct (Nat.leb _ _); auto.
Qed.
Lemma best_min {A} (cs : list (cand A)) c : In c cs -> exists d, best cs = Some d /\ score d <= score c.
Proof.
  induction cs as [|d cs IH]; cbn; [contradiction|]. intros [->|H].
  - destruct (best cs) as [e|]; [|eauto]. eexists; split; [reflexivity|]. unfold better.
    destruct (Nat.leb_spec (score c) (score e)); lia.
  - destruct (IH H) as (e & -> & Le). eexists; split; [reflexivity|]. unfold better.
    destruct (Nat.leb_spec (score d) (score e)); lia.
Qed.
Lemma resolve_In {A} (cs : list (cand A)) e : resolve cs = Some e -> exists r n, In (r, n, Some e) cs.
Proof.
  unfold resolve. destruct (best cs) as [[[r n] x]|] eqn:B; [|discriminate]. intros ->.
  apply best_In in B. eauto.
Qed.
(** A candidate of exact rank wins if all candidates of exact rank have its effect. *)
Lemma resolve_exact {A} (cs : list (cand A)) n e :
  n < 4 -> In (Exact, n, Some e) cs -> (forall m x, m <= n -> In (Exact, m, x) cs -> x = Some e) ->
  resolve cs = Some e.
Proof.
  intros Hn H U. unfold resolve. destruct (best_min cs _ H) as ([[r m] x] & B & Le). rewrite B.
  apply best_In in B. unfold score in Le. cbn in Le.
  destruct r; cbn in Le; try lia. apply (U m x); [lia|exact B].
Qed.

Definition related (L : lang) (o : oty) (x : atype) : Prop :=
  exists o', fst x = TOpt o' /\ impl_of L o' = impl_of L o.

Lemma ref_rank_related L o x : ref_rank L o x <> None -> related L o x.
Proof.
  destruct x as [[o'|t| |] c]; unfold ref_rank; cbn; try congruence.
  destruct o' as [n|n], o as [m|m]; try congruence.
  - destruct (Nat.eqb_spec n m) as [->|]; [|congruence]. intros _. eexists; split; reflexivity.
  - destruct (Nat.eqb_spec (l_base L n) m) as [<-|]; [|congruence]. intros _. eexists; split; reflexivity.
  - destruct (Nat.eqb_spec n m) as [->|]; [|congruence]. intros _. eexists; split; reflexivity.
Qed.
Lemma enable_ctor_spec L o x :
  enable_ctor L (impl_of L o) x = true <->
  l_constructible L (payload L o) x = true /\ fst x <> TInPlace /\ ~ related L o x.
Proof.
  unfold enable_ctor, related, payload. rewrite andb_true_iff.
  destruct x as [[o'|t| |] c]; cbn.
  - rewrite negb_true_iff, Nat.eqb_neq. split.
    + intros (H1 & H2). split; [exact H1|]. split; [discriminate|]. intros (o2 & [= <-] & H3). contradiction.
    + intros (H1 & _ & H2). split; [exact H1|]. intros H3. apply H2. eauto.
  - split; [intros (H & _)|intros (H & _)]; (split; [exact H|]); auto. split; [discriminate|].
    intros (o2 & H2 & _). discriminate.
  - split; [intros (H & _)|intros (H & _)]; (split; [exact H|]); auto. split; [discriminate|].
    intros (o2 & H2 & _). discriminate.
  - split; [intros (_ & H); discriminate|]. intros (_ & H & _). congruence.
Qed.

Ltac pick_how := first [exists ByCopy; solve [auto] | exists ByMove; solve [auto]].
Lemma constructors_cases L direct o x r n e :
  In (r, n, e) (constructors L direct o x) ->
  (related L o x /\ exists h, e = Some (CFrom h) \/ e = None) \/
  (fst x = TNullopt /\ e = Some CEmpty) \/
  (fst x = TInPlace /\ direct = true /\ e = Some CInPlace) \/
  (enable_ctor L (impl_of L o) x = true /\
   (direct = true \/ l_convertible L (payload L o) x = true) /\ r = Exact /\ n = 2 /\ e = Some CValue).
Proof.
  unfold constructors. rewrite !in_app_iff, !if_true_In. intros H.
  destruct H as [H|[H|[(H & E)|[(H & E)|[(H & E)|(H & E)]]]]].
  - left. destruct (ref_rank L o x) eqn:R; cbn in H; [|contradiction].
    split; [apply ref_rank_related; congruence|]. destruct H as [[= <- <- <-]|[]].
    destruct (m_cctor _); cbn; pick_how.
  - left. destruct (rvalue x); [|contradiction].
    destruct (ref_rank L o x) eqn:R; cbn in H; [|destruct (m_mctor _); contradiction].
    split; [apply ref_rank_related; congruence|].
    destruct (m_mctor _); cbn in H; [contradiction| |]; destruct H as [[= <- <- <-]|[]]; pick_how.
  - right. left. injection E as -> -> ->. destruct (fst x); try discriminate. auto.
  - right. right. left. injection E as -> -> ->. destruct (fst x); try discriminate.
    apply andb_true_iff in H as (H & _). auto.
  - right. right. right. injection E as -> -> ->. apply andb_true_iff in H as (H1 & H2). auto 6.
  - right. right. right. injection E as -> -> ->. apply andb_true_iff in H as (H0 & H).
    apply andb_true_iff in H as (H1 & _). auto 6.
Qed.

(** Converting construction happens under the standard's conditions ([optional.ctor]:
    is_constructible_v<T, U>, U is neither in_place_t nor the optional itself; explicit
    unless is_convertible_v<U, T>), for all argument types and value categories. *)
Theorem C44_converting_constructor :
  forall L direct o x, fst x <> TNullopt ->
    (construct L direct o x = Some CValue <->
     l_constructible L (payload L o) x = true /\ fst x <> TInPlace /\ ~ related L o x /\
     (direct = true \/ l_convertible L (payload L o) x = true)).
Proof.
  intros L direct o x Hn. split.
  - intros H. apply resolve_In in H as (r & n & H).
    apply constructors_cases in H as [(_ & h & [H|H])|[(_ & H)|[(_ & _ & H)|(H & D & _)]]]; try discriminate.
    apply enable_ctor_spec in H as (H1 & H2 & H3). auto.
  - intros (H1 & H2 & H3 & D).
    assert (H : enable_ctor L (impl_of L o) x = true) by (apply enable_ctor_spec; auto).
    apply resolve_exact with (n := 2); [lia| |].
    + unfold constructors. rewrite !in_app_iff, !if_true_In. rewrite H.
      change (l_payload L (impl_of L o)) with (payload L o).
      destruct (l_convertible L (payload L o) x); cbn; [tauto|]. destruct D as [->|]; [|discriminate].
      cbn. tauto.
    + intros m e _ Hi.
      apply constructors_cases in Hi as [(R & _)|[(R & _)|[(R & _)|(_ & _ & _ & _ & ->)]]]; congruence || contradiction.
Qed.

Lemma enable_assign_spec L o x :
  enable_assign L o x = true <->
  fst x <> TOpt o /\ l_constructible L (payload L o) x = true /\ l_assignable L (payload L o) x = true /\
  ~ (is_scalar (base (payload L o)) = true /\ exists t, fst x = TVal t /\ plain t = payload L o).
Proof.
  unfold enable_assign. rewrite !andb_true_iff, orb_true_iff, !negb_true_iff.
  assert (A : (match fst x with TOpt o' => oty_eqb o' o | _ => false end = false) <-> fst x <> TOpt o).
  { destruct (fst x) as [o'| | |]; try (split; [discriminate|reflexivity]).
    destruct o' as [n|n], o as [m|m]; cbn; try (split; [discriminate|reflexivity]).
    - rewrite Nat.eqb_neq. split; congruence.
    - rewrite Nat.eqb_neq. split; congruence. }
  assert (B : (match fst x with TVal t => cvty_eqb (plain t) (payload L o) | _ => false end = false) <->
              ~ exists t, fst x = TVal t /\ plain t = payload L o).
  { destruct (fst x) as [|t| |]; try (split; [intros _ (t & E & _); discriminate|reflexivity]).
    destruct (cvty_eqb (plain t) (payload L o)) eqn:Q.
    - apply cvty_eqb_eq in Q. split; [discriminate|]. intros H. exfalso. apply H. eauto.
    - split; [|reflexivity]. intros _ (t' & [= <-] & E). apply cvty_eqb_eq in E. congruence. }
  rewrite A, B. destruct (is_scalar (base (payload L o))); intuition congruence.
Qed.

Lemma assignments_cases L o x r n e :
  In (r, n, e) (assignments L o (Arg x)) ->
  (related L o x /\ ref_rank L o x = Some r /\ exists h, e = Some (AFrom h) \/ e = None) \/
  (ref_rank L o x = None /\ r = UserDefined /\
   exists c h, construct L false o x = Some c /\ (e = Some (ATemp c h) \/ e = None)) \/
  (fst x = TNullopt /\ e = Some AClear) \/
  (enable_assign L o x = true /\ r = Exact /\ n = 2 /\ e = Some AValue).
Proof.
  unfold assignments. rewrite !in_app_iff, !if_true_In. intros [H|[(H & E)|(H & E)]].
  - destruct (ref_rank L o x) as [q|] eqn:R.
    + left. split; [apply ref_rank_related; congruence|].
      destruct H as [[= <- <- <-]|H]; [split; [reflexivity|destruct (m_cassign _); cbn; pick_how]|].
      destruct (rvalue x); [|contradiction].
      destruct (m_massign _); cbn in H; [contradiction| |]; destruct H as [[= <- <- <-]|[]];
        (split; [reflexivity|pick_how]).
    + right. left. destruct (construct L false o x) as [c|]; [|contradiction].
      split; [reflexivity|]. destruct H as [[= <- <- <-]|H].
      * split; [reflexivity|]. exists c. destruct (m_cassign _); cbn; pick_how.
      * destruct (m_massign _); cbn in H; [contradiction| |]; destruct H as [[= <- <- <-]|[]];
          (split; [reflexivity|]); exists c, ByMove; auto.
  - right. right. left. injection E as -> -> ->. destruct (fst x); try discriminate. auto.
  - right. right. right. injection E as -> -> ->. auto.
Qed.

(** Converting assignment happens under the standard's conditions ([optional.assign]:
    not the optional itself, not a scalar T with decay_t<U> == T, is_constructible_v<T, U>,
    is_assignable_v<T&, U>). *)
Theorem C44_converting_assignment :
  forall L o x, fst x <> TNullopt ->
    (assign_to L o (Arg x) = Some AValue <->
     fst x <> TOpt o /\ l_constructible L (payload L o) x = true /\
     l_assignable L (payload L o) x = true /\
     ~ (is_scalar (base (payload L o)) = true /\ exists t, fst x = TVal t /\ plain t = payload L o)).
Proof.
  intros L o x Hn. rewrite <- enable_assign_spec. split.
  - intros H. apply resolve_In in H as (r & n & H).
    apply assignments_cases in H as
      [(_ & _ & h & [H|H])|[(_ & _ & c & h & _ & [H|H])|[(_ & H)|(H & _)]]]; try discriminate. exact H.
  - intros H. apply resolve_exact with (n := 2); [lia| |].
    + unfold assignments. rewrite !in_app_iff, !if_true_In. auto.
    + intros m e _ Hi. apply assignments_cases in Hi as [(R & Q & _)|[(_ & R & _)|[(R & _)|(_ & _ & _ & ->)]]].
      * exfalso. apply enable_assign_spec in H as (Hs & _).
        destruct x as [[o'|t| |] c]; cbn in *; try discriminate.
        destruct o' as [a|a], o as [b|b]; cbn in Q; try discriminate;
          match type of Q with context [Nat.eqb ?u ?v] => destruct (Nat.eqb_spec u v) end; congruence.
      * discriminate.
      * congruence.
      * reflexivity.
Qed.

(** [o = v] with the payload's own scalar type goes through a temporary optional. *)
Theorem C44_scalar_value :
  forall L o c, lang_ok L -> is_scalar (base (payload L o)) = true ->
    cv_const (payload L o) = false -> cv_volatile (payload L o) = false ->
    assign_effect L o (Arg (TVal (base (payload L o)), c)) = Some (ATemp CValue ByMove).
Proof.
  intros L o c HL Hs Hc Hv. set (x := (TVal (base (payload L o)), c)).
  assert (P : plain (base (payload L o)) = payload L o).
  { destruct (payload L o) as [c' v t]. cbn in *. subst. reflexivity. }
  destruct (lo_scalar_self L HL (payload L o) c Hs) as (C1 & C2 & C3).
  assert (K : construct L false o x = Some CValue).
  { apply C44_converting_constructor; [discriminate|]. split; [exact C1|]. split; [discriminate|].
    split; [intros (o' & E & _); discriminate|]. right. exact C2. }
  assert (A : assign_to L o (Arg x) = Some (ATemp CValue ByMove)).
  { unfold assign_to, assignments. change (ref_rank L o x) with (@None rank). rewrite K.
    replace (enable_assign L o x) with false.
    - unfold smf. destruct o; rewrite (lo_scalar_traits L HL _ Hs), Hc; reflexivity.
    - unfold enable_assign. cbn [fst x]. rewrite Hs, P, cvty_eqb_refl, !andb_false_r. reflexivity. }
  unfold assign_effect. destruct o; rewrite A; reflexivity.
Qed.

(** The template of [optional] and the one of its base class agree on what they do,
    except for an argument of exactly the base class. *)
Theorem C44_forwarding :
  forall L n x, fst x <> TOpt (OImpl (l_base L n)) ->
    assign_effect L (OOpt n) (Arg x) = assign_to L (OOpt n) (Arg x).
Proof.
  intros L n x Hx. unfold assign_effect.
  destruct (assign_to L (OOpt n) (Arg x)) as [[]|] eqn:A; try reflexivity.
  assert (N : fst x <> TNullopt).
  { intros E. assert (assign_to L (OOpt n) (Arg x) = Some AClear); [|congruence].
    apply resolve_exact with (n := 0); [lia| |].
    - unfold assignments. rewrite !in_app_iff, !if_true_In, E. auto.
    - intros m e Hm Hi. destruct m; [|lia]. apply assignments_cases in Hi as
        [((o' & R & _) & _)|[(_ & R & _)|[(_ & ->)|(_ & _ & R & _)]]]; congruence || discriminate || reflexivity. }
  apply (C44_converting_assignment L _ _ N) in A as (H1 & H2 & H3 & H4).
  apply C44_converting_assignment; auto.
Qed.

(** ** C45 *)

(** An optional of another type (one that does not have the same implementation class) is
    accepted exactly if the payload itself can be constructed from that optional object,
    and then the new optional contains what this constructor made of it. *)
Theorem C45_other_optional :
  forall L direct o o' c e, impl_of L o' <> impl_of L o ->
    (construct L direct o (TOpt o', c) = Some e <->
     e = CValue /\ l_constructible L (payload L o) (TOpt o', c) = true /\
     (direct = true \/ l_convertible L (payload L o) (TOpt o', c) = true)).
Proof.
  intros L direct o o' c e N.
  assert (NR : ~ related L o (TOpt o', c)) by (intros (o2 & [= <-] & E); contradiction).
  split.
  - intros H. pose proof H as H'. apply resolve_In in H' as (r & n & Hi).
    apply constructors_cases in Hi as [(R & _)|[(R & _)|[(R & _)|(En & D & _ & _ & [= ->])]]];
      try contradiction; try discriminate.
    apply enable_ctor_spec in En as (En & _). auto.
  - intros (-> & H1 & H2). apply C44_converting_constructor; [discriminate|].
    split; [exact H1|]. split; [discriminate|]. auto.
Qed.

(** So for scalar payloads other than bool, neither construction nor assignment from any
    other kind of optional compiles, whatever the payloads and sentinels of both. *)
Theorem C45_scalars :
  forall L direct o o' c, lang_ok L ->
    is_scalar (base (payload L o)) = true -> base (payload L o) <> UBool ->
    impl_of L o' <> impl_of L o ->
    construct L direct o (TOpt o', c) = None /\ assign_effect L o (Arg (TOpt o', c)) = None.
Proof.
  intros L direct o o' c HL Hs Hb N.
  assert (F : l_constructible L (payload L o) (TOpt o', c) = false).
  { rewrite (lo_opt_construct L HL) by exact Hs. destruct (base (payload L o)); try reflexivity. congruence. }
  assert (K : forall d, construct L d o (TOpt o', c) = None).
  { intros d. destruct (construct L d o (TOpt o', c)) as [e|] eqn:E; [|reflexivity].
    apply C45_other_optional in E as (_ & E & _); [congruence|exact N]. }
  split; [apply K|].
  assert (A : assign_to L o (Arg (TOpt o', c)) = None).
  { destruct (assign_to L o (Arg (TOpt o', c))) as [e|] eqn:E; [|reflexivity]. exfalso.
    apply resolve_In in E as (r & n & Hi).
    apply assignments_cases in Hi as [((o2 & [= <-] & R) & _)|[(_ & _ & c' & h & R & _)|[(R & _)|(R & _)]]].
    - contradiction.
    - rewrite K in R. discriminate.
    - discriminate.
    - apply enable_assign_spec in R as (_ & R & _). congruence. }
  unfold assign_effect. destruct o; rewrite A; reflexivity.
Qed.

(** The exception: an optional of bool can be constructed (explicitly) from every other
    optional; the value is what has_value() of the other said.  Implicit construction and
    assignment do not compile. *)
Theorem C45_bool :
  forall L o o' c, lang_ok L -> base (payload L o) = UBool -> impl_of L o' <> impl_of L o ->
    construct L true o (TOpt o', c) = Some CValue /\
    construct L false o (TOpt o', c) = None /\
    assign_effect L o (Arg (TOpt o', c)) = None.
Proof.
  intros L o o' c HL Hb N.
  assert (Hs : is_scalar (base (payload L o)) = true) by (rewrite Hb; reflexivity).
  assert (F : l_constructible L (payload L o) (TOpt o', c) = true).
  { rewrite (lo_opt_construct L HL) by exact Hs. rewrite Hb. reflexivity. }
  pose proof (lo_opt_convert L HL _ o' c Hs) as F2. pose proof (lo_opt_assign L HL _ o' c Hs) as F3.
  assert (K : construct L false o (TOpt o', c) = None).
  { destruct (construct L false o (TOpt o', c)) as [e|] eqn:E; [|reflexivity].
    apply C45_other_optional in E as (_ & _ & [E|E]); [discriminate|congruence|exact N]. }
  split; [apply C45_other_optional; auto|]. split; [exact K|].
  assert (A : assign_to L o (Arg (TOpt o', c)) = None).
  { destruct (assign_to L o (Arg (TOpt o', c))) as [e|] eqn:E; [|reflexivity]. exfalso.
    apply resolve_In in E as (r & n & Hi).
    apply assignments_cases in Hi as [((o2 & [= <-] & R) & _)|[(_ & _ & c' & h & R & _)|[(R & _)|(R & _)]]].
    - contradiction.
    - rewrite K in R. discriminate.
    - discriminate.
    - apply enable_assign_spec in R as (_ & _ & R & _). congruence. }
  unfold assign_effect. destruct o; rewrite A; reflexivity.
Qed.

(** Optionals with the same implementation class (for example [optional<int, 1>] and
    [optional<int, 1, 7>]): a class [optional] does not accept another class; the
    implementation class accepts the classes derived from it and copies or moves them. *)
Theorem C45_same_implementation :
  forall L direct o o' c, impl_of L o' = impl_of L o -> o' <> o ->
    match o, construct L direct o (TOpt o', c) with
    | OOpt _, r => r = None
    | OImpl _, r => forall e, r = Some e -> exists h, e = CFrom h
    end.
Proof.
  intros L direct o o' c Hi N.
  assert (R : related L o (TOpt o', c)) by (exists o'; auto).
  assert (En : enable_ctor L (impl_of L o) (TOpt o', c) = false).
  { destruct (enable_ctor L (impl_of L o) (TOpt o', c)) eqn:E; [|reflexivity].
    apply enable_ctor_spec in E as (_ & _ & E). contradiction. }
  destruct o as [n|k].
  - unfold construct, constructors. rewrite En.
    replace (ref_rank L (OOpt n) (TOpt o', c)) with (@None rank).
    + generalize (m_mctor (smf L (OOpt n))). intros mm. cbn [fst if_rank andb app].
      rewrite andb_false_r. destruct (rvalue (TOpt o', c)), mm; reflexivity.
    + unfold ref_rank. cbn. destruct o' as [m|m]; [|reflexivity].
      destruct (Nat.eqb_spec m n) as [->|]; [congruence|reflexivity].
  - intros e H. apply resolve_In in H as (r & m & H).
    apply constructors_cases in H as [(_ & h & [[= ->]|H])|[(H & _)|[(H & _)|(H & _)]]];
      try discriminate; eauto. congruence.
Qed.

(** ** What these assignments do at run time *)

(** [ATemp CEmpty ByMove] and [ATemp CValue ByMove] as calls of the machine: the temporary
    [k] is constructed, moved into [i] and destroyed. *)
Definition assign_braces {W} (i k : loc) : list (op W) := [ODefault k; OMoveAssign i k; ODtor k].
Definition assign_temp {W} (i k : loc) (n : ini W) : list (op W) :=
  [OInPlace k n; OMoveAssign i k; ODtor k].

(** [o = {}] leaves an empty optional, whatever it contained and whatever the payload
    type's operations do. *)
Theorem C44_braces_effect :
  forall W (E : env W) w p s i k x,
    env_ok E -> contract E w (p ++ assign_braces i k) -> reaches E w (p ++ assign_braces i k) s ->
    opt_after E w p i x ->
    peek E i s = Some None /\ mem s k = None.
Proof.
  intros W E w p s i k x HE C Hr Ho.
  destruct (reaches_rel E HE _ _ _ C Hr) as (xs & t & Ht & R).
  destruct Ho as (ys & t0 & Ht0 & Ho). unfold std_run in *. rewrite (srun_app E), Ht0 in Ht.
  cbn [assign_braces srun sstep] in Ht. sunfold Ht.
  destruct (objs t0 k) as [z|] eqn:Hk; [discriminate|].
  assert (Nik : i <> k) by congruence. assert (Nki : k <> i) by congruence. seval Ht.
  destruct (Nat.eqb (e_tid E i) (e_tid E k)); cbn in Ht; [|discriminate].
  destruct x as [v|]; seval Ht; injection Ht as _ <-;
    (split; [eapply peek_rel; [exact R|]|eapply rel_fresh; [exact R|]]); cbn;
    rewrite ?upd_same; try reflexivity;
    repeat first [rewrite upd_same|rewrite upd_other by congruence]; auto.
Qed.

(** A type whose values are only copied around, like a scalar. *)
Record plain_ops {W} (p : payops W) : Prop := {
  pl_move : forall v w, po_move p v w = ((ROk v, v), w);
  pl_massign : forall d v w, po_massign p d v w = ((ROk tt, (v, v)), w);
  pl_dtor : forall v w, po_dtor p v w = w
}.

(** [o = v] through the temporary stores [v], touches no other object, and has no other
    effect: the same as the value assignment that it replaces. *)
Theorem C44_scalar_value_effect :
  forall W (E : env W) w p s0 s i k (n : ini W) x v,
    env_ok E -> plain_ops (ops E k) -> plain_ops (ops E i) ->
    i_src n = None -> i_more n = [] -> (forall u, i_fun n [] u = ((ROk v, []), u)) ->
    contract E w (p ++ assign_temp i k n) -> reaches E w p s0 ->
    reaches E w (p ++ assign_temp i k n) s ->
    opt_after E w p i x ->
    peek E i s = Some (Some v) /\ mem s k = None /\ world s = world s0 /\
    (forall j y, j <> i -> opt_after E w p j y -> peek E j s = Some y).
Proof.
  intros W E w p s0 s i k n x v HE [Km Ka Kd] [Im Ia Id] Hn Hm Hf C Hr0 Hr Ho.
  destruct (reaches_rel E HE _ _ _ C Hr) as (xs & t & Ht & R).
  destruct (reaches_rel E HE _ _ _ (contract_app E _ _ _ C) Hr0) as (zs & t1 & Ht1 & R0).
  destruct Ho as (ys & t0 & Ht0 & Ho). unfold std_run in *.
  pose proof Ht1 as E1. rewrite Ht0 in E1. injection E1 as -> ->.
  pose proof Ht as Ht'. rewrite (srun_app E), Ht0 in Ht'.
  cbn [assign_temp srun sstep] in Ht'. sunfold Ht'. rewrite Hn, Hm in Ht'. cbn [sread_more swrite_more] in Ht'.
  unfold sret in Ht'. cbn [joined parted fst snd] in Ht'.
  destruct (objs t1 k) as [z|] eqn:Hk; [discriminate|].
  assert (Nik : i <> k) by congruence. assert (Nki : k <> i) by congruence.
  rewrite Hf in Ht'. seval Ht'.
  destruct (storable E k v) eqn:Sk; cbn in Ht'; [|discriminate]. seval Ht'.
  destruct (Nat.eqb (e_tid E i) (e_tid E k)) eqn:Q; cbn in Ht'; [|discriminate].
  assert (G : peek E i s = Some (Some v) /\ objs t k = None /\ sworld t = sworld t1 /\
              forall j, j <> i -> j <> k -> objs t j = objs t1 j).
  { destruct x as [u|].
    - seval Ht'. rewrite Ka in Ht'. seval Ht'.
      destruct (storable E i v) eqn:Si; seval Ht'; [|discriminate].
      rewrite Sk in Ht'. seval Ht'. rewrite ?Kd in Ht'. injection Ht' as _ <-.
      split; [eapply peek_rel; [exact R|]; cbn; repeat first [rewrite upd_same|rewrite upd_other by congruence]; reflexivity|].
      cbn. rewrite ?Kd. repeat first [rewrite upd_same|rewrite upd_other by congruence].
      repeat split; auto. intros j J1 J2. rewrite !upd_other by congruence. reflexivity.
    - seval Ht'. rewrite Km in Ht'. seval Ht'. rewrite Sk in Ht'. seval Ht'.
      destruct (storable E i v) eqn:Si; seval Ht'; [|discriminate].
      rewrite ?Kd in Ht'. injection Ht' as _ <-.
      split; [eapply peek_rel; [exact R|]; cbn; repeat first [rewrite upd_same|rewrite upd_other by congruence]; reflexivity|].
      cbn. rewrite ?Kd. repeat first [rewrite upd_same|rewrite upd_other by congruence].
      repeat split; auto. intros j J1 J2. rewrite !upd_other by congruence. reflexivity. }
  destruct G as (G1 & G2 & G3 & G4). split; [exact G1|].
  split; [eapply rel_fresh; eassumption|].
  split; [rewrite (rel_world E _ _ R), (rel_world E _ _ R0); exact G3|].
  intros j y Hj Hy. pose proof (opt_after_at E _ _ _ _ _ _ Hy Ht1) as Hy1.
  eapply peek_rel; [exact R|]. rewrite G4; auto. congruence.
Qed.

(** ** A concrete program *)

(** optional class n has implementation class n mod 10 (so that 1 and 11 differ only in
    the third template argument); payloads int, bool, volatile int, and a class that can be
    made from a double and, explicitly, from any optional. *)
Definition arithmetic (t : uty) : bool :=
  match t with UBool | UInt _ | UFloat | UDouble | ULongDouble => true | _ => false end.
Definition sample_constructible (P : cvty) (x : atype) : bool :=
  match fst x with
  | TOpt _ => if is_scalar (base P) then is_bool (base P) else true
  | TVal t => uty_eqb t (base P) || arithmetic t && (arithmetic (base P) || negb (is_scalar (base P)))
  | _ => false
  end.
Definition sample_convertible (P : cvty) (x : atype) : bool :=
  match fst x with TOpt _ => false | _ => sample_constructible P x end.
Definition sample_lang : lang :=
  MkLang (fun n => Nat.modulo n 10)
    (fun k => match k with
              | 0 => plain (UInt KInt) | 1 => plain UBool | 2 => MkTy false true (UInt KInt)
              | 3 => plain UDouble | _ => plain (UClass 0) end)
    (fun P => MkTraits true true (negb (cv_const P)) (negb (cv_const P)) true (negb (cv_const P)))
    sample_constructible sample_convertible
    (fun P x => negb (cv_const P) && sample_convertible P x)
    (fun _ => true)
    (fun P => Some (if is_scalar (base P) then Exact else UserDefined)).
Lemma sample_lang_ok : lang_ok sample_lang.
Proof.
  split; cbn; unfold sample_convertible, sample_constructible; cbn; intros.
  - rewrite H. reflexivity.
  - reflexivity.
  - rewrite andb_false_r. reflexivity.
  - rewrite H. reflexivity.
  - rewrite H. auto.
  - rewrite (proj2 (uty_eqb_eq _ _) eq_refl). cbn. rewrite andb_true_r. auto.
  - reflexivity.
Qed.

Example C44_example :
  assign_effect sample_lang (OOpt 0) Braces = Some (ATemp CEmpty ByMove) /\
  assign_effect sample_lang (OOpt 4) Braces = Some (ATemp CEmpty ByMove) /\
  assign_effect sample_lang (OOpt 2) Braces = Some AValue /\
  assign_effect sample_lang (OOpt 0) (Arg (TVal (UInt KInt), Lvalue)) = Some (ATemp CValue ByMove) /\
  assign_effect sample_lang (OOpt 0) (Arg (TVal UDouble, Lvalue)) = Some AValue /\
  assign_effect sample_lang (OOpt 4) (Arg (TVal (UClass 0), ConstLvalue)) = Some AValue /\
  assign_effect sample_lang (OOpt 4) (Arg (TOpt (OOpt 4), ConstLvalue)) = Some (AFrom ByCopy) /\
  construct sample_lang false (OOpt 4) (TVal UDouble, Rvalue) = Some CValue /\
  construct sample_lang false (OOpt 0) (TInPlace, Rvalue) = None /\
  construct sample_lang true (OOpt 0) (TInPlace, Rvalue) = Some CInPlace.
Proof. repeat split; reflexivity. Qed.
Example C44_effect_example dbg :
  exists s s',
    reaches (sample dbg) quiet ([OInPlace 20 (mkBits 8 5)] ++ assign_braces 20 21) s /\
    contract (sample dbg) quiet ([OInPlace 20 (mkBits 8 5)] ++ assign_braces 20 21) /\
    opt_after (sample dbg) quiet [OInPlace 20 (mkBits 8 5)] 20 (Some (word 8 5)) /\
    reaches (sample dbg) quiet ([OInPlace 20 (mkBits 8 5)] ++ assign_temp 20 21 (mkBits 8 7)) s' /\
    contract (sample dbg) quiet ([OInPlace 20 (mkBits 8 5)] ++ assign_temp 20 21 (mkBits 8 7)) /\
    peek (sample dbg) 20 s' = Some (Some (word 8 7)) /\
    plain_ops (ops (sample dbg) 20).
Proof.
  eexists _, _. split; [ex_reaches|]. split; [ex_contract|]. split; [ex_opt|]. split; [ex_reaches|].
  split; [ex_contract|]. split; [run_it|]. split; reflexivity.
Qed.
Example C45_example :
  construct sample_lang true (OOpt 0) (TOpt (OOpt 3), Lvalue) = None /\
  construct sample_lang true (OOpt 0) (TOpt (OOpt 10), Lvalue) = None /\
  construct sample_lang true (OImpl 0) (TOpt (OOpt 10), Rvalue) = Some (CFrom ByMove) /\
  construct sample_lang true (OOpt 4) (TOpt (OOpt 3), Lvalue) = Some CValue /\
  construct sample_lang false (OOpt 4) (TOpt (OOpt 3), Lvalue) = None /\
  assign_effect sample_lang (OOpt 0) (Arg (TOpt (OOpt 3), Rvalue)) = None.
Proof. repeat split; reflexivity. Qed.

(** The claim without the exception for bool does not hold: [optional<bool>] is explicitly
    constructible from [optional<int>]. *)
Theorem C45_bool_refuted :
  exists L o o',
    lang_ok L /\ is_scalar (base (payload L o)) = true /\ impl_of L o' <> impl_of L o /\
    construct L true o (TOpt o', Lvalue) = Some CValue.
Proof.
  exists sample_lang, (OOpt 1), (OOpt 0). split; [exact sample_lang_ok|].
  repeat split; cbn; discriminate.
Qed.
