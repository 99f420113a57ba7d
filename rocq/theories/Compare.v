(** * Compare: properties C28, C29, C30, C31 *)

From Coq Require Import List NArith ZArith Bool Arith Lia.
From Verif Require Import Cells CellsFacts Machine Optional Program Spec Laws Refine Contract
  Effects Frame Bits Manip Sample ExampleTac SpecTac.
Import ListNotations.

Local Arguments put : simpl never.
Local Arguments sub : simpl never.

(** What an operand of a comparison stands for after the history [p]. *)
Definition operand_after {W} (E : env W) (w : W) (p : list (op W)) (L : operand) (x : option rep) : Prop :=
  match L with
  | OpTiny i => opt_after E w p i x
  | OpStd y => x = y
  | OpNull => x = None
  | OpVal v => x = Some v
  end.
(** At least one of the operands is a tiny optional. *)
Definition has_tiny (L R : operand) : bool :=
  match L with
  | OpTiny _ => true
  | _ => match R with OpTiny _ => true | _ => false end
  end.

(** The standard's rule if at least one side is empty: as if has_value() was
    compared, with false before true. *)
Definition bool_rel (r : relop) (a b : bool) : bool :=
  match r with
  | REq => Bool.eqb a b
  | RNe => xorb a b
  | RLt => negb a && b
  | RLe => negb a || b
  | RGt => a && negb b
  | RGe => a || negb b
  end.

Definition bool_out (z : res bool) : out obs :=
  match z with ROk b => Ok (ObBool b) | RThrow e => Throw e end.
Definition ord_out (z : res ordering) : out obs :=
  match z with ROk b => Ok (ObOrd b) | RThrow e => Throw e end.

Section Steps.
  Context {W : Type}.
  Variable E : env W.
  Hypothesis HE : env_ok E.

  Lemma s_operand_at w p L x xs t :
    operand_after E w p L x -> std_run E w p = (Some xs, t) -> s_operand L t = (SOk x, t).
  Proof.
    intros H Ht. destruct L; cbn in *; unfold sret; try congruence.
    unfold contents. rewrite (opt_after_at E _ _ _ _ _ _ H Ht). reflexivity.
  Qed.

  Lemma rel_tables r (x y : option rep) :
    match x, y with
    | None, None => rel_none_none r
    | None, Some _ => rel_none_some r
    | Some _, None => rel_some_none r
    | Some _, Some _ => bool_rel r (is_some x) (is_some y)
    end = bool_rel r (is_some x) (is_some y).
  Proof. destruct r, x, y; reflexivity. Qed.

  Lemma compare_step w p s m c r L R x y :
    contract E w p -> reaches E w p s -> cmp_ok m c r L R ->
    operand_after E w p L x -> operand_after E w p R y -> has_tiny L R = true ->
    let (res, s') := step E (OCompare m c r L R) s in
    mem s' = mem s /\ trace s' = trace s /\
    match x, y with
    | Some a, Some b =>
        let (z, w') := c_rel c r a b (world s) in res = bool_out z /\ world s' = w'
    | _, _ => res = Ok (ObBool (bool_rel r (is_some x) (is_some y))) /\ world s' = world s
    end.
  Proof.
    intros C Hr Hm Hx Hy Ht. destruct (reaches_rel E HE _ _ _ C Hr) as (xs & t & Hs & R0).
    pose proof (step_from E HE _ _ _ (OCompare m c r L R) _ _ C Hr Hm Hs) as A.
    pose proof (step_read_only E (OCompare m c r L R) s eq_refl eq_refl) as RO.
    destruct (step E (OCompare m c r L R) s) as [res s']. cbn [snd] in RO.
    cbn [sstep] in A. unfold sbool, s_compare in A.
    assert (Hi : involved L R = true) by (destruct L, R; exact Ht || reflexivity).
    rewrite Hi in A. unfold sbind at 1 2 3 in A.
    rewrite (s_operand_at _ _ _ _ _ _ Hx Hs), (s_operand_at _ _ _ _ _ _ Hy Hs) in A.
    split; [exact (proj1 RO)|]. split; [exact (proj2 RO)|]. rewrite (rel_world E _ _ R0).
    pose proof (rel_tables r x y) as T. unfold s_relate in A.
    destruct x as [a|], y as [b|]; cbn in A;
      try (destruct A as (s2 & A & R1); injection A as -> ->; rewrite <- T; split; [reflexivity|];
           exact (rel_world E _ _ R1)).
    unfold sbind, suser in A. destruct (c_rel c r a b (sworld t)) as [[z|e] w']; cbn in A;
      destruct A as (s2 & A & R1); injection A as -> ->; split; try reflexivity; exact (rel_world E _ _ R1).
  Qed.
End Steps.

(** ** C28: the relational operators *)

(** For operands [L], [R] with contents [x], [y]: if both are engaged the result
    (or exception) is that of the payload's operator, called exactly once;
    otherwise it is the result of comparing has_value(), and no user code runs.
    No storage is modified.  [m] is what the compiler resolves the expression to;
    if that is the function for the operator itself ([RtDirect]) then [cmp_ok] holds
    for all payload operators; if it is a rewritten expression, then the payload
    operators used by it must agree with the one that was written. *)
Theorem C28_relational_operators :
  forall W (E : env W) w p s m c r L R x y res s',
    env_ok E -> contract E w p -> reaches E w p s -> cmp_ok m c r L R ->
    operand_after E w p L x -> operand_after E w p R y -> has_tiny L R = true ->
    step E (OCompare m c r L R) s = (res, s') ->
    mem s' = mem s /\ trace s' = trace s /\
    match x, y with
    | Some a, Some b =>
        let (z, w') := c_rel c r a b (world s) in res = bool_out z /\ world s' = w'
    | _, _ => res = Ok (ObBool (bool_rel r (is_some x) (is_some y))) /\ world s' = world s
    end.
Proof.
  intros W E w p s m c r L R x y res s' HE C Hr Hm Hx Hy Ht Hs.
  pose proof (compare_step E HE w p s m c r L R x y C Hr Hm Hx Hy Ht) as H. rewrite Hs in H. exact H.
Qed.

(** The expression with which a comparison of two engaged operands is evaluated:
    the operator itself or, if rewritten, [!(x == y)] or [(x <=> y) Op 0] with
    [x], [y] the payloads, exchanged if the compiler exchanged the operands. *)
Definition evaluated {W} (c : cmpops W) (m : route) (r : relop) (a b : rep) (w : W) : res bool * W :=
  let on {A} (f : A -> bool) (z : res A * W) : res bool * W :=
    (match fst z with ROk q => ROk (f q) | RThrow e => RThrow e end, snd z) in
  match m, r with
  | RtDirect, _ | _, REq => c_rel c r a b w
  | RtRewritten false, RNe => on negb (c_rel c REq a b w)
  | RtRewritten true, RNe => on negb (c_rel c REq b a w)
  | RtRewritten false, _ =>
      on (fun o => match r, o with
                   | RLt, OLess | RLe, OLess | RLe, OEquiv | RGt, OGreater | RGe, OGreater | RGe, OEquiv => true
                   | _, _ => false
                   end) (c_three c a b w)
  | RtRewritten true, _ =>
      on (fun o => match r, o with
                   | RLt, OGreater | RLe, OGreater | RLe, OEquiv | RGt, OLess | RGe, OLess | RGe, OEquiv => true
                   | _, _ => false
                   end) (c_three c b a w)
  end.

(** The same without any assumption on the payload's operators: a comparison of two
    engaged operands is the evaluated expression, everything else is as before. *)
Theorem C28_evaluated_expression :
  forall W (E : env W) w p s m c r L R x y res s',
    env_ok E -> contract E w p -> reaches E w p s ->
    route_defined m r L R = true -> (r = REq -> m = RtDirect) ->
    operand_after E w p L x -> operand_after E w p R y -> has_tiny L R = true ->
    step E (OCompare m c r L R) s = (res, s') ->
    mem s' = mem s /\ trace s' = trace s /\
    match x, y with
    | Some a, Some b =>
        let (z, w') := evaluated c m r a b (world s) in res = bool_out z /\ world s' = w'
    | _, _ => res = Ok (ObBool (bool_rel r (is_some x) (is_some y))) /\ world s' = world s
    end.
Proof.
  intros W E w p s m c r L R x y res s' HE C Hr Hd Hq Hx Hy Ht Hs.
  set (c' := MkCmp W (fun q => match q with REq => c_rel c REq | _ => evaluated c m q end) (c_three c)).
  assert (Hst : step E (OCompare m c r L R) s = step E (OCompare m c' r L R) s).
  { destruct m as [|rev].
    - replace c' with (MkCmp W (fun q => match q with REq => c_rel c REq | _ => c_rel c q end) (c_three c)) by reflexivity.
      destruct r, L, R; reflexivity.
    - destruct r; [discriminate (Hq eq_refl)| | | | |]; destruct rev, L, R; reflexivity. }
  assert (Hc : cmp_ok m c' r L R).
  { split; [exact Hd|]. right. intros a b u. destruct m as [|rev]; [destruct r; reflexivity|].
    destruct r; [discriminate (Hq eq_refl)| | | | |]; destruct rev; cbn;
      first [destruct (c_rel c REq _ _ u) as [[q|e] u'] | destruct (c_three c _ _ u) as [[q|e] u']];
      cbn; try reflexivity; destruct q; reflexivity. }
  rewrite Hst in Hs.
  pose proof (compare_step E HE w p s m c' r L R x y C Hr Hc Hx Hy Ht) as H. rewrite Hs in H.
  replace (evaluated c m r) with (c_rel c' r); [exact H|].
  destruct r; try reflexivity. rewrite (Hq eq_refl). reflexivity.
Qed.

(** ** C29: order laws *)

(** The payload's operators are pure functions given by [R]. *)
Definition pure_cmp {W} (c : cmpops W) (R : relop -> rep -> rep -> bool) : Prop :=
  forall r a b w, c_rel c r a b w = (ROk (R r a b), w).

(** What the compiler resolves each comparison expression to. *)
Definition resolution : Type := relop -> operand -> operand -> route.
Definition resolution_ok {W} (m : resolution) (c : cmpops W) : Prop :=
  forall r L R, has_tiny L R = true -> cmp_ok (m r L R) c r L R.

(** The comparison of two operands gives [b] and changes nothing. *)
Definition gives {W} (E : env W) (s : state W) (m : resolution) (c : cmpops W) (r : relop) (L R : operand) (b : bool) : Prop :=
  step E (OCompare (m r L R) c r L R) s = (Ok (ObBool b), s).

(** Properties of operators on some type. *)
Record consistent {A} (R : relop -> A -> A -> bool) : Prop := {
  co_ne : forall a b, R RNe a b = negb (R REq a b);
  co_gt : forall a b, R RGt a b = R RLt b a;
  co_le : forall a b, R RLe a b = negb (R RLt b a);
  co_ge : forall a b, R RGe a b = negb (R RLt a b)
}.
Record equivalence {A} (e : A -> A -> bool) : Prop := {
  eq_refl_ : forall a, e a a = true;
  eq_sym_ : forall a b, e a b = true -> e b a = true;
  eq_trans_ : forall a b c, e a b = true -> e b c = true -> e a c = true
}.
Record strict_weak {A} (lt : A -> A -> bool) : Prop := {
  sw_irrefl : forall a, lt a a = false;
  sw_trans : forall a b c, lt a b = true -> lt b c = true -> lt a c = true;
  sw_incomp : forall a b c, lt a b = false -> lt b a = false -> lt b c = false -> lt c b = false ->
              lt a c = false /\ lt c a = false
}.
(** Exactly one of <, ==, > holds. *)
Definition trichotomous {A} (R : relop -> A -> A -> bool) : Prop :=
  forall a b, (R RLt a b = true /\ R REq a b = false /\ R RLt b a = false) \/
              (R RLt a b = false /\ R REq a b = true /\ R RLt b a = false) \/
              (R RLt a b = false /\ R REq a b = false /\ R RLt b a = true).

(** The relation that the library computes, as a function of the contents. *)
Definition opt_rel (R : relop -> rep -> rep -> bool) (r : relop) (x y : option rep) : bool :=
  match x, y with
  | Some a, Some b => R r a b
  | _, _ => bool_rel r (is_some x) (is_some y)
  end.

Lemma MkState_eta {W} (s s' : state W) :
  mem s' = mem s -> trace s' = trace s -> world s' = world s -> s' = s.
Proof. destruct s, s'. cbn. intros -> -> ->. reflexivity. Qed.

(** With pure payload operators every comparison is defined and is [opt_rel] of
    the contents, whatever the storage strategies are. *)
Theorem C29_comparison_of_contents :
  forall W (E : env W) w p s m c R r A B x y,
    env_ok E -> contract E w p -> reaches E w p s -> resolution_ok m c -> pure_cmp c R ->
    operand_after E w p A x -> operand_after E w p B y -> has_tiny A B = true ->
    gives E s m c r A B (opt_rel R r x y).
Proof.
  intros W E w p s m c R r A B x y HE C Hr Hm Hp Hx Hy Ht. unfold gives.
  pose proof (compare_step E HE w p s (m r A B) c r A B x y C Hr (Hm r A B Ht) Hx Hy Ht) as H.
  destruct (step E (OCompare (m r A B) c r A B) s) as [res s']. destruct H as (H1 & H2 & H3).
  assert (G : res = Ok (ObBool (opt_rel R r x y)) /\ world s' = world s).
  { unfold opt_rel. destruct x as [a|], y as [b|]; try exact H3.
    rewrite Hp in H3. exact H3. }
  destruct G as (-> & G). f_equal. apply MkState_eta; assumption.
Qed.

(** Optionals inherit the laws from the payloads. *)
Lemma opt_consistent R : consistent R -> consistent (opt_rel R).
Proof.
  intros [A B C D]. split; intros [a|] [b|]; cbn; auto.
Qed.
Lemma opt_equivalence R : equivalence (R REq) -> equivalence (opt_rel R REq).
Proof.
  intros [A B C]. split.
  - intros [a|]; cbn; auto.
  - intros [a|] [b|]; cbn; auto.
  - intros [a|] [b|] [c|]; cbn; eauto; discriminate.
Qed.
Lemma opt_strict_weak R : strict_weak (R RLt) -> strict_weak (opt_rel R RLt).
Proof.
  intros [A B C]. split.
  - intros [a|]; cbn; auto.
  - intros [a|] [b|] [c|]; cbn; eauto; discriminate.
  - intros [a|] [b|] [c|]; cbn; eauto; try discriminate.
Qed.
Lemma opt_trichotomous R : trichotomous R -> trichotomous (opt_rel R).
Proof. intros A [a|] [b|]; cbn; auto. Qed.

Section Order.
  Context {W : Type}.
  Variables (E : env W) (w : W) (p : list (op W)) (s : state W) (m : resolution) (c : cmpops W)
            (R : relop -> rep -> rep -> bool).
  Hypotheses (HE : env_ok E) (C : contract E w p) (Hr : reaches E w p s) (Hm : resolution_ok m c) (Hp : pure_cmp c R).

  Lemma gives_iff r A B x y b :
    operand_after E w p A x -> operand_after E w p B y -> has_tiny A B = true ->
    gives E s m c r A B b <-> opt_rel R r x y = b.
  Proof.
    intros Hx Hy Ht.
    pose proof (C29_comparison_of_contents W E w p s m c R r A B x y HE C Hr Hm Hp Hx Hy Ht) as H.
    unfold gives in *. rewrite H. split; [congruence|intros ->; reflexivity].
  Qed.
End Order.

(** Three operands, any two of which can be compared by the library (for example
    three optionals with different sentinels). *)
Definition comparable (A B C : operand) : Prop :=
  has_tiny A B = true /\ has_tiny B C = true /\ has_tiny A C = true.

Lemma has_tiny_sym A B : has_tiny A B = has_tiny B A.
Proof. destruct A, B; reflexivity. Qed.

(** < on optionals is a strict weak order. *)
Theorem C29_strict_weak_order :
  forall W (E : env W) w p s m c R A B D x y z,
    env_ok E -> contract E w p -> reaches E w p s -> resolution_ok m c -> pure_cmp c R -> strict_weak (R RLt) ->
    operand_after E w p A x -> operand_after E w p B y -> operand_after E w p D z -> comparable A B D ->
    (has_tiny A A = true -> gives E s m c RLt A A false) /\
    (gives E s m c RLt A B true -> gives E s m c RLt B D true -> gives E s m c RLt A D true) /\
    (gives E s m c RLt A B false -> gives E s m c RLt B A false ->
     gives E s m c RLt B D false -> gives E s m c RLt D B false ->
     gives E s m c RLt A D false /\ gives E s m c RLt D A false).
Proof.
  intros W E w p s m c R A B D x y z HE C Hr Hm Hp HR Hx Hy Hz (H1 & H2 & H3).
  pose proof H1 as H1'. rewrite has_tiny_sym in H1'. pose proof H2 as H2'. rewrite has_tiny_sym in H2'.
  pose proof H3 as H3'. rewrite has_tiny_sym in H3'.
  pose proof (opt_strict_weak _ HR) as [I T N].
  pose proof (gives_iff E w p s m c R HE C Hr Hm Hp) as G.
  split; [|split].
  - intros H. apply (G RLt A A x x); auto.
  - intros Hab Hbd. apply (G RLt A D x z); auto. apply (G RLt A B x y) in Hab; auto.
    apply (G RLt B D y z) in Hbd; auto. eapply T; eauto.
  - intros Hab Hba Hbd Hdb. apply (G RLt A B x y) in Hab; auto. apply (G RLt B A y x) in Hba; auto.
    apply (G RLt B D y z) in Hbd; auto. apply (G RLt D B z y) in Hdb; auto.
    destruct (N x y z) as (N1 & N2); auto. split; [apply (G RLt A D x z); auto|apply (G RLt D A z x); auto].
Qed.

(** == is an equivalence relation. *)
Theorem C29_equivalence :
  forall W (E : env W) w p s m c R A B D x y z,
    env_ok E -> contract E w p -> reaches E w p s -> resolution_ok m c -> pure_cmp c R -> equivalence (R REq) ->
    operand_after E w p A x -> operand_after E w p B y -> operand_after E w p D z -> comparable A B D ->
    (has_tiny A A = true -> gives E s m c REq A A true) /\
    (gives E s m c REq A B true -> gives E s m c REq B A true) /\
    (gives E s m c REq A B true -> gives E s m c REq B D true -> gives E s m c REq A D true).
Proof.
  intros W E w p s m c R A B D x y z HE C Hr Hm Hp HR Hx Hy Hz (H1 & H2 & H3).
  pose proof H1 as H1'. rewrite has_tiny_sym in H1'.
  pose proof (opt_equivalence _ HR) as [I S0 T].
  pose proof (gives_iff E w p s m c R HE C Hr Hm Hp) as G.
  split; [|split].
  - intros H. apply (G REq A A x x); auto.
  - intros H. apply (G REq B A y x); auto. apply (G REq A B x y) in H; auto.
  - intros Hab Hbd. apply (G REq A D x z); auto. apply (G REq A B x y) in Hab; auto.
    apply (G REq B D y z) in Hbd; auto. eapply T; eauto.
Qed.

(** The operators are consistent with each other; for totally ordered payloads
    exactly one of <, ==, > holds; the empty optional comes first. *)
Theorem C29_consistent_total :
  forall W (E : env W) w p s m c R A B x y,
    env_ok E -> contract E w p -> reaches E w p s -> resolution_ok m c -> pure_cmp c R ->
    operand_after E w p A x -> operand_after E w p B y -> has_tiny A B = true ->
    (consistent R -> forall b,
       (gives E s m c RNe A B b <-> gives E s m c REq A B (negb b)) /\
       (gives E s m c RGt A B b <-> gives E s m c RLt B A b) /\
       (gives E s m c RLe A B b <-> gives E s m c RLt B A (negb b)) /\
       (gives E s m c RGe A B b <-> gives E s m c RLt A B (negb b))) /\
    (trichotomous R ->
       (gives E s m c RLt A B true /\ gives E s m c REq A B false /\ gives E s m c RLt B A false) \/
       (gives E s m c RLt A B false /\ gives E s m c REq A B true /\ gives E s m c RLt B A false) \/
       (gives E s m c RLt A B false /\ gives E s m c REq A B false /\ gives E s m c RLt B A true)) /\
    (x = None -> gives E s m c RLe A B true /\ (y <> None -> gives E s m c RLt A B true)).
Proof.
  intros W E w p s m c R A B x y HE C Hr Hm Hp Hx Hy Ht.
  assert (Ht' : has_tiny B A = true) by (rewrite has_tiny_sym; exact Ht).
  pose proof (gives_iff E w p s m c R HE C Hr Hm Hp) as G.
  split; [|split].
  - intros HR b. apply opt_consistent in HR as [N1 N2 N3 N4].
    rewrite (G RNe A B x y), (G REq A B x y), (G RGt A B x y), (G RLt B A y x), (G RLe A B x y),
            (G RLt B A y x), (G RGe A B x y), (G RLt A B x y) by assumption.
    rewrite N1, N2, N3, N4. destruct (opt_rel R REq x y), (opt_rel R RLt y x), (opt_rel R RLt x y), b;
      repeat split; intros; congruence.
  - intros HR. apply opt_trichotomous in HR.
    rewrite !(G RLt A B x y), !(G REq A B x y), !(G RLt B A y x) by assumption. apply HR.
  - intros ->. rewrite (G RLe A B None y), (G RLt A B None y) by assumption. destruct y; cbn; split; congruence.
Qed.

(** ** C30: three-way comparison *)

(** [x Op 0] for the result of <=>: the meaning of partial_ordering. *)
Definition test (r : relop) (o : ordering) : bool :=
  match o with
  | OLess => match r with RLt | RLe | RNe => true | _ => false end
  | OEquiv => match r with REq | RLe | RGe => true | _ => false end
  | OGreater => match r with RGt | RGe | RNe => true | _ => false end
  | OUnordered => match r with RNe => true | _ => false end
  end.

(** The payload's <=> is pure, agrees with its relational operators, and is
    antisymmetric. *)
Record three_consistent {W} (c : cmpops W) (R : relop -> rep -> rep -> bool) (T : rep -> rep -> ordering) : Prop := {
  tc_rel : pure_cmp c R;
  tc_three : forall a b w, c_three c a b w = (ROk (T a b), w);
  tc_agree : forall r a b, R r a b = test r (T a b);
  tc_anti : forall a b, T b a = reverse (T a b)
}.

Lemma test_reverse r o :
  test r (reverse o) = test (match r with RLt => RGt | RGt => RLt | RLe => RGe | RGe => RLe | q => q end) o.
Proof. destruct r, o; reflexivity. Qed.

Definition opt_three (T : rep -> rep -> ordering) (x y : option rep) : ordering :=
  match x, y with
  | Some a, Some b => T a b
  | Some _, None => OGreater
  | None, Some _ => OLess
  | None, None => OEquiv
  end.

Lemma opt_three_anti T x y :
  (forall a b, T b a = reverse (T a b)) -> reverse (opt_three T x y) = opt_three T y x.
Proof. intros H. destruct x, y; cbn; auto. Qed.

(** Then every way to resolve the expressions is fine. *)
Lemma consistent_resolution {W} (m : resolution) (c : cmpops W) R T :
  three_consistent c R T ->
  (forall r L R, has_tiny L R = true -> route_defined (m r L R) r L R = true) -> resolution_ok m c.
Proof.
  intros [P1 P2 P3 P4] Hd r L R0 Ht. split; [apply Hd, Ht|]. right. intros a b w.
  destruct (m r L R0) as [|rev]; [reflexivity|]. cbn. rewrite P1, P2.
  destruct r, rev; rewrite ?P1, ?P3; try rewrite (P4 a b); destruct (T a b); reflexivity.
Qed.

Theorem C30_three_way :
  forall W (E : env W) w p s g c R T A B x y,
    env_ok E -> contract E w p -> reaches E w p s -> three_consistent c R T ->
    operand_after E w p A x -> operand_after E w p B y -> has_tiny A B = true ->
    exists o, step E (OThreeWay g c A B) s = (Ok (ObOrd o), s) /\
      forall (m : resolution) r,
        (forall q L M, has_tiny L M = true -> route_defined (m q L M) q L M = true) ->
        gives E s m c r A B (test r o).
Proof.
  intros W E w p s g c R T A B x y HE C Hr [P1 P2 P3 P4] Hx Hy Ht.
  destruct (reaches_rel E HE _ _ _ C Hr) as (xs & t & Hs & R0).
  pose proof (step_from E HE _ _ _ (OThreeWay g c A B) _ _ C Hr I Hs) as A0.
  pose proof (step_read_only E (OThreeWay g c A B) s eq_refl eq_refl) as RO.
  destruct (step E (OThreeWay g c A B) s) as [res s']. cbn [snd] in RO.
  assert (K : forall x y (u : sstate W), s_relate3 c x y u = (SOk (opt_three T x y), u)).
  { intros a b u. destruct a as [a|], b as [b|]; cbn; try reflexivity.
    unfold sbind, suser. rewrite P2. destruct u. reflexivity. }
  assert (K2 : sstep (e_tid E) (ops E) (storable E) (is_value E) (OThreeWay g c A B) t
               = (SOk (ObOrd (opt_three T x y)), t)).
  { pose proof (s_operand_at E _ _ _ _ _ _ Hx Hs) as Ox. pose proof (s_operand_at E _ _ _ _ _ _ Hy Hs) as Oy.
    pose proof (fun u v => opt_three_anti T u v P4) as Rv.
    destruct A as [i|o| |v], B as [j|o'| |v']; try discriminate; cbn [sstep s_three];
      try (destruct g); unfold sbind; rewrite Ox, Oy, K; unfold sret; rewrite ?Rv; reflexivity. }
  rewrite K2 in A0. destruct A0 as (s2 & A0 & R1). injection A0 as -> ->.
  assert (s2 = s) as ->.
  { apply MkState_eta; [exact (proj1 RO)|exact (proj2 RO)|].
    rewrite (rel_world E _ _ R0), (rel_world E _ _ R1). reflexivity. }
  exists (opt_three T x y). split; [reflexivity|]. intros m r Hd.
  pose proof (consistent_resolution m c R T (Build_three_consistent W c R T P1 P2 P3 P4) Hd) as Hm.
  apply (gives_iff E w p s m c R HE C Hr Hm P1 r A B x y); auto.
  unfold opt_rel, opt_three. destruct x as [a|], y as [b|]; [apply P3| | |]; destruct r; reflexivity.
Qed.

(** ** C31: hash *)

(** One constant for all empty optionals of all types; otherwise the payload's
    hash, called once. *)
Theorem C31_hash :
  exists K, forall W (E : env W) w p s h i o res s',
    env_ok E -> contract E w p -> reaches E w p s -> opt_after E w p i o ->
    step E (OHash h i) s = (res, s') ->
    mem s' = mem s /\
    match o with
    | Some v => let (z, w') := h v (world s) in
                res = match z with ROk n => Ok (ObHash n) | RThrow e => Throw e end /\ world s' = w'
    | None => res = Ok (ObHash K) /\ world s' = world s
    end.
Proof.
  exists 0%N. intros W E w p s h i o res s' HE C Hr Ho Hst.
  destruct (reaches_rel E HE _ _ _ C Hr) as (xs & t & Hs & R0).
  pose proof (step_from E HE _ _ _ (OHash h i) _ _ C Hr I Hs) as A0. rewrite Hst in A0.
  pose proof (step_read_only E (OHash h i) s eq_refl eq_refl) as RO. rewrite Hst in RO.
  split; [exact (proj1 RO)|]. cbn [sstep] in A0. unfold s_hash, sbind, contents in A0.
  rewrite (opt_after_at E _ _ _ _ _ _ Ho Hs) in A0. rewrite (rel_world E _ _ R0).
  destruct o as [v|]; cbn in A0.
  - unfold suser in A0. destruct (h v (sworld t)) as [[n|e] w']; cbn in A0;
      destruct A0 as (s2 & A0 & R1); injection A0 as -> ->; split; try reflexivity; exact (rel_world E _ _ R1).
  - destruct A0 as (s2 & A0 & R1). injection A0 as -> ->. split; [reflexivity|exact (rel_world E _ _ R1)].
Qed.

(** Optionals that compare equal have equal hashes if payloads do, also if their
    sentinels and storage strategies differ. *)
Theorem C31_equal_implies_equal_hash :
  forall W (E : env W) w p s m c R h H i j x y,
    env_ok E -> contract E w p -> reaches E w p s -> resolution_ok m c -> pure_cmp c R ->
    (forall v u, h v u = (ROk (H v), u)) -> (forall a b, R REq a b = true -> H a = H b) ->
    opt_after E w p i x -> opt_after E w p j y ->
    gives E s m c REq (OpTiny i) (OpTiny j) true ->
    exists n, step E (OHash h i) s = (Ok (ObHash n), s) /\ step E (OHash h j) s = (Ok (ObHash n), s).
Proof.
  intros W E w p s m c R h H i j x y HE C Hr Hm Hp Hh HR Hx Hy He.
  apply (gives_iff E w p s m c R HE C Hr Hm Hp REq (OpTiny i) (OpTiny j) x y) in He; auto.
  destruct C31_hash as (K & HK).
  assert (G : forall k z, opt_after E w p k z ->
            step E (OHash h k) s = (Ok (ObHash (match z with Some v => H v | None => K end)), s)).
  { intros k z Hz. destruct (step E (OHash h k) s) as [res s'] eqn:Hs.
    pose proof (HK W E w p s h k z res s' HE C Hr Hz Hs) as (M & Q).
    pose proof (step_read_only E (OHash h k) s eq_refl eq_refl) as (_ & RO). rewrite Hs in RO.
    assert (A : res = Ok (ObHash (match z with Some v => H v | None => K end)) /\ world s' = world s).
    { destruct z as [v|]; [rewrite Hh in Q|]; exact Q. }
    destruct A as (-> & A). f_equal. apply MkState_eta; assumption. }
  rewrite (G i x Hx), (G j y Hy). destruct x as [a|], y as [b|]; cbn in He; try discriminate.
  - rewrite (HR _ _ He). eauto.
  - eauto.
Qed.

(** ** Examples: optionals with different storage strategies, a payload order that
    looks at the first member only (a strict weak order which is not total on
    representations), and an unordered value (like NaN). *)

Definition key (v : rep) : Z := match v with Atom z :: _ => z | _ => 0%Z end.
Definition key_three (a b : rep) : ordering :=
  if Z.eqb (key a) 77 || Z.eqb (key b) 77 then OUnordered
  else match Z.compare (key a) (key b) with Lt => OLess | Eq => OEquiv | Gt => OGreater end.
Definition key_rel (r : relop) (a b : rep) : bool := test r (key_three a b).
Definition key_cmp : cmpops sworld_t :=
  MkCmp _ (fun r a b w => (ROk (key_rel r a b), w)) (fun a b w => (ROk (key_three a b), w)).

Lemma key_three_consistent : three_consistent key_cmp key_rel key_three.
Proof.
  split; [intros r a b w; reflexivity|reflexivity|reflexivity|]. intros a b. unfold key_three.
  rewrite (orb_comm (Z.eqb (key b) 77)), (Z.compare_antisym (key a) (key b)).
  destruct (Z.eqb (key a) 77 || Z.eqb (key b) 77); [reflexivity|].
  destruct (Z.compare (key a) (key b)); reflexivity.
Qed.

(** The same without the unordered value. *)
Definition zkey_rel (r : relop) (a b : rep) : bool :=
  test r (match Z.compare (key a) (key b) with Lt => OLess | Eq => OEquiv | Gt => OGreater end).
Definition zkey_cmp : cmpops sworld_t :=
  MkCmp _ (fun r a b w => (ROk (zkey_rel r a b), w)) (fun a b w => (ROk OEquiv, w)).
Lemma zkey_laws :
  pure_cmp zkey_cmp zkey_rel /\ strict_weak (zkey_rel RLt) /\ equivalence (zkey_rel REq) /\
  consistent zkey_rel /\ trichotomous zkey_rel.
Proof.
  split; [|split; [|split; [|split]]].
  - intros r a b w. reflexivity.
  - unfold zkey_rel. split.
    + intros a. rewrite Z.compare_refl. reflexivity.
    + intros a b c. destruct (Z.compare_spec (key a) (key b)), (Z.compare_spec (key b) (key c)),
        (Z.compare_spec (key a) (key c)); cbn; try discriminate; try reflexivity; lia.
    + intros a b c. destruct (Z.compare_spec (key a) (key b)), (Z.compare_spec (key b) (key a)),
        (Z.compare_spec (key b) (key c)), (Z.compare_spec (key c) (key b)),
        (Z.compare_spec (key a) (key c)), (Z.compare_spec (key c) (key a)); cbn; try discriminate; auto; lia.
  - unfold zkey_rel. split.
    + intros a. rewrite Z.compare_refl. reflexivity.
    + intros a b. rewrite (Z.compare_antisym (key a) (key b)). destruct (Z.compare _ _); cbn; congruence.
    + intros a b c. destruct (Z.compare_spec (key a) (key b)), (Z.compare_spec (key b) (key c)),
        (Z.compare_spec (key a) (key c)); cbn; try discriminate; try reflexivity; lia.
  - unfold zkey_rel. split; intros a b; try rewrite (Z.compare_antisym (key a) (key b));
      destruct (Z.compare (key a) (key b)); reflexivity.
  - unfold zkey_rel. intros a b. rewrite (Z.compare_antisym (key a) (key b)).
    destruct (Z.compare (key a) (key b)); cbn; auto.
Qed.

(** Since C++20: [<], ... rewritten to [<=>], and [!=] with nullopt to [==]. *)
Definition cxx20 : resolution := fun r L R =>
  match r, L, R with
  | REq, OpNull, _ => RtRewritten true
  | REq, _, _ => RtDirect
  | RNe, OpNull, _ => RtRewritten true
  | RNe, _, OpNull => RtRewritten false
  | RNe, _, _ => RtDirect
  | _, OpTiny _, _ => RtRewritten false
  | _, _, _ => RtRewritten true
  end.
Lemma cxx20_defined r L R : has_tiny L R = true -> route_defined (cxx20 r L R) r L R = true.
Proof. destruct r, L, R; intros H; try reflexivity; discriminate. Qed.
Lemma cxx17_ok {W} (c : cmpops W) : resolution_ok (fun _ _ _ => RtDirect) c.
Proof. intros r L R _. apply cmp_ok_direct. Qed.

Definition cmp_history : list (op sworld_t) :=
  [OInPlace 0 (mkP 3 7); OInPlace 10 (mkP 3 8); ODefault 11; OInPlace 30 (mkP 77 1)].

Example C28_example dbg :
  exists s,
    contract (sample dbg) quiet cmp_history /\ reaches (sample dbg) quiet cmp_history s /\
    operand_after (sample dbg) quiet cmp_history (OpTiny 0) (Some [Atom 3; Atom 7]) /\
    operand_after (sample dbg) quiet cmp_history (OpTiny 10) (Some [Atom 3; Atom 8]) /\
    operand_after (sample dbg) quiet cmp_history (OpTiny 11) None /\
    operand_after (sample dbg) quiet cmp_history (OpTiny 30) (Some [Atom 77; Atom 1]) /\
    comparable (OpTiny 0) (OpTiny 10) (OpTiny 11) /\
    comparable (OpTiny 0) (OpStd None) (OpTiny 10) /\
    resolution_ok cxx20 key_cmp /\ resolution_ok (fun _ _ _ => RtDirect) zkey_cmp /\
    gives (sample dbg) s cxx20 key_cmp REq (OpTiny 0) (OpTiny 10) true /\
    gives (sample dbg) s cxx20 key_cmp RLt (OpTiny 11) (OpTiny 10) true /\
    gives (sample dbg) s cxx20 key_cmp RGe (OpVal [Atom 2]) (OpTiny 11) true /\
    gives (sample dbg) s cxx20 key_cmp RLe (OpTiny 30) (OpTiny 30) false.
Proof.
  eexists. split; [ex_contract|]. split; [ex_reaches|].
  do 4 (split; [ex_opt|]). split; [repeat split|]. split; [repeat split|].
  split; [exact (consistent_resolution _ _ _ _ key_three_consistent cxx20_defined)|].
  split; [apply cxx17_ok|].
  repeat (split; [run_it|]). run_it.
Qed.

(** The hypotheses of C29, C30 (with an unordered value) and C31. *)
Example C31_example dbg :
  exists s,
    contract (sample dbg) quiet cmp_history /\ reaches (sample dbg) quiet cmp_history s /\
    pure_cmp key_cmp key_rel /\
    (forall a b, key_rel REq a b = true -> Z.to_N (key a) = Z.to_N (key b)) /\
    gives (sample dbg) s cxx20 key_cmp REq (OpTiny 0) (OpTiny 10) true /\
    step (sample dbg) (OThreeWay false key_cmp (OpStd None) (OpTiny 10)) s = (Ok (ObOrd OLess), s) /\
    step (sample dbg) (OThreeWay false key_cmp (OpTiny 30) (OpTiny 10)) s = (Ok (ObOrd OUnordered), s) /\
    step (sample dbg) (OHash (fun v w => (ROk (Z.to_N (key v)), w)) 0) s = (Ok (ObHash 3), s) /\
    step (sample dbg) (OHash (fun v w => (ROk (Z.to_N (key v)), w)) 10) s = (Ok (ObHash 3), s).
Proof.
  eexists. split; [ex_contract|]. split; [ex_reaches|]. split; [intros r a b w; reflexivity|]. split.
  { intros a b. unfold key_rel, key_three. destruct (Z.eqb (key a) 77 || Z.eqb (key b) 77); [discriminate|].
    destruct (Z.compare_spec (key a) (key b)); cbn; try discriminate. intros _. congruence. }
  repeat (split; [run_it|]). run_it.
Qed.
