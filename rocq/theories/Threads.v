(** * Threads: calls of several threads (C56)

    [res.on.data.races], [intro.races]: calls of different threads conflict if they
    use the same object and at least one of them may modify it.  The library has no
    hidden shared state and its const functions do not write, so threads without
    conflicting calls do not influence each other.

    Simplification: a call is one step; that finer interleavings cannot be
    distinguished follows from the fact, also proved here, that a call neither reads
    nor writes anything but its operands.  Each thread has its own world: user code
    that shares state between threads is the user's responsibility. *)

From Coq Require Import List NArith ZArith Bool Arith Lia.
From Verif Require Import Cells CellsFacts Machine Optional Program Spec Laws Refine Contract
  Effects Frame Bits Manip Sample ExampleTac Histories Locality.
Import ListNotations.

Local Arguments put : simpl never.
Local Arguments sub : simpl never.

(** ** What a call depends on *)

(** The objects that a call names, const or not. *)
Definition operand_uses (o : operand) : list loc :=
  match o with OpTiny i => [i] | _ => [] end.
Definition uses {W} (o : op W) : list loc :=
  match o with
  | ODefault i | ONullopt i | ODtor i | OAssignNull i | OReset i | OVarNew i _ | OVarDrop i
  | OHasValue i | OBool i | OAccess _ i _ _ | OHash _ i => [i]
  | OInPlace i n | OEmplace i n | OValueOrCopy i n | OValueOrMove i n => i :: ini_uses n
  | OAssign i a => i :: ini_uses (a_ini a)
  | OCopyCtor i j | OCopyAssign i j | OMoveCtor i j | OMoveAssign i j | OSwap i j => [i; j]
  | OStdSwap i j k => [i; j; k]
  | OAndThen k i _ _ | OTransform k i _ _ _ | OOrElse k i _ _ => [k; i]
  | OCompare _ _ _ L R | OThreeWay _ _ L R => operand_uses L ++ operand_uses R
  end.

Section Depends.
  Context {W : Type}.
  Variable E : env W.
  Variable F : loc -> Prop.

  (** The states agree on everything that belongs to [F]. *)
  Definition agree (s1 s2 : state W) : Prop :=
    world s1 = world s2 /\ trace s1 = trace s2 /\ forall j, F j -> mem s1 j = mem s2 j.
  (** [m] depends only on [F]. *)
  Definition within {A} (m : M W A) : Prop :=
    forall s1 s2, agree s1 s2 -> fst (m s1) = fst (m s2) /\ agree (snd (m s1)) (snd (m s2)).

  Lemma d_ret {A} (a : A) : within (ret a).
  Proof. intros s1 s2 H. split; [reflexivity|exact H]. Qed.
  Lemma d_throw {A} e : @within A (throw e).
  Proof. intros s1 s2 H. split; [reflexivity|exact H]. Qed.
  Lemma d_dead {A} f : @within A (dead f).
  Proof. intros s1 s2 H. split; [reflexivity|exact H]. Qed.
  Lemma d_bind {A B} (m : M W A) (k : A -> M W B) :
    within m -> (forall a, within (k a)) -> within (bind m k).
  Proof.
    intros Hm Hk s1 s2 H. unfold bind. destruct (Hm s1 s2 H) as [Hf Ha].
    destruct (m s1) as [r1 u1], (m s2) as [r2 u2]. cbn in Hf, Ha. subst r2.
    destruct r1; [apply Hk, Ha|split; [reflexivity|exact Ha]..].
  Qed.
  Lemma d_noexcept {A} b (m : M W A) : within m -> within (noexcept_if b m).
  Proof.
    intros Hm s1 s2 H. unfold noexcept_if. destruct (Hm s1 s2 H) as [Hf Ha].
    destruct (m s1) as [r1 u1], (m s2) as [r2 u2]. cbn in Hf, Ha. subst r2.
    destruct r1; [split; auto|destruct b; split; auto|split; auto].
  Qed.
  Lemma d_on_throw {A} (m : M W A) c : within m -> within c -> within (on_throw m c).
  Proof.
    intros Hm Hc s1 s2 H. unfold on_throw. destruct (Hm s1 s2 H) as [Hf Ha].
    destruct (m s1) as [r1 u1], (m s2) as [r2 u2]. cbn in Hf, Ha. subst r2.
    destruct r1; [split; auto| |split; auto].
    destruct (Hc u1 u2 Ha) as [Hf' Ha'].
    destruct (c u1) as [q1 x1], (c u2) as [q2 x2]. cbn in Hf', Ha'. subst q2. destruct q1; split; auto.
  Qed.
  Lemma d_assert c : within c -> within (assert_ E c).
  Proof.
    intros Hc. unfold assert_. destruct (e_dbg E); [|apply d_ret].
    apply d_bind; [exact Hc|]. intros []; [apply d_ret|apply d_dead].
  Qed.
  Lemma d_call {A} (f : W -> A * W) : within (call f).
  Proof.
    intros s1 s2 (Hw & Ht & Hm). unfold call. rewrite Hw. destruct (f (world s2)) as [a w'].
    split; [reflexivity|]. split; [reflexivity|]. split; [exact Ht|exact Hm].
  Qed.
  Lemma d_lift {A} (r : res A) : within (lift_res r).
  Proof. destruct r; [apply d_ret|apply d_throw]. Qed.
  Lemma d_get i : F i -> within (get_region i).
  Proof.
    intros Hi s1 s2 H. unfold get_region. rewrite (proj2 (proj2 H) i Hi).
    destruct (mem s2 i); split; auto.
  Qed.
  Lemma d_set i r : within (set_region i r).
  Proof.
    intros s1 s2 (Hw & Ht & Hm). split; [reflexivity|]. split; [exact Hw|]. split; [exact Ht|].
    intros j Hj. cbn. unfold upd. destruct (Nat.eqb i j); auto.
  Qed.
  Lemma d_log e : within (log e).
  Proof.
    intros s1 s2 (Hw & Ht & Hm). split; [reflexivity|]. split; [exact Hw|]. split; [|exact Hm].
    cbn. rewrite Ht. reflexivity.
  Qed.
  Lemma d_if_alive {A} i (m : M W A) (f : fault) :
    F i -> within m ->
    within (fun s => match mem s i with Some _ => (Dead f, s) | None => m s end).
  Proof.
    intros Hi Hm s1 s2 H. rewrite (proj2 (proj2 H) i Hi). destruct (mem s2 i); [split; auto|apply Hm, H].
  Qed.
  Lemma d_same {A} i j (m : M W A) : within m -> within (same_type E i j m).
  Proof. intros H. unfold same_type. destruct (Nat.eqb _ _); [exact H|apply d_dead]. Qed.

  Ltac dep1 :=
    first
      [ assumption | apply d_ret | apply d_throw | apply d_dead
      | apply d_noexcept | apply d_on_throw | apply d_assert | apply d_call | apply d_lift
      | apply d_get; assumption | apply d_set | apply d_log | apply d_same
      | match goal with |- within (bind _ _) => apply d_bind; [|intros ?] end
      | match goal with |- within (if ?b then _ else _) => destruct b end
      | match goal with |- within (match ?b with Some _ => _ | None => _ end) => destruct b end
      | match goal with |- within (match ?b with ROk _ => _ | RThrow _ => _ end) => destruct b end ].
  Ltac dep := repeat dep1.

  Lemma d_load i : F i -> within (load_payload E i).
  Proof. intros. unfold load_payload. dep. Qed.
  Lemma d_store i v : F i -> within (store_payload E i v).
  Proof. intros. unfold store_payload. dep. Qed.
  Lemma d_alloc i : F i -> within (alloc E i).
  Proof. intros. apply d_if_alive; [assumption|apply d_set]. Qed.
  Lemma d_dealloc i : F i -> within (dealloc E i).
  Proof. intros. unfold dealloc. dep. Qed.
  Lemma d_has i : F i -> within (has_value E i).
  Proof. intros. unfold has_value, fm_is_empty. dep. Qed.
  Lemma d_not m : within m -> within (not_ m).
  Proof. intros. unfold not_. dep. Qed.
  Lemma d_same_has i j : F i -> F j -> within (same_has E i j).
  Proof. intros. pose proof (d_has i H). pose proof (d_has j H0). unfold same_has. dep. Qed.
  Lemma d_init i : F i -> within (fm_init E i).
  Proof. intros. unfold fm_init. dep. Qed.
  Lemma d_inval i : F i -> within (fm_invalidate E i).
  Proof. intros. unfold fm_invalidate. dep. Qed.
  Lemma d_destroy i : F i -> within (destroy_payload E i).
  Proof. intros. unfold destroy_payload. dep. Qed.

  Ltac dep2 := repeat first
    [ dep1 | apply d_load; assumption | apply d_store; assumption | apply d_alloc; assumption
    | apply d_dealloc; assumption | apply d_has; assumption | apply d_not | apply d_same_has; assumption
    | apply d_init; assumption | apply d_inval; assumption | apply d_destroy; assumption ].

  Definition ini_within (n : ini W) : Prop := forall j, In j (ini_uses n) -> F j.

  Lemma d_load_more l : (forall j, In j (map fst l) -> F j) -> within (load_more E l).
  Proof.
    induction l as [|[j c] l IH]; intros H; cbn [load_more].
    - dep2.
    - assert (F j) by (apply H; left; reflexivity).
      assert (within (load_more E l)) by (apply IH; intros k Hk; apply H; right; exact Hk). dep2.
  Qed.
  Lemma d_store_more l : (forall j, In j (map fst l) -> F j) -> forall vs, within (store_more E l vs).
  Proof.
    induction l as [|[j c] l IH]; intros H [|v vs]; cbn [store_more]; try (dep2; fail).
    assert (F j) by (apply H; left; reflexivity).
    assert (within (store_more E l vs)) by (apply IH; intros k Hk; apply H; right; exact Hk). dep2.
  Qed.
  Lemma d_ini n : ini_within n -> within (run_ini E n).
  Proof.
    unfold ini_within, ini_uses, run_ini. intros H.
    assert (M : forall j, In j (map fst (i_more n)) -> F j) by (intros j Hj; apply H, in_or_app; auto).
    pose proof (d_load_more _ M). pose proof (d_store_more _ M).
    destruct (i_src n) as [j|].
    - assert (F j) by (apply H; left; reflexivity). dep2. auto.
    - dep2. auto.
  Qed.
  Lemma d_construct i n : F i -> ini_within n -> within (construct_payload E i n).
  Proof. intros Hi Hn. pose proof (d_ini n Hn). unfold construct_payload, placement_new. dep2. Qed.
  Lemma d_from_function i n : F i -> ini_within n -> within (construct_payload_from_function E i n).
  Proof. intros Hi Hn. pose proof (d_ini n Hn). unfold construct_payload_from_function, construct_payload, placement_new. dep2. Qed.
  Lemma d_copy_ini j : F j -> ini_within (copy_ini E j).
  Proof. intros H k [<-|[]]. exact H. Qed.
  Lemma d_move_ini j : F j -> ini_within (move_ini E j).
  Proof. intros H k [<-|[]]. exact H. Qed.
  Lemma d_default i : F i -> within (storage_default E i).
  Proof. intros. unfold storage_default. dep2. Qed.
  Lemma d_storage_dtor i : F i -> within (storage_dtor E i).
  Proof. intros. unfold storage_dtor. dep2. Qed.
  Lemma d_reset i : F i -> within (reset E i).
  Proof. intros. unfold reset. dep2. Qed.
  Lemma d_assign_value i a : F i -> ini_within (a_ini a) -> within (assign_value E i a).
  Proof.
    intros Hi H. pose proof (d_construct i _ Hi H). unfold assign_value, assign_payload.
    unfold ini_within, ini_uses in H. destruct (i_src (a_ini a)) as [j|].
    - assert (F j) by (apply H; left; reflexivity). dep2.
    - dep2.
  Qed.
  Lemma d_ctor_default i : F i -> within (ctor_default E i).
  Proof. intros. pose proof (d_default i H). unfold ctor_default. dep2. Qed.
  Lemma d_ctor_in_place i n : F i -> ini_within n -> within (ctor_in_place E i n).
  Proof. intros Hi Hn. pose proof (d_construct i n Hi Hn). unfold ctor_in_place. dep2. Qed.
  Lemma d_ctor_from_function i n : F i -> ini_within n -> within (ctor_from_function E i n).
  Proof. intros Hi Hn. pose proof (d_from_function i n Hi Hn). unfold ctor_from_function. dep2. Qed.
  Lemma d_ctor_copy i j : F i -> F j -> within (ctor_copy E i j).
  Proof.
    intros Hi Hj. pose proof (d_default i Hi). pose proof (d_storage_dtor i Hi).
    pose proof (d_construct i _ Hi (d_copy_ini j Hj)). unfold ctor_copy. dep2.
  Qed.
  Lemma d_ctor_move i j : F i -> F j -> within (ctor_move E i j).
  Proof.
    intros Hi Hj. pose proof (d_default i Hi). pose proof (d_storage_dtor i Hi).
    pose proof (d_construct i _ Hi (d_move_ini j Hj)). unfold ctor_move. dep2.
  Qed.
  Lemma d_assign_move i j : F i -> F j -> within (assign_move E i j).
  Proof.
    intros Hi Hj. pose proof (d_assign_value i (move_arg E j) Hi (d_move_ini j Hj)).
    pose proof (d_reset i Hi). unfold assign_move. dep2.
  Qed.
  Lemma d_assign_copy i j : F i -> F j -> within (assign_copy E i j).
  Proof.
    intros Hi Hj. pose proof (d_assign_value i (copy_arg E j) Hi (d_copy_ini j Hj)).
    pose proof (d_reset i Hi). unfold assign_copy. dep2.
  Qed.
  Lemma d_build k o : F k -> within (build_result E k o).
  Proof.
    intros Hk. destruct o; [|apply d_ctor_default, Hk].
    apply d_ctor_in_place; auto. intros j [].
  Qed.

  Definition od_within (o : operand) : Prop := forall i, In i (operand_uses o) -> F i.
  Lemma d_tiny i : F i -> od_within (OpTiny i).
  Proof. intros Hi k [<-|[]]. exact Hi. Qed.
  Lemma d_od_has o : od_within o -> within (od_has E o).
  Proof. intros H. destruct o; cbn; try (assert (F i) by (apply H; left; reflexivity)); dep2. Qed.
  Lemma d_od_get o : od_within o -> within (od_get E o).
  Proof.
    intros H. destruct o as [i|[v|]| |v]; cbn; unfold op_deref;
      try (assert (F i) by (apply H; left; reflexivity)); dep2.
  Qed.
  Lemma d_rel c r a b : within (rel_call c r a b).
  Proof. unfold rel_call. dep2. Qed.
  Lemma d_three c a b : within (three_call c a b).
  Proof. unfold three_call. dep2. Qed.

  Ltac dep3 := repeat first
    [ dep1 | apply d_od_has; assumption | apply d_od_get; assumption | apply d_rel | apply d_three
    | apply d_has; assumption | apply d_load; assumption | apply d_not ].

  Lemma d_deref_cmp c r L R : od_within L -> od_within R -> within (deref_cmp E c r L R).
  Proof. intros. unfold deref_cmp. dep3. Qed.
  Lemma d_declared c r L R : od_within L -> od_within R -> within (declared E c r L R).
  Proof.
    intros HL HR.
    assert (D : forall A B, od_within A -> od_within B -> within (deref_cmp E c r A B))
      by (intros; apply d_deref_cmp; assumption).
    assert (DL : within (deref_cmp E c r L R)) by auto.
    assert (C : within (cmp_opt_opt E c r L R)) by (destruct r; unfold cmp_opt_opt; dep3).
    assert (N1 : forall q i, F i -> within (cmp_opt_null E q i)) by (intros []; cbn; intros; dep3).
    assert (N2 : forall q i, F i -> within (cmp_null_opt E q i)) by (intros []; cbn; intros; dep3).
    pose proof d_tiny as O.
    assert (V : forall v, od_within (OpVal v)) by (intros v k []).
    assert (V1 : forall i v, F i -> within (cmp_opt_val E c r i v)).
    { intros i v Hi. pose proof (O i Hi). unfold cmp_opt_val. dep3. }
    assert (V2 : forall i v, F i -> within (cmp_val_opt E c r v i)).
    { intros i v Hi. pose proof (O i Hi). unfold cmp_val_opt. dep3. }
    destruct L, R; cbn [declared]; try apply d_dead; auto;
      try (assert (F i) by (apply HL; left; reflexivity));
      try (assert (F i) by (apply HR; left; reflexivity)); auto.
  Qed.
  Lemma d_three_opt_opt c A B : od_within A -> od_within B -> within (three_opt_opt E c A B).
  Proof. intros. unfold three_opt_opt. dep3. Qed.
  Lemma d_three_null i : F i -> within (three_opt_null E i).
  Proof. intros. unfold three_opt_null. dep3. Qed.
  Lemma d_three_val c i v : F i -> within (three_opt_val E c i v).
  Proof. intros Hi. pose proof (d_tiny i Hi). unfold three_opt_val. dep3. Qed.
  Lemma d_declared3 c L R : od_within L -> od_within R -> within (declared3 E c L R).
  Proof.
    intros HL HR.
    destruct L, R; cbn [declared3]; try apply d_dead;
      try (apply d_three_opt_opt; assumption);
      try (apply d_three_null; apply HL; left; reflexivity);
      try (apply d_three_val; apply HL; left; reflexivity).
  Qed.
  Lemma d_compare rt c r L R : od_within L -> od_within R -> within (compare E rt c r L R).
  Proof.
    intros HL HR. destruct rt as [|rev]; [apply d_declared; assumption|].
    destruct rev, r; cbn [compare]; try (apply d_not); try (apply d_declared; assumption);
      (apply d_bind; [apply d_declared3; assumption|intros; apply d_ret]).
  Qed.
  Lemma d_three_way g c L R : od_within L -> od_within R -> within (three_way E g c L R).
  Proof.
    intros HL HR.
    destruct L, R; cbn [three_way]; try apply d_dead; try destruct g;
      try (apply d_three_opt_opt; assumption);
      try (apply d_three_null; apply HL; left; reflexivity);
      try (apply d_three_val; apply HL; left; reflexivity);
      (apply d_bind; [|intros; apply d_ret]);
      try (apply d_three_opt_opt; assumption);
      try (apply d_three_null; apply HR; left; reflexivity);
      try (apply d_three_val; apply HR; left; reflexivity).
  Qed.

  (** A call depends only on the objects that it names. *)
  Lemma step_within o : (forall i, In i (uses o) -> F i) -> within (step E o).
  Proof.
    destruct o; cbn [uses step]; intros HU; unfold unit_, bool_, val_;
      (apply d_bind; [|intros; apply d_ret]);
      try (assert (F i) by (apply HU; cbn; auto));
      try (assert (F j) by (apply HU; cbn; auto));
      try (assert (F k) by (apply HU; cbn; auto));
      try (assert (ini_within n) by (intros q Hq; apply HU; right; exact Hq));
      try (assert (ini_within d) by (intros q Hq; apply HU; right; exact Hq));
      try (assert (ini_within (a_ini a)) by (intros q Hq; apply HU; right; exact Hq));
      try (assert (od_within L) by (intros q Hq; apply HU, in_or_app; auto));
      try (assert (od_within R) by (intros q Hq; apply HU, in_or_app; auto)).
    - apply d_ctor_default; assumption.
    - apply d_noexcept, d_ctor_default; assumption.
    - apply d_ctor_in_place; assumption.
    - apply d_ctor_copy; assumption.
    - apply d_ctor_move; assumption.
    - apply d_storage_dtor; assumption.
    - apply d_noexcept, d_reset; assumption.
    - apply d_assign_value; assumption.
    - apply d_assign_copy; assumption.
    - apply d_assign_move; assumption.
    - pose proof (d_reset i H). pose proof (d_construct i n H H0). unfold emplace. dep2.
    - apply d_reset; assumption.
    - pose proof (d_reset i H). pose proof (d_reset j H0).
      pose proof (d_construct i _ H (d_move_ini j H0)).
      pose proof (d_construct j _ H0 (d_move_ini i H)).
      unfold swap, swap_payloads. dep2.
    - pose proof (d_ctor_move k i H1 H). pose proof (d_storage_dtor k H1).
      pose proof (d_assign_move i j H H0). pose proof (d_assign_move j k H0 H1).
      unfold std_swap, dtor. dep2.
    - apply d_has; assumption.
    - apply d_has; assumption.
    - apply d_bind.
      + destruct k; cbn; unfold op_deref, op_arrow, value; dep2.
      + intros _. unfold use_payload. dep2.
    - pose proof (d_ini _ (d_copy_ini i H)). pose proof (d_ini _ H0). unfold value_or_copy. dep2.
    - pose proof (d_ini _ (d_move_ini i H)). pose proof (d_ini _ H0). unfold value_or_move. dep2.
    - pose proof (d_ctor_default k H0). assert (forall o, within (build_result E k o)) as HB
        by (intros; apply d_build; assumption).
      unfold and_then, op_deref. dep2; apply HB.
    - pose proof (d_ctor_default k H0). unfold transform, op_deref.
      assert (within (ctor_from_function E k (MkIni (Some i) cst f nt))) as HC.
      { apply d_ctor_from_function; auto. intros q [<-|[]]. exact H. }
      dep2.
    - assert (forall o, within (build_result E k o)) as HB by (intros; apply d_build; assumption).
      pose proof (d_ctor_copy k i H0 H). pose proof (d_ctor_move k i H0 H). unfold or_else.
      dep2; apply HB.
    - apply d_compare; assumption.
    - apply d_three_way; assumption.
    - pose proof (d_tiny i H). unfold hash. dep3.
    - unfold var_new. apply d_bind; [|intros; apply d_log].
      apply d_if_alive; [assumption|]. destruct (Nat.eqb _ _); [apply d_set|].
      exact (d_dead IllTyped).
    - unfold var_drop. dep2.
  Qed.
End Depends.

Lemma touches_uses W (o : op W) j : In j (touches o) -> In j (uses o).
Proof.
  assert (I : forall n : ini W, In j (ini_touches n) -> In j (ini_uses n)).
  { intros n. unfold ini_touches, ini_uses. rewrite !in_app_iff. intros [H|H].
    - left. destruct (i_src n); [|auto]. destruct (i_const n); [destruct H|auto].
    - right. apply in_map_iff in H as (x & <- & H). apply filter_In in H as (H & _). apply in_map, H. }
  destruct o; cbn; intuition; try destruct cst; try destruct mv; cbn in *; intuition.
Qed.

(** The outcome of a call, its effect on its operands and on the world depend only on
    its operands, in all states; nothing else in memory is read. *)
Theorem C56_call_reads_only_operands :
  forall W (E : env W) o s1 s2,
    world s1 = world s2 -> trace s1 = trace s2 -> (forall j, In j (uses o) -> mem s1 j = mem s2 j) ->
    let (r1, s1') := step E o s1 in
    let (r2, s2') := step E o s2 in
    r1 = r2 /\ world s1' = world s2' /\ trace s1' = trace s2' /\
    forall j, In j (uses o) -> mem s1' j = mem s2' j.
Proof.
  intros W E o s1 s2 Hw Ht Hm.
  destruct (step_within E (fun j => In j (uses o)) o (fun i H => H) s1 s2) as [Hr Ha].
  { repeat split; assumption. }
  destruct (step E o s1) as [r1 s1'], (step E o s2) as [r2 s2']. destruct Ha as (A & B & C).
  cbn in *. auto.
Qed.

(** ** Threads *)

(** Memory is shared; every thread has its own world and its own lifetime events. *)
Record cstate (W : Type) : Type := MkC { cmem : loc -> option region; cown : nat -> W * list event }.
Arguments MkC {W} cmem cown.
Arguments cmem {W} c _.
Arguments cown {W} c _.
(** What the thread [t] sees. *)
Definition view {W} (c : cstate W) (t : nat) : state W :=
  MkState (cmem c) (fst (cown c t)) (snd (cown c t)).
Definition leave {W} (c : cstate W) (t : nat) (s : state W) : cstate W :=
  MkC (mem s) (fun u => if Nat.eqb t u then (world s, trace s) else cown c u).

Section Run.
  Context {W : Type}.
  Variable E : env W.
  (** A schedule is a list of calls with the thread that makes the call. *)
  Fixpoint crun (p : list (nat * op W)) (c : cstate W) : (list (nat * obs) + fault) * cstate W :=
    match p with
    | [] => (inl [], c)
    | (t, o) :: p' =>
        match step E o (view c t) with
        | (Ok x, s') =>
            let (r, c'') := crun p' (leave c t s') in
            (match r with inl xs => inl ((t, x) :: xs) | inr f => inr f end, c'')
        | (Throw e, s') =>
            let (r, c'') := crun p' (leave c t s') in
            (match r with inl xs => inl ((t, ObThrow e) :: xs) | inr f => inr f end, c'')
        | (Dead f, s') => (inr f, leave c t s')
        end
    end.
End Run.

(** The part of one thread. *)
Definition of {A} (t : nat) (l : list (nat * A)) : list A :=
  map snd (filter (fun p => Nat.eqb (fst p) t) l).

(** No two threads make conflicting calls: if one of them may modify an object, the
    other one does not use it. *)
Definition race_free {W} (p : list (nat * op W)) : Prop :=
  forall t u o o' j, t <> u -> In (t, o) p -> In (u, o') p -> In j (touches o) -> ~ In j (uses o').

Lemma of_in {A} t (l : list (nat * A)) x : In x (of t l) <-> In (t, x) l.
Proof.
  unfold of. rewrite in_map_iff. split.
  - intros ([u y] & <- & H). apply filter_In in H. destruct H as [H E]. cbn in E.
    apply Nat.eqb_eq in E. subst u. exact H.
  - intros H. exists (t, x). split; [reflexivity|]. apply filter_In. cbn. rewrite Nat.eqb_refl. auto.
Qed.
Lemma of_cons {A} t u (x : A) l : of t ((u, x) :: l) = if Nat.eqb u t then x :: of t l else of t l.
Proof. unfold of. cbn. destruct (Nat.eqb u t); reflexivity. Qed.

Section Interleave.
  Context {W : Type}.
  Variable E : env W.

  (** Threads alone, from memory that agrees on what they use. *)
  Lemma alone_agree (F : loc -> Prop) p s1 s2 :
    (forall o j, In o p -> In j (uses o) -> F j) -> agree F s1 s2 ->
    fst (run E p s1) = fst (run E p s2) /\ agree F (snd (run E p s1)) (snd (run E p s2)).
  Proof.
    revert s1 s2. induction p as [|o p IH]; intros s1 s2 HF A; [split; [reflexivity|exact A]|].
    cbn [run]. destruct (step_within E F o (fun j => HF o j (or_introl eq_refl)) s1 s2 A) as [Hr A'].
    destruct (step E o s1) as [r1 u1], (step E o s2) as [r2 u2]. cbn in Hr, A'. subst r2.
    destruct r1 as [x|e|f]; [| |split; [reflexivity|exact A']];
      destruct (IH u1 u2 (fun o' j H => HF o' j (or_intror H)) A') as [Hi Ai];
      destruct (run E p u1) as [q1 v1], (run E p u2) as [q2 v2]; cbn in Hi, Ai; subst q2;
      split; auto.
  Qed.

  Lemma interleave p : forall c,
    race_free p ->
    (forall t, exists xs s, run E (of t p) (view c t) = (inl xs, s)) ->
    exists l c', crun E p c = (inl l, c') /\
      forall t, let (r, s) := run E (of t p) (view c t) in
        r = inl (of t l) /\ world s = world (view c' t) /\ trace s = trace (view c' t) /\
        forall o j, In (t, o) p -> In j (uses o) -> mem s j = cmem c' j.
  Proof.
    induction p as [|[t o] p IH]; intros c RF Hall.
    - exists [], c. split; [reflexivity|]. intros t. cbn. split; [reflexivity|]. split; [reflexivity|]. split; [reflexivity|]. intros o j [].
    - assert (RF' : race_free p) by (intros a b x y j N H1 H2; apply (RF a b x y j N); right; assumption).
      (* the first call, as thread t sees it *)
      destruct (Hall t) as (xs & s & Ht). rewrite of_cons, Nat.eqb_refl in Ht. cbn [run] in Ht.
      destruct (step E o (view c t)) as [r s1] eqn:Hs.
      assert (Hloc : forall j, ~ In j (touches o) -> mem s1 j = cmem c j).
      { intros j Nj. pose proof (step_local E o (view c t) j Nj) as L. rewrite Hs in L. exact L. }
      pose (c1 := leave c t s1).
      assert (V : view c1 t = s1).
      { unfold view, c1, leave. cbn. rewrite Nat.eqb_refl. destruct s1. reflexivity. }
      assert (Ag : forall u, u <> t -> agree (fun j => exists o', In (u, o') p /\ In j (uses o')) (view c u) (view c1 u)).
      { intros u Nu. unfold view, c1, leave. cbn. destruct (Nat.eqb_spec t u) as [->|_]; [congruence|].
        split; [reflexivity|]. split; [reflexivity|]. cbn. intros j (o' & Ho' & Hj). symmetry. apply Hloc.
        intros Hin. refine (RF t u o o' j _ _ _ Hin Hj); [congruence|left; reflexivity|right; exact Ho']. }
      assert (Hall1 : forall u, exists xs s, run E (of u p) (view c1 u) = (inl xs, s)).
      { intros u. destruct (Nat.eq_dec u t) as [->|Nu].
        - rewrite V. destruct r as [x|e|f]; [| |discriminate Ht];
            destruct (run E (of t p) s1) as [q s2]; destruct q; inversion Ht; eauto.
        - destruct (Hall u) as (ys & su & Hu). rewrite of_cons in Hu.
          destruct (Nat.eqb_spec t u) as [->|_]; [congruence|].
          destruct (alone_agree _ (of u p) (view c u) (view c1 u)
                      (fun o' j H Hj => ex_intro _ o' (conj (proj1 (of_in u p o') H) Hj)) (Ag u Nu)) as [Hf _].
          rewrite Hu in Hf. destruct (run E (of u p) (view c1 u)) as [q s2]. cbn in Hf. subst q. eauto. }
      destruct (IH c1 RF' Hall1) as (l & c' & Hc & Hth).
      assert (exists x, crun E ((t, o) :: p) c = (inl ((t, x) :: l), c') /\
                        fst (run E (o :: of t p) (view c t)) = inl (x :: of t l) /\
                        snd (run E (o :: of t p) (view c t)) = snd (run E (of t p) s1)) as (x & Hx & Hf & Hsn).
      { specialize (Hth t). rewrite V in Hth. cbn [crun run]. rewrite Hs. fold c1.
        destruct (run E (of t p) s1) as [q s2]. destruct Hth as (-> & _).
        destruct r as [x|e|f]; [| |discriminate Ht]; rewrite Hc; eauto. }
      exists ((t, x) :: l), c'. split; [exact Hx|]. intros u. rewrite of_cons.
      destruct (Nat.eqb_spec t u) as [<-|Nu].
      + rewrite of_cons, Nat.eqb_refl.
        specialize (Hth t). rewrite V in Hth.
        destruct (run E (o :: of t p) (view c t)) as [q0 s0]. cbn in Hf, Hsn. subst q0 s0.
        split; [reflexivity|]. destruct (run E (of t p) s1) as [q s2] eqn:Hq. destruct Hth as (_ & Hw & Htr & Hm).
        cbn. split; [exact Hw|]. split; [exact Htr|].
        intros o' j Hin Hj.
        (* either some later call of t uses j, or nothing of p writes it *)
        destruct (in_dec Nat.eq_dec j (flat_map uses (of t p))) as [Hu|Hu].
        * apply in_flat_map in Hu. destruct Hu as (o2 & H2 & Hj2). apply of_in in H2. exact (Hm o2 j H2 Hj2).
        * assert (Hlast : mem s2 j = mem s1 j).
          { pose proof (run_local E (of t p) s1 j) as L. rewrite Hq in L. apply L.
            intros o2 H2 Ht2. apply Hu, in_flat_map. exists o2. split; [exact H2|apply touches_uses, Ht2]. }
          rewrite Hlast.
          assert (Hc' : cmem c' j = cmem c1 j); [|rewrite Hc'; reflexivity].
          assert (NW : forall u o2, In (u, o2) p -> ~ In j (touches o2)).
          { intros u o2 H2 Ht2. destruct (Nat.eq_dec u t) as [->|Nu].
            - apply Hu, in_flat_map. exists o2. split; [apply of_in, H2|apply touches_uses, Ht2].
            - exact (RF u t o2 o' j Nu (or_intror H2) Hin Ht2 Hj). }
          clear - Hc NW. clearbody c1. revert c1 l c' Hc.
          induction p as [|[u o2] p IHp]; intros c1 l c' Hc; cbn in Hc; [congruence|].
          pose proof (step_local E o2 (view c1 u) j (NW u o2 (or_introl eq_refl))) as L.
          destruct (step E o2 (view c1 u)) as [[y|e|f] s']; [| |discriminate Hc];
            destruct (crun E p (leave c1 u s')) as [[l'|f] c2] eqn:Hr; try discriminate Hc;
            injection Hc as _ <-; rewrite (IHp (fun u o H => NW u o (or_intror H)) _ _ _ Hr); exact L.
      + rewrite of_cons. destruct (Nat.eqb_spec t u) as [|_]; [contradiction|].
        specialize (Hth u).
        destruct (alone_agree _ (of u p) (view c u) (view c1 u)
                    (fun o' j H Hj => ex_intro _ o' (conj (proj1 (of_in u p o') H) Hj))
                    (Ag u (fun e => Nu (eq_sym e)))) as [Hfu Au].
        destruct (run E (of u p) (view c u)) as [q s2], (run E (of u p) (view c1 u)) as [q' s2'].
        cbn in Hfu. subst q'. destruct Au as (A1 & A2 & A3). cbn in A1, A2, A3.
        destruct Hth as (-> & Hw & Htr & Hm). split; [reflexivity|].
        split; [congruence|]. split; [congruence|].
        intros o' j [Hin|Hin] Hj; [congruence|]. rewrite A3 by eauto. exact (Hm o' j Hin Hj).
  Qed.
End Interleave.

(** For every schedule without conflicting calls: if no thread goes wrong when it runs
    alone, the whole run does not go wrong, and every thread makes the observations
    that it makes alone, ends in the same world with the same lifetime events, and the
    objects it uses end in the same state. *)
Theorem C56_threads_do_not_interfere :
  forall W (E : env W) p c,
    race_free p ->
    (forall t, exists xs s, run E (of t p) (view c t) = (inl xs, s)) ->
    exists l c', crun E p c = (inl l, c') /\
      (forall t xs s, run E (of t p) (view c t) = (inl xs, s) ->
        of t l = xs /\ cown c' t = (world s, trace s) /\
        forall o j, In (t, o) p -> In j (uses o) -> cmem c' j = mem s j) /\
      (forall j, (forall t o, In (t, o) p -> ~ In j (touches o)) -> cmem c' j = cmem c j).
Proof.
  intros W E p c RF Hall. destruct (interleave E p c RF Hall) as (l & c' & Hc & H).
  exists l, c'. split; [exact Hc|]. split.
  - intros t xs s Ht. specialize (H t). rewrite Ht in H. destruct H as (Hx & Hw & Htr & Hm).
    injection Hx as ->. split; [reflexivity|]. split.
    + rewrite Hw, Htr. cbn. destruct (cown c' t); reflexivity.
    + intros o j Ho Hj. symmetry. exact (Hm o j Ho Hj).
  - intros j NW. clear - Hc NW. revert c l c' Hc.
    induction p as [|[u o2] p IHp]; intros c l c' Hc; cbn in Hc; [congruence|].
    pose proof (step_local E o2 (view c u) j (NW u o2 (or_introl eq_refl))) as L.
    destruct (step E o2 (view c u)) as [[y|e|f] s']; [| |discriminate Hc];
      destruct (crun E p (leave c u s')) as [[l'|f] c2] eqn:Hr; try discriminate Hc;
      injection Hc as _ <-; rewrite (IHp (fun u o H => NW u o (or_intror H)) _ _ _ Hr); exact L.
Qed.

(** The schedule does not matter: two interleavings of the same threads give every
    thread the same observations, and all memory is the same in the end. *)
Theorem C56_schedule_is_irrelevant :
  forall W (E : env W) p q c,
    race_free p -> (forall t, of t p = of t q) ->
    (forall t, exists xs s, run E (of t p) (view c t) = (inl xs, s)) ->
    exists l c1 m c2, crun E p c = (inl l, c1) /\ crun E q c = (inl m, c2) /\
      (forall t, of t l = of t m /\ cown c1 t = cown c2 t) /\ forall j, cmem c1 j = cmem c2 j.
Proof.
  intros W E p q c RF Hpq Hall.
  assert (Hin : forall t o, In (t, o) p <-> In (t, o) q) by (intros t o; rewrite <- !of_in, Hpq; tauto).
  assert (RFq : race_free q) by (intros t u o o' j N H1 H2; exact (RF t u o o' j N (proj2 (Hin t o) H1) (proj2 (Hin u o') H2))).
  assert (Hallq : forall t, exists xs s, run E (of t q) (view c t) = (inl xs, s))
    by (intros t; rewrite <- Hpq; apply Hall).
  destruct (C56_threads_do_not_interfere W E p c RF Hall) as (l & c1 & H1 & A1 & B1).
  destruct (C56_threads_do_not_interfere W E q c RFq Hallq) as (m & c2 & H2 & A2 & B2).
  exists l, c1, m, c2. split; [exact H1|]. split; [exact H2|].
  assert (Ho : forall t, of t l = of t m /\ cown c1 t = cown c2 t).
  { intros t. destruct (Hall t) as (xs & s & Ht). destruct (A1 t xs s Ht) as (X1 & Y1 & _).
    rewrite Hpq in Ht. destruct (A2 t xs s Ht) as (X2 & Y2 & _). split; congruence. }
  split; [exact Ho|]. intros j.
  assert (Dec : (exists t o, In (t, o) p /\ In j (uses o)) \/ forall t o, In (t, o) p -> ~ In j (touches o)).
  { clear. induction p as [|[t o] p IH]; [right; intros t o []|].
    destruct (in_dec Nat.eq_dec j (uses o)) as [Hj|Hj]; [left; exists t, o; split; [left; reflexivity|exact Hj]|].
    destruct IH as [(t' & o' & H & Hj')|IH]; [left; exists t', o'; split; [right; exact H|exact Hj']|].
    right. intros t' o' [H|H]; [injection H as <- <-; intros Ht; apply Hj, touches_uses, Ht|exact (IH t' o' H)]. }
  destruct Dec as [(t & o & H & Hj)|NW].
  - destruct (Hall t) as (xs & s & Ht). destruct (A1 t xs s Ht) as (_ & _ & M1).
    rewrite Hpq in Ht. destruct (A2 t xs s Ht) as (_ & _ & M2).
    rewrite (M1 o j H Hj). symmetry. apply (M2 o j); [apply Hin, H|exact Hj].
  - rewrite (B1 j NW). symmetry. apply B2. intros t o H. apply (NW t o), Hin, H.
Qed.

(** Threads that start after a common history behave as threads using std::optional:
    [u] is the state after the history [h] of the first thread, [wt t] is the
    world of thread [t]. *)
Theorem C56_threads_as_std :
  forall W (E : env W) w h s ys (u : sstate W) p wt xs,
    env_ok E -> contract E w h -> reaches E w h s -> std_run E w h = (Some ys, u) ->
    race_free p -> (forall t o, In (t, o) p -> op_ok o) ->
    (forall t, fst (srun (e_tid E) (ops E) (storable E) (is_value E) (of t p) (MkS (objs u) (wt t)))
               = Some (xs t)) ->
    exists l c', crun E p (MkC (mem s) (fun t => (wt t, []))) = (inl l, c') /\ forall t, of t l = xs t.
Proof.
  intros W E w h s ys u p wt xs HE C R Hu RF Hok Hx.
  destruct (reaches_rel E HE w h s C R) as (ys' & u' & Hu' & Rl). rewrite Hu in Hu'. injection Hu' as <- <-.
  assert (Hrun : forall t, exists st, run E (of t p) (MkState (mem s) (wt t) []) = (inl (xs t), st)).
  { intros t. assert (Rt : rel E NoHole (MkState (mem s) (wt t) []) (MkS (objs u) (wt t))).
    { destruct Rl as (_ & _ & Hobj). split; [reflexivity|]. split; [intros i []|]. exact Hobj. }
    assert (Ho : Forall op_ok (of t p)).
    { apply Forall_forall. intros o H. apply of_in in H. exact (Hok t o H). }
    pose proof (refines_run E HE (of t p) _ _ Ho Rt) as Q. specialize (Hx t).
    destruct (srun _ _ _ _ (of t p) _) as [r t']. cbn in Hx. subst r. destruct Q as (st & Hst & _). eauto. }
  destruct (C56_threads_do_not_interfere W E p (MkC (mem s) (fun t => (wt t, []))) RF) as (l & c' & Hc & A & _).
  { intros t. destruct (Hrun t) as (st & Hst). exists (xs t), st. exact Hst. }
  exists l, c'. split; [exact Hc|]. intros t. destruct (Hrun t) as (st & Hst). exact (proj1 (A t _ _ Hst)).
Qed.

(** Two threads copy, read and compare a shared optional while each works on its own;
    the shared one is not modified. *)
Definition thread_sample : list (nat * op sworld_t) :=
  [(1, OCopyCtor 1 0); (2, OHasValue 0); (1, OReset 1); (2, OInPlace 2 (mkP 7 8));
   (2, OCopyAssign 2 0); (1, OAccess AccValue 0 true look); (2, OAccess AccValue 2 true look); (1, ODtor 1);
   (2, ODtor 2)].
Example C56_example dbg :
  race_free thread_sample /\ (forall t o, In (t, o) thread_sample -> op_ok o) /\
  contract (sample dbg) quiet [OInPlace 0 (mkP 1 2)] /\
  exists ys u, std_run (sample dbg) quiet [OInPlace 0 (mkP 1 2)] = (Some ys, u) /\
  forall t, fst (srun (e_tid (sample dbg)) (ops (sample dbg)) (storable (sample dbg)) (is_value (sample dbg))
                      (of t thread_sample) (MkS (objs u) (plan [None; None])))
            = Some (if Nat.eqb t 1 then [ObUnit; ObUnit; ObVal [Atom 1; Atom 2]; ObUnit]
                    else if Nat.eqb t 2 then [ObBool true; ObUnit; ObUnit; ObVal [Atom 1; Atom 2]; ObUnit] else []).
Proof.
  split; [|split; [|split]].
  - intros t u o o' j N H1 H2. cbn in H1, H2.
    repeat (destruct H1 as [H1|H1]; [injection H1 as <- <-|]); try contradiction;
    repeat (destruct H2 as [H2|H2]; [injection H2 as <- <-; try congruence; cbn; intuition lia|]); contradiction.
  - intros t o H. cbn in H. repeat (destruct H as [H|H]; [injection H as <- <-; cbn; try exact I; try (intros X; discriminate X)|]).
    contradiction.
  - ex_contract.
  - eexists _, _. split; [vm_compute; reflexivity|]. intros t. cbn [objs].
    destruct t as [|[|[|t]]]; destruct dbg; vm_compute; reflexivity.
Qed.
(** Conflicting calls are excluded for a reason: here the schedule decides. *)
Example C56_conflict_example dbg :
  let p := [(1, OReset 0); (2, OHasValue 0)] in
  let q := [(2, OHasValue 0); (1, OReset 0)] in
  let c := MkC (mem (snd (run (sample dbg) [OInPlace 0 (mkP 1 2)] (init_state quiet)))) (fun _ => (quiet, [])) in
  (forall t, of t p = of t q) /\ ~ race_free p /\
  fst (crun (sample dbg) p c) = inl [(1, ObUnit); (2, ObBool false)] /\
  fst (crun (sample dbg) q c) = inl [(2, ObBool true); (1, ObUnit)].
Proof.
  cbv zeta. split; [intros [|[|[|t]]]; reflexivity|]. split.
  - intros H. refine (H 1 2 _ _ 0 _ (or_introl eq_refl) (or_intror (or_introl eq_refl)) _ _); cbn; auto.
  - split; destruct dbg; vm_compute; reflexivity.
Qed.
