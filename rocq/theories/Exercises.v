(** * Exercises: the repository's test suite, for all types and all values (C55)

    tests/Exercises.h:87-785 is the function template that the repository runs on each
    of its optional types with two values each.  Here its tests are histories of API
    calls with the observations that the assertions demand, taken from the test file
    and not from the specification; and they hold for every storage strategy, every
    regular payload type, every pair of storable values and every world. *)

From Coq Require Import String List NArith ZArith Bool Arith Lia.
From Verif Require Import Cells CellsFacts Machine Optional Program Spec Laws Refine Contract SpecTac.
From Verif Require Import Bits Manip Sample ExampleTac Sentinels.
Import ListNotations.
Local Open Scope string_scope.
Local Open Scope list_scope.

(** A regular type: copying, moving, assigning and swapping do not throw and transfer
    values; [mvd v] is what a move leaves behind (tests: "EmptyOrNoContainer"), and the
    optional can store it.  Side effects on the world are arbitrary. *)
Record regular {W} (P : payops W) (stor : rep -> bool) (mvd : rep -> rep) : Prop := {
  rg_copy : forall v w, exists w', po_copy P v w = (ROk v, w');
  rg_move : forall v w, exists w', po_move P v w = ((ROk v, mvd v), w');
  rg_cassign : forall d v w, exists w', po_cassign P d v w = ((ROk tt, v), w');
  rg_massign : forall d v w, exists w', po_massign P d v w = ((ROk tt, (v, mvd v)), w');
  rg_swap : forall a b w, exists w', po_swap P a b w = ((ROk tt, (b, a)), w');
  rg_left : forall v, stor v = true -> stor (mvd v) = true
}.

Definition rep_eqb (a b : rep) : bool :=
  Nat.eqb (length a) (length b) && forallb (fun p => cell_eqb (fst p) (snd p)) (combine a b).
Lemma cell_eqb_refl c : cell_eqb c c = true.
Proof. destruct c; cbn; [reflexivity|apply N.eqb_refl|apply Z.eqb_refl]. Qed.
Lemma rep_eqb_refl v : rep_eqb v v = true.
Proof.
  unfold rep_eqb. rewrite Nat.eqb_refl. cbn. induction v; cbn; [reflexivity|].
  rewrite cell_eqb_refl. exact IHv.
Qed.

Arguments rep_eqb : simpl never.

Section Suite.
  Context {W : Type}.
  (** What a move leaves in the payload / in a variable of the client. *)
  Variable mvd : rep -> rep.
  (** Side effects of the client's constructors and callables. *)
  Variable touch : W -> W.
  (** validValueToAssign1, validValueToAssign2, the payload constructed from
      constructorArgs..., and a value for results of another type. *)
  Variables v1 v2 va d : rep.

  (** *** The client's expressions *)

  (** Initialization from a value. *)
  Definition from (v : rep) : ini W := MkIni None true (fun _ w => ((ROk v, []), touch w)) false.
  (** Initialization from [std::move(x)], where [x] is variable [j]. *)
  Definition from_var (j : loc) : ini W :=
    MkIni (Some j) false (fun v w => ((ROk v, mvd v), touch w)) false.
  (** Assignment of a value resp. of [std::move(x)]. *)
  Definition assign_from (v : rep) : arg W :=
    MkArg (from v) (fun _ _ w => ((ROk tt, (v, [])), touch w)) (fun x w => ((ROk tt, x), w)).
  Definition assign_var (j : loc) : arg W :=
    MkArg (from_var j) (fun _ v w => ((ROk tt, (v, mvd v)), touch w)) (fun x w => ((ROk tt, x), w)).
  (** Look at the payload; move it into a local variable. *)
  Definition look : fn_use W := fun v w => ((ROk v, v), w).
  Definition take : fn_use W := fun v w => ((ROk v, mvd v), touch w).
  (** Callables: check the argument and return [x]; must not be called ([FAIL()]; the
      result would be engaged, and the test expects it to be empty or [v1]). *)
  Definition check_then (x : option rep) : fn_opt W :=
    fun v w => if rep_eqb v v1 then ((ROk x, v), touch w) else ((RThrow (UserExn 0), v), w).
  Definition check_value (x : rep) : fn_use W :=
    fun v w => if rep_eqb v v1 then ((ROk x, v), touch w) else ((ROk v, v), w).
  Definition fail_opt : fn_opt W := fun v w => ((ROk (Some d), v), touch w).
  Definition fail_value : fn_use W := fun v w => ((ROk d, v), touch w).
  Definition fail_else : W -> res (option rep) * W := fun w => (ROk None, touch w).

  Notation "a ==> x" := (a, x) (at level 70).
  (** ASSERT_TRUE(o.has_value()), ASSERT_TRUE(AreEqual(o.value(), v)), ... *)
  Definition is_true i : op W * obs := OHasValue i ==> ObBool true.
  Definition is_false i : op W * obs := OHasValue i ==> ObBool false.
  Definition has i v : op W * obs := OAccess AccValue i true look ==> ObVal v.
  Definition cmd (o : op W) : op W * obs := o ==> ObUnit.
  Definition dtors (l : list loc) : list (op W * obs) := map (fun i => cmd (ODtor i)) l.

  (** ASSERT_TRUE(EmptyOrNoContainer(x)) for the variable 10: a copy of it has the
      moved-from value. *)
  Definition left_behind : list (op W * obs) :=
    [cmd (OInPlace 5 (MkIni (Some 10) true (fun v w => ((ROk v, v), w)) false)); has 5 (mvd v1)] ++ dtors [5].

  (** *** The tests; variables 0-19 have the type under test, 20-39 another optional
      type (results of and_then and transform).  Not modelled:
      the addresses of returned references, the static_asserts, rvalue calls that only
      differ in the value category of the argument of a callable, std::optional as
      result of and_then (an optional of another type is used instead), and the branch
      of "Assignment_bracesToNonEmpty" for volatile payloads (see C44). *)
  Definition exercises : list (string * list (op W * obs)) := [
    ("Constructor_Default", [cmd (ODefault 0); is_false 0]);
    ("Constructor_Nullopt", [cmd (ONullopt 0); is_false 0]);
    ("Constructor_CopyOfEmpty", [cmd (ODefault 0); cmd (OCopyCtor 1 0); is_false 1] ++ dtors [1; 0]);
    ("Constructor_CopyOfNonEmpty",
      [cmd (ODefault 0); cmd (OAssign 0 (assign_from v1)); cmd (OCopyCtor 1 0);
       is_true 0; is_true 1; has 0 v1; has 1 v1] ++ dtors [1; 0]);
    ("Constructor_MoveOfEmpty",
      [cmd (ODefault 0); cmd (OMoveCtor 1 0); is_false 1; is_false 0] ++ dtors [1; 0]);
    ("Constructor_MoveOfNonEmpty",
      [cmd (OInPlace 0 (from v1)); cmd (OMoveCtor 1 0); is_true 0; has 0 (mvd v1); is_true 1; has 1 v1]
      ++ dtors [1; 0]);
    ("Constructor_inplace", [cmd (OInPlace 0 (from va)); is_true 0; has 0 va] ++ dtors [0]);
    ("Constructor_fromValueViaParentheses", [cmd (OInPlace 0 (from v1)); is_true 0; has 0 v1] ++ dtors [0]);
    ("Constructor_fromValueViaBraces", [cmd (OInPlace 0 (from v1)); is_true 0; has 0 v1] ++ dtors [0]);
    ("Constructor_moveFromValue",
      [cmd (OVarNew 10 v1); cmd (OInPlace 0 (from_var 10)); is_true 0; has 0 v1] ++ left_behind ++ dtors [0]
      ++ [cmd (OVarDrop 10)]);
    ("Assignment_nulloptToEmpty", [cmd (ODefault 0); is_false 0; cmd (OAssignNull 0); is_false 0] ++ dtors [0]);
    ("Assignment_nulloptToNonEmpty",
      [cmd (OInPlace 0 (from v1)); is_true 0; cmd (OAssignNull 0); is_false 0] ++ dtors [0]);
    ("Assignment_bracesToNonEmpty",   (* o = {}: a default constructed optional is moved *)
      [cmd (OInPlace 0 (from v1)); is_true 0; cmd (ODefault 1); cmd (OMoveAssign 0 1); cmd (ODtor 1); is_false 0]
      ++ dtors [0]);
    ("Assignment_EmptyToEmpty",
      [cmd (ODefault 0); is_false 0; cmd (ODefault 1); cmd (OCopyAssign 1 0); is_false 1] ++ dtors [1; 0]);
    ("Assignment_EmptyToNonEmpty",
      [cmd (OInPlace 0 (from v1)); is_true 0; cmd (ODefault 1); cmd (OCopyAssign 0 1); is_false 0] ++ dtors [1; 0]);
    ("Assignment_NonEmptyToNonEmpty",
      [cmd (OInPlace 0 (from v1)); is_true 0; cmd (OInPlace 1 (from v2)); is_true 1;
       cmd (OCopyAssign 1 0); is_true 1; has 1 v1; has 0 v1] ++ dtors [1; 0]);
    ("Assignment_NonEmptyToEmpty",
      [cmd (OInPlace 0 (from v1)); is_true 0; cmd (ODefault 1); is_false 1;
       cmd (OCopyAssign 1 0); is_true 1; has 1 v1; has 0 v1] ++ dtors [1; 0]);
    ("Assignment_MoveOfEmptyToEmpty",
      [cmd (ODefault 0); cmd (ODefault 1); cmd (OMoveAssign 1 0); is_false 0; is_false 1] ++ dtors [1; 0]);
    ("Assignment_MoveOfNonEmptyToEmpty",
      [cmd (OInPlace 0 (from v1)); cmd (ODefault 1); cmd (OMoveAssign 1 0); is_true 0; has 0 (mvd v1);
       is_true 1; has 1 v1] ++ dtors [1; 0]);
    ("Assignment_MoveOfNonEmptyToNonEmpty",
      [cmd (OInPlace 0 (from v1)); cmd (OInPlace 1 (from v2)); cmd (OMoveAssign 1 0); is_true 0; has 0 (mvd v1);
       is_true 1; has 1 v1] ++ dtors [1; 0]);
    ("Assignment_MoveOfEmptyToNonEmpty",
      [cmd (ODefault 0); cmd (OInPlace 1 (from v1)); is_true 1; cmd (OMoveAssign 1 0); is_false 0; is_false 1]
      ++ dtors [1; 0]);
    ("Assignment_PayloadToEmpty",
      [cmd (ODefault 0); cmd (OAssign 0 (assign_from v1)); is_true 0; has 0 v1] ++ dtors [0]);
    ("Assignment_PayloadToNonEmpty",
      [cmd (OInPlace 0 (from v1)); cmd (OAssign 0 (assign_from v2)); is_true 0; has 0 v2] ++ dtors [0]);
    ("Assignment_MovePayloadToEmpty",
      [cmd (OVarNew 10 v1); cmd (ODefault 0); cmd (OAssign 0 (assign_var 10)); is_true 0; has 0 v1] ++ left_behind ++ dtors [0]
      ++ [cmd (OVarDrop 10)]);
    ("Emplace_ToEmpty", [cmd (ODefault 0); cmd (OEmplace 0 (from va)); is_true 0; has 0 va] ++ dtors [0]);
    ("Emplace_ToNonEmpty",
      [cmd (OInPlace 0 (from v1)); cmd (OEmplace 0 (from va)); is_true 0; has 0 va] ++ dtors [0]);
    ("ResetOfEmpty", [cmd (ODefault 0); cmd (OReset 0); is_false 0; cmd (OReset 0); is_false 0] ++ dtors [0]);
    ("ResetOfNonEmpty", [cmd (OInPlace 0 (from v1)); is_true 0; cmd (OReset 0); is_false 0] ++ dtors [0]);
    ("OperatorBool",
      [cmd (ODefault 0); is_false 0; OBool 0 ==> ObBool false; cmd (OInPlace 1 (from v1)); is_true 1;
       OBool 1 ==> ObBool true] ++ dtors [1; 0]);
    ("pointerOperator",
      [cmd (OInPlace 0 (from v1)); OAccess AccArrow 0 false look ==> ObVal v1; has 0 v1] ++ dtors [0] ++
      [cmd (OInPlace 0 (from v1)); OAccess AccArrow 0 true look ==> ObVal v1; has 0 v1] ++ dtors [0]);
    ("dereferenceForNonEmpty",
      [cmd (OInPlace 0 (from v1)); OAccess AccDeref 0 false look ==> ObVal v1] ++ dtors [0] ++
      [cmd (OInPlace 0 (from v1)); OAccess AccDeref 0 true look ==> ObVal v1] ++ dtors [0] ++
      [cmd (OInPlace 0 (from v1)); OAccess AccDeref 0 false take ==> ObVal v1; is_true 0; has 0 (mvd v1)]
      ++ dtors [0]);
    ("valueForNonEmpty",
      [cmd (OInPlace 0 (from v1)); OAccess AccValue 0 false look ==> ObVal v1] ++ dtors [0] ++
      [cmd (OInPlace 0 (from v1)); OAccess AccValue 0 true look ==> ObVal v1] ++ dtors [0] ++
      [cmd (OInPlace 0 (from v1)); OAccess AccValue 0 false take ==> ObVal v1; is_true 0; has 0 (mvd v1)]
      ++ dtors [0]);
    ("valueForEmpty",
      [cmd (ODefault 0); OAccess AccValue 0 false look ==> ObThrow BadOptionalAccess;
       cmd (ODefault 1); OAccess AccValue 1 true look ==> ObThrow BadOptionalAccess;
       cmd (ODefault 2); OAccess AccValue 2 false take ==> ObThrow BadOptionalAccess;
       OAccess AccValue 0 true look ==> ObThrow BadOptionalAccess] ++ dtors [2; 1; 0]);
    ("value_or_ForNonEmpty",
      [cmd (OInPlace 0 (from v1)); OValueOrCopy 0 (from v2) ==> ObVal v1] ++ dtors [0] ++
      [cmd (OInPlace 0 (from v1)); OValueOrMove 0 (from v2) ==> ObVal v1; has 0 (mvd v1)] ++ dtors [0]);
    ("value_or_ForEmpty",
      [cmd (ODefault 0); OValueOrCopy 0 (from v1) ==> ObVal v1; is_false 0] ++ dtors [0] ++
      [cmd (OVarNew 10 v1); cmd (ODefault 0); OValueOrMove 0 (from_var 10) ==> ObVal v1; is_false 0] ++ left_behind ++ dtors [0]
      ++ [cmd (OVarDrop 10)]);
    ("swapOfEmptyAndEmpty",
      [cmd (ODefault 0); cmd (ODefault 1); cmd (OSwap 0 1); is_false 0; is_false 1;
       cmd (OStdSwap 0 1 2); is_false 0; is_false 1] ++ dtors [1; 0]);
    ("swapOfNonEmptyAndNonEmpty",
      [cmd (OInPlace 0 (from v1)); cmd (OInPlace 1 (from v2)); cmd (OSwap 0 1); has 0 v2; has 1 v1] ++ dtors [1; 0] ++
      [cmd (OInPlace 0 (from v1)); cmd (OInPlace 1 (from v2)); cmd (OStdSwap 0 1 2); has 0 v2; has 1 v1]
      ++ dtors [1; 0]);
    ("swapOfEmptyAndNonEmpty",
      [cmd (ODefault 0); cmd (OInPlace 1 (from v2)); cmd (OSwap 0 1); has 0 v2; is_false 1] ++ dtors [1; 0] ++
      [cmd (ODefault 0); cmd (OInPlace 1 (from v2)); cmd (OStdSwap 0 1 2); has 0 v2; is_false 1] ++ dtors [1; 0]);
    ("swapOfNonEmptyAndEmpty",
      [cmd (OInPlace 0 (from v1)); cmd (ODefault 1); cmd (OSwap 0 1); is_false 0; has 1 v1] ++ dtors [1; 0] ++
      [cmd (OInPlace 0 (from v1)); cmd (ODefault 1); cmd (OStdSwap 0 1 2); is_false 0; has 1 v1] ++ dtors [1; 0]);
    ("and_then_ForEmpty",
      [cmd (ODefault 0); cmd (OAndThen 20 0 false fail_opt); is_false 20;
       cmd (OAndThen 21 0 true fail_opt); is_false 21] ++ dtors [21; 20; 0]);
    ("and_then_ForNonEmpty",
      [cmd (OInPlace 0 (from v1)); cmd (OAndThen 1 0 false (check_then (Some v2))); has 1 v2;
       cmd (OAndThen 20 0 false (check_then (Some d))); has 20 d;
       cmd (OAndThen 2 0 true (check_then (Some v2))); has 2 v2;
       cmd (OAndThen 21 0 true (check_then (Some d))); has 21 d] ++ dtors [21; 2; 20; 1; 0]);
    ("transform_ForEmpty",
      [cmd (ODefault 0); cmd (OTransform 20 0 false fail_value true); is_false 20;
       cmd (OTransform 21 0 true fail_value false); is_false 21] ++ dtors [21; 20; 0]);
    ("transform_ForNonEmpty",
      [cmd (OInPlace 0 (from v1)); cmd (OTransform 1 0 false (check_value v2) false); has 1 v2;
       cmd (OTransform 20 0 false (check_value d) true); has 20 d;
       cmd (OTransform 2 0 true (check_value v2) true); has 2 v2;
       cmd (OTransform 21 0 true (check_value d) false); has 21 d] ++ dtors [21; 2; 20; 1; 0]);
    ("or_else_ForEmpty",
      [cmd (ODefault 0); cmd (OOrElse 1 0 false (fun w => (ROk None, touch w))); is_false 1;
       cmd (OOrElse 2 0 false (fun w => (ROk (Some v1), touch w))); has 2 v1;
       cmd (OOrElse 3 0 true (fun w => (ROk None, touch w))); is_false 3;
       cmd (OOrElse 4 0 true (fun w => (ROk (Some v1), touch w))); has 4 v1] ++ dtors [4; 3; 2; 1; 0]);
    ("or_else_ForNonEmpty",
      [cmd (OInPlace 0 (from v1)); cmd (OOrElse 1 0 false fail_else); has 1 v1;
       cmd (OOrElse 2 0 true fail_else); has 2 v1; has 0 (mvd v1)] ++ dtors [2; 1; 0])
  ].

  (** *** Running them *)
  Variables T T1 : optty W.
  Variable dbg : bool.
  Definition suite_env : env W :=
    MkEnv W (fun t => if Nat.eqb t 0 then T else T1) (fun i => if Nat.ltb i 20 then 0 else 1) dbg.
  (** The test passes: every call ends as demanded. *)
  Definition passes (w : W) (test : list (op W * obs)) : Prop :=
    exists s, run suite_env (map fst test) (init_state w) = (inl (map snd test), s).

  Notation stor := (storable_in (ot_dec T) (ot_man T)).
  Notation stor1 := (storable_in (ot_dec T1) (ot_man T1)).
  Hypothesis HT : optty_ok T.
  Hypothesis HT1 : optty_ok T1.
  Hypothesis HR : regular (ot_ops T) stor mvd.
  Hypothesis S1 : stor v1 = true.
  Hypothesis S2 : stor v2 = true.
  Hypothesis Sa : stor va = true.
  Hypothesis Sd : stor1 d = true.

  Lemma suite_ok : env_ok suite_env.
  Proof. intros t. cbn. destruct (Nat.eqb t 0); assumption. Qed.

  Notation srun' := (srun (e_tid suite_env) (ops suite_env) (storable suite_env) (is_value suite_env)).
  Notation sstep' := (sstep (e_tid suite_env) (ops suite_env) (storable suite_env) (is_value suite_env)).

  Definition spasses (t : sstate W) (test : list (op W * obs)) : Prop :=
    exists t', srun' (map fst test) t = (Some (map snd test), t').
  Lemma spasses_nil t : spasses t [].
  Proof. exists t. reflexivity. Qed.
  Lemma spasses_cons t o x l :
    match sstep' o t with
    | (SOk y, t') => y = x /\ spasses t' l
    | (SThrow e, t') => ObThrow e = x /\ spasses t' l
    | (SUndef, _) => False
    end -> spasses t ((o, x) :: l).
  Proof.
    intros H. unfold spasses. cbn [map fst snd srun].
    destruct (sstep' o t) as [[y|e|] t']; [| |contradiction];
      destruct H as (<- & t2 & H2); exists t2; rewrite H2; reflexivity.
  Qed.
  Lemma stor_is_value v : stor v = true -> Nat.eqb (length v) (d_psize (ot_dec T)) = true.
  Proof. unfold storable_in. intros H. apply andb_prop in H. apply H. Qed.
  Lemma spasses_passes w test :
    Forall op_ok (map fst test) -> spasses (sinit_state w) test -> passes w test.
  Proof.
    intros Ho (t & H). pose proof (refines_run suite_env suite_ok _ _ _ Ho (rel_init suite_env w)) as R.
    rewrite H in R. destruct R as (s & Hs & _). exists s. exact Hs.
  Qed.

  Lemma Sm : stor (mvd v1) = true.
  Proof. apply (rg_left _ _ _ HR). exact S1. Qed.
  Lemma Sm2 : stor (mvd v2) = true.
  Proof. apply (rg_left _ _ _ HR). exact S2. Qed.

  Ltac unf :=
    unfold s_std_swap, sunit, sbool, sval, s_ctor_from, s_dtor, s_assign, s_assign_existing,
      s_copy_assign, s_move_assign, s_emplace, s_swap, s_on_throw, s_clear, s_access, s_value_or,
      s_and_then, s_transform, s_or_else, s_new, s_has,
      sinit; cbn [sread_more swrite_more joined parted i_more]; unfold sinit, scopy, smove, sdestroy, same, contents, fresh, sread, swrite, become, sset,
      suser, sres, sbind, sret, sthrow, sundef, check_then, check_value.
  Ltac see :=
    cbn; repeat (
      match goal with
      | |- context [storable suite_env ?i ?v] =>
          change (storable suite_env i v) with (stor v);
          first [rewrite S1|rewrite S2|rewrite Sa|rewrite Sm|rewrite Sm2]
      | |- context [storable suite_env ?i ?v] =>
          change (storable suite_env i v) with (stor1 v); rewrite Sd
      | |- context [is_value suite_env ?i ?v] =>
          change (is_value suite_env i v) with (Nat.eqb (length v) (d_psize (ot_dec T)));
          first [rewrite (stor_is_value _ S1)|rewrite (stor_is_value _ Sm)]
      | |- context [dec suite_env ?i] => change (dec suite_env i) with (ot_dec T);
          first [rewrite (stor_is_value _ S1)|rewrite (stor_is_value _ Sm)]
      | |- context [ops suite_env ?i] => change (ops suite_env i) with (ot_ops T)
      | |- context [rep_eqb ?v ?v] => rewrite rep_eqb_refl
      | |- context [po_copy (ot_ops T) ?v ?w] => destruct (rg_copy _ _ _ HR v w) as [? ->]
      | |- context [po_move (ot_ops T) ?v ?w] => destruct (rg_move _ _ _ HR v w) as [? ->]
      | |- context [po_cassign (ot_ops T) ?d ?v ?w] => destruct (rg_cassign _ _ _ HR d v w) as [? ->]
      | |- context [po_massign (ot_ops T) ?d ?v ?w] => destruct (rg_massign _ _ _ HR d v w) as [? ->]
      | |- context [po_swap (ot_ops T) ?a ?b ?w] => destruct (rg_swap _ _ _ HR a b w) as [? ->]
      end; cbn).
  Ltac one := apply spasses_cons; cbn [sstep]; unf; see; split; [reflexivity|].
  Ltac all := repeat one; apply spasses_nil.


  Lemma exercises_spec w : Forall (fun t => spasses (sinit_state w) (snd t)) exercises.
  Proof.
    unfold exercises. repeat apply Forall_cons; try apply Forall_nil;
      unfold left_behind; cbn [snd app dtors map]; unfold is_true, is_false, has, cmd, sinit_state.
    all: all.
  Qed.
  Lemma exercises_ok : Forall (fun t => Forall op_ok (map fst (snd t))) exercises.
  Proof.
    unfold exercises. repeat apply Forall_cons; try apply Forall_nil;
      unfold left_behind; cbn [snd app dtors map fst is_true is_false has cmd];
      repeat apply Forall_cons; try apply Forall_nil; cbn; try exact I; try discriminate.
    all: intros _ v w; unfold fail_value, check_value; try destruct (rep_eqb v v1); exact I.
  Qed.

  (** Every test of the suite passes. *)
  Theorem C55_every_exercise_passes : forall w name test,
    In (name, test) exercises -> passes w test.
  Proof.
    intros w name test H.
    apply spasses_passes.
    - exact (proj1 (Forall_forall _ _) exercises_ok _ H).
    - exact (proj1 (Forall_forall _ _) (exercises_spec w) _ H).
  Qed.
End Suite.

(** The suite notices a value that cannot be stored: with a test value that reads as
    the sentinel, the tests that store it fail, with and without assertions.  So the
    theorem's hypothesis on the values is needed. *)
Theorem C55_sentinel_as_test_value_fails :
  forall W (mvd : rep -> rep) (touch : W -> W) v1 v2 va d (T T1 : optty W) dbg w test,
    optty_ok T -> optty_ok T1 ->
    looks_empty (suite_env T T1 dbg) 0 v1 ->
    In ("Constructor_fromValueViaParentheses", test) (exercises mvd touch v1 v2 va d) ->
    ~ passes T T1 dbg w test.
Proof.
  intros W mvd touch v1 v2 va d T T1 dbg w test HT HT1 HL Hin (s & Hs).
  assert (Ht : test = [cmd (OInPlace 0 (from touch v1)); is_true 0; has 0 v1] ++ dtors [0]).
  { cbn in Hin. repeat (destruct Hin as [Hin|Hin]; [try discriminate Hin; injection Hin as <-; reflexivity|]).
    contradiction. }
  subst test. cbn [map fst snd app cmd is_true has dtors] in Hs.
  assert (HE : env_ok (suite_env T T1 dbg)) by (intros t; cbn; destruct (Nat.eqb t 0); assumption).
  pose proof (looks_empty_swallows W _ 0 v1 HE HL w [] (init_state w) (OInPlace 0 (from touch v1))) as H.
  assert (C : contract (suite_env T T1 dbg) w []).
  { eapply contract_intro; [apply Forall_nil|reflexivity]. }
  specialize (H C). specialize (H ltac:(exists []; reflexivity)).
  specialize (H ltac:(intros E; discriminate E)).
  assert (St : stores (suite_env T T1 dbg) w [] 0 v1 (OInPlace 0 (from touch v1))).
  { apply st_construct; [split; [reflexivity|split; [reflexivity|intros; reflexivity]]|]. apply fresh_after_intro. reflexivity. }
  specialize (H St). cbn [e_dbg suite_env] in H.
  cbn [run] in Hs. destruct dbg.
  - destruct (step (suite_env T T1 true) (OInPlace 0 (from touch v1)) (init_state w)) as [r s1].
    cbn in H. subst r. discriminate Hs.
  - destruct H as (s' & H & Hh). rewrite H in Hs. cbn [run] in Hs.
    assert (Hb : step (suite_env T T1 false) (OHasValue 0) s' = (Ok (ObBool false), s')).
    { cbn [step]. unfold bool_, bind. rewrite Hh. reflexivity. }
    rewrite Hb in Hs.
    destruct (step _ _ s') as [[x|e|f] s2]; try discriminate Hs.
    all: destruct (step _ _ s2) as [[x'|e'|f'] s3]; discriminate Hs.
Qed.

(** *** Cases that meet the hypotheses *)

(** A container such as std::vector: length and buffer; a move leaves length 0; every
    call is counted in the world. *)
Definition vec_moved (v : rep) : rep := match v with _ :: l => Atom 0 :: l | [] => [] end.
Definition vec_ops : payops nat :=
  MkPayOps _
    (fun v w => (ROk v, 1 + w)) (fun v w => ((ROk v, vec_moved v), 1 + w))
    (fun _ v w => ((ROk tt, v), 1 + w)) (fun _ v w => ((ROk tt, (v, vec_moved v)), 1 + w))
    (fun v w => ((ROk tt, v), w)) (fun v w => ((ROk tt, vec_moved v), w))
    (fun a b w => ((ROk tt, (b, a)), 1 + w)) (fun v w => ((ROk tt, v), w))
    (fun _ w => 1 + w) false true true true.
Definition vec_opt : optty nat := MkOptTy _ (dec_separate 2 1) man_separate vec_ops.

Lemma vec_ops_ok : payops_ok vec_ops.
Proof. split; cbn; intros; try discriminate; exact I. Qed.
Lemma vec_opt_ok : optty_ok vec_opt.
Proof. split; [apply dec_separate_ok; lia|apply man_separate_ok|apply vec_ops_ok]. Qed.
Lemma vec_regular : regular vec_ops (storable_in (dec_separate 2 1) man_separate) vec_moved.
Proof. split; cbn; eauto. intros [|? v]; cbn; auto. Qed.

Lemma dbl_regular stor : regular t_ops stor (fun v => v).
Proof. split; cbn; eauto. Qed.

(** Containers in an optional with a separate flag, and doubles in an optional that
    uses a NaN; all values that these can store. *)
Example C55_example_vector dbg w n1 b1 n2 b2 name test :
  In (name, test) (exercises vec_moved Datatypes.S [Atom n1; Atom b1] [Atom n2; Atom b2] [Atom 0; Atom 0]
                             [Atom 7; Atom 8]) ->
  passes vec_opt vec_opt dbg w test.
Proof.
  apply C55_every_exercise_passes; try apply vec_opt_ok; try apply vec_regular; reflexivity.
Qed.
Example C55_example_double dbg w x y name test :
  storable_in (dec_inplace 8) man_double (word 8 x) = true ->
  storable_in (dec_inplace 8) man_double (word 8 y) = true ->
  In (name, test) (exercises (fun v => v) (fun w => w) (word 8 x) (word 8 y) (word 8 0) (word 1 1)) ->
  passes ty_dbl ty_bool dbg w test.
Proof.
  intros Hx Hy. apply C55_every_exercise_passes; try apply ty_dbl_ok; try apply ty_bool_ok;
    try apply dbl_regular; try assumption; vm_compute; reflexivity.
Qed.
Example C55_example_doubles :
  storable_in (dec_inplace 8) man_double (word 8 0) = true /\
  length (exercises (W:=nat) vec_moved Datatypes.S [Atom 1] [Atom 2] [] []) = 45 /\
  looks_empty (suite_env ty_dbl ty_bool true) 0 (word 8 sent_double).
Proof. split; [vm_compute; reflexivity|]. split; [vm_compute; reflexivity|]. repeat split; vm_compute; reflexivity. Qed.
