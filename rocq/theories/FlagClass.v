(** * FlagClass: flags whose class has user-written operations

    C52.  For sentinels given by the user the flag is an object of an arbitrary class
    (optional.h:766-850): [is_empty] calls its [operator==] and [init_empty_flag]
    copy-constructs it from the sentinel.  The rest of the model takes both as total
    functions on cells; here they are user code that may throw.  The header wants
    them noexcept and checks this by static_asserts, but in [init_empty_flag] it
    checks the assignment operator (optional.h:836-838) while it calls the copy
    constructor (optional.h:840-841). *)

From Coq Require Import List NArith ZArith Bool Arith Lia.
From Verif Require Import Cells CellsFacts Machine Optional Program Laws Manip Sample.
Import ListNotations.

Local Arguments put : simpl never.
Local Arguments sub : simpl never.

(** The operations of the flag's class and their noexcept specifications. *)
Record flagclass (W : Type) : Type := MkFlagClass {
  fc_sentinel : rep;                          (* valueToIndicateEmpty *)
  fc_eq : rep -> W -> res bool * W;           (* flag == valueToIndicateEmpty *)
  fc_copy : W -> res rep * W;                 (* FlagType(valueToIndicateEmpty) *)
  fc_assign : rep -> W -> (res unit * rep) * W; (* flag = valueToIndicateEmpty *)
  fc_nt_eq : bool;
  fc_nt_copy : bool;
  fc_nt_assign : bool
}.
Arguments fc_sentinel {W} _.
Arguments fc_eq {W} _ _ _.
Arguments fc_copy {W} _ _.
Arguments fc_assign {W} _ _ _.
Arguments fc_nt_eq {W} _.
Arguments fc_nt_copy {W} _.
Arguments fc_nt_assign {W} _.

(** The class keeps its noexcept promises. *)
Record truthful {W} (c : flagclass W) : Prop := {
  tr_eq : fc_nt_eq c = true -> forall v w, no_throw (fst (fc_eq c v w));
  tr_copy : fc_nt_copy c = true -> forall w, no_throw (fst (fc_copy c w));
  tr_assign : fc_nt_assign c = true -> forall v w, no_throw (fst (fst (fc_assign c v w)))
}.

(** The static_asserts of AssignmentFlagManipulator (optional.h:820-822, 836-838). *)
Definition accepted {W} (c : flagclass W) : bool := fc_nt_eq c && fc_nt_assign c.

Section FlagClass.
  Context {W : Type}.
  Variable E : env W.
  Variable c : flagclass W.

  (** AssignmentFlagManipulator::is_empty (optional.h:816-828) on the flag of [i]. *)
  Definition x_is_empty (i : loc) : M W bool :=
    noexcept_if true
      (r <- get_region i ;;
       if flag_obj r || (pay_obj r && negb (d_sep (dec E i)))
       then p <- call (fc_eq c (sub (d_foff (dec E i)) (d_fsize (dec E i)) (cells r))) ;;
            lift_res p
       else dead NoObject).

  (** AssignmentFlagManipulator::init_empty_flag (optional.h:830-842). *)
  Definition x_init (i : loc) : M W unit :=
    noexcept_if true
      (r <- get_region i ;;
       if negb (d_sep (dec E i)) && (flag_obj r || pay_obj r) then dead LifetimeError
       else
         p <- call (fc_copy c) ;;
         v <- lift_res p ;;
         set_region i (Some (MkRegion (put (d_foff (dec E i)) v (cells r)) true (pay_obj r))) ;;
         (if d_sep (dec E i) then ret tt else log (EvFlagBegin i))).

  (** StorageBase() (optional.h:955-959) and StorageBase::reset (optional.h:1136-1143)
      with these. *)
  Definition x_default (i : loc) : M W unit :=
    alloc E i ;; noexcept_if true (x_init i ;; assert_ E (x_is_empty i)).
  Definition x_reset (i : loc) : M W unit :=
    noexcept_if true
      (e <- x_is_empty i ;;
       if negb e
       then destroy_payload E i ;; x_init i ;; assert_ E (x_is_empty i)
       else ret tt).

  (** Code that does not end in std::terminate and throws nothing. *)
  Definition calm {A} (m : M W A) : Prop :=
    forall s, match fst (m s) with Throw _ | Dead Terminated => False | _ => True end.
  Lemma calm_bind {A B} (m : M W A) (k : A -> M W B) :
    calm m -> (forall a, calm (k a)) -> calm (bind m k).
  Proof.
    intros Hm Hk s. specialize (Hm s). unfold bind. destruct (m s) as [[a|e|f] s']; cbn in *.
    - apply Hk.
    - exact Hm.
    - exact Hm.
  Qed.
  Lemma calm_ret {A} (a : A) : calm (ret a). Proof. intros s. exact I. Qed.
  Lemma calm_dead {A} f : f <> Terminated -> calm (@dead W A f).
  Proof. intros H s. cbn. destruct f; auto. Qed.
  Lemma calm_region i : calm (@get_region W i).
  Proof. intros s. unfold get_region. destruct (mem s i); exact I. Qed.
  Lemma calm_set i r : calm (@set_region W i r). Proof. intros s. exact I. Qed.
  Lemma calm_log e : calm (@log W e). Proof. intros s. exact I. Qed.
  Lemma calm_noexcept {A} (m : M W A) : calm m -> calm (noexcept_if true m).
  Proof.
    intros H s. specialize (H s). unfold noexcept_if. destruct (m s) as [[a|e|f] s']; auto.
  Qed.
  Lemma calm_call {A} (f : W -> res A * W) :
    (forall w, no_throw (fst (f w))) -> calm (p <- call f ;; lift_res p).
  Proof.
    intros H s. specialize (H (world s)). unfold bind, call. destruct (f (world s)) as [[a|e] w'];
      cbn in *; auto.
  Qed.
  Lemma calm_assert m : calm m -> calm (assert_ E m).
  Proof.
    intros H. unfold assert_. destruct (e_dbg E); [|apply calm_ret].
    apply calm_bind; [exact H|]. intros []; [apply calm_ret|apply calm_dead; discriminate].
  Qed.
  Lemma calm_alloc i : calm (alloc E i).
  Proof. intros s. unfold alloc. destruct (mem s i); exact I. Qed.
  Lemma calm_destroy i : calm (destroy_payload E i).
  Proof.
    apply calm_bind; [apply calm_region|]. intros r. destruct (pay_obj r); [|apply calm_dead; discriminate].
    repeat (apply calm_bind; [|intros]); intros s; exact I.
  Qed.

  Lemma calm_is_empty i : (forall v w, no_throw (fst (fc_eq c v w))) -> calm (x_is_empty i).
  Proof.
    intros H. apply calm_noexcept, calm_bind; [apply calm_region|]. intros r.
    destruct (_ || _); [|apply calm_dead; discriminate]. apply calm_call. intros w. apply H.
  Qed.
  Lemma calm_init i : (forall w, no_throw (fst (fc_copy c w))) -> calm (x_init i).
  Proof.
    intros H. apply calm_noexcept, calm_bind; [apply calm_region|]. intros r.
    destruct (_ && _); [apply calm_dead; discriminate|].
    intros s. pose proof (H (world s)) as Hw. unfold bind, call. cbn.
    destruct (fc_copy c (world s)) as [[v|e] w']; cbn in *; [|contradiction].
    destruct (d_sep (dec E i)); exact I.
  Qed.

  (** If the class behaves as pure functions on cells, these are the functions of
      the rest of the model, for the manipulator made of them. *)
  Definition pure_manip : manip -> Prop := fun F =>
    (forall v b w, m_is_empty F v = Some b -> fc_eq c v w = (ROk b, w)) /\
    (forall x w, fc_copy c w = (ROk (m_init F x), w)).

  Lemma x_is_empty_pure i s :
    pure_manip (man E i) -> fst (fm_is_empty E i s) <> Dead IndetRead ->
    x_is_empty i s = fm_is_empty E i s.
  Proof.
    intros (He & _) Hd. revert Hd. unfold x_is_empty, fm_is_empty, noexcept_if, bind, get_region, call.
    destruct (mem s i) as [r|]; [|reflexivity].
    destruct (_ || _); [|reflexivity].
    destruct (m_is_empty (man E i) _) as [b|] eqn:Hm; cbn; intros Hd; [|congruence].
    rewrite (He _ _ _ Hm). destruct s; reflexivity.
  Qed.
  Lemma x_init_pure i s : pure_manip (man E i) -> x_init i s = fm_init E i s.
  Proof.
    intros (_ & Hc). unfold x_init, fm_init, noexcept_if, bind, get_region, call.
    destruct (mem s i) as [r|]; [|reflexivity].
    destruct (negb _ && _); [reflexivity|].
    rewrite (Hc (sub (d_foff (dec E i)) (d_fsize (dec E i)) (cells r))).
    destruct (d_sep (dec E i)); reflexivity.
  Qed.
End FlagClass.

(** ** C52 *)

(** With a noexcept [operator==], which the header enforces, asking for the state
    never terminates the program. *)
Theorem C52_has_value_never_terminates :
  forall W (E : env W) (c : flagclass W) i s,
    truthful c -> accepted c = true -> fst (x_is_empty E c i s) <> Dead Terminated.
Proof.
  intros W E c i s T A. apply andb_prop in A as (A & _).
  pose proof (calm_is_empty E c i (tr_eq c T A) s) as H. intros Hc. rewrite Hc in H. exact H.
Qed.

(** If moreover the copy constructor is noexcept, which the header does not check,
    neither does default construction or reset. *)
Theorem C52_nothrow_copy_suffices :
  forall W (E : env W) (c : flagclass W) i s,
    truthful c -> accepted c = true -> fc_nt_copy c = true ->
    fst (x_default E c i s) <> Dead Terminated /\ fst (x_reset E c i s) <> Dead Terminated.
Proof.
  intros W E c i s T A N. apply andb_prop in A as (A & _).
  pose proof (calm_is_empty E c i (tr_eq c T A)) as He.
  pose proof (calm_init E c i (tr_copy c T N)) as Hi.
  assert (D : calm (x_default E c i)).
  { apply calm_bind; [apply calm_alloc|]. intros _. apply calm_noexcept, calm_bind; [exact Hi|].
    intros _. apply calm_assert, He. }
  assert (R : calm (x_reset E c i)).
  { apply calm_noexcept, calm_bind; [exact He|]. intros e. destruct (negb e); [|apply calm_ret].
    apply calm_bind; [apply calm_destroy|]. intros _. apply calm_bind; [exact Hi|].
    intros _. apply calm_assert, He. }
  split; intros Hc; [specialize (D s)|specialize (R s)]; rewrite Hc in *; assumption.
Qed.

(** Flag classes that behave like values are exactly the manipulators of the rest of
    the model, as long as no indeterminate flag is read. *)
Theorem C52_value_like_flags :
  forall W (E : env W) (c : flagclass W) i s,
    pure_manip c (man E i) ->
    (fst (ctor_default E i s) <> Dead IndetRead -> x_default E c i s = ctor_default E i s) /\
    (fst (reset E i s) <> Dead IndetRead -> x_reset E c i s = reset E i s).
Proof.
  intros W E c i s P. assert (He := fun s => x_is_empty_pure E c i s P).
  assert (Hi := fun s => x_init_pure E c i s P).
  assert (Ha : forall s, fst (assert_ E (not_ (has_value E i)) s) <> Dead IndetRead ->
                 assert_ E (x_is_empty E c i) s = assert_ E (not_ (has_value E i)) s).
  { intros s0. specialize (He s0). revert He. unfold assert_. destruct (e_dbg E); [|reflexivity].
    unfold not_, has_value, bind. destruct (fm_is_empty E i s0) as [[[]|e|f] s1]; cbn; intros He Hd;
      rewrite He; try congruence; reflexivity. }
  split.
  - unfold x_default, ctor_default, storage_default, noexcept_if, bind.
    destruct (alloc E i s) as [[a|e|f] s1]; try reflexivity. rewrite Hi.
    destruct (fm_init E i s1) as [[b|e|f] s2]; try reflexivity. specialize (Ha s2).
    destruct (assert_ E (not_ (has_value E i)) s2) as [[u|e|f] s3] eqn:Hs; cbn in *; intros Hd;
      rewrite Ha by congruence; reflexivity.
  - assert (Hh : has_value E i s =
              match fm_is_empty E i s with
              | (Ok b, s') => (Ok (negb b), s')
              | (Throw e, s') => (Throw e, s')
              | (Dead f, s') => (Dead f, s')
              end) by reflexivity.
    specialize (He s). unfold x_reset, reset, noexcept_if, bind. rewrite Hh.
    destruct (fm_is_empty E i s) as [[b|e|f] s1]; cbn in *; intros Hd; rewrite He by congruence;
      try reflexivity.
    destruct (negb b); [|reflexivity].
    destruct (destroy_payload E i s1) as [[u|e|f] s2]; try reflexivity. rewrite Hi.
    destruct (fm_init E i s2) as [[u'|e|f] s3]; try reflexivity. specialize (Ha s3).
    destruct (assert_ E (not_ (has_value E i)) s3) as [[u2|e|f] s4]; cbn in *;
      rewrite Ha by congruence; reflexivity.
Qed.

(** A flag class with noexcept comparison and assignment, whose copy constructor
    throws when the schedule says so. *)
Definition throwing_flag : flagclass sworld_t :=
  MkFlagClass _ [Atom 0; Atom 0]
    (fun v w => (ROk (match p_is0 v with Some b => b | None => false end), w))
    (fun w => user [Atom 0; Atom 0] w)
    (fun _ w => ((ROk tt, [Atom 0; Atom 0]), w))
    true false true.

Lemma throwing_flag_truthful : truthful throwing_flag.
Proof. split; cbn; intros; try exact I. discriminate. Qed.

(** The header accepts a class for which constructing an empty optional terminates
    the program, and so does reset(), after the payload has been destroyed. *)
Theorem C52_checked_operation_refuted :
  exists (E : env sworld_t) (c : flagclass sworld_t) i w s,
    env_ok E /\ truthful c /\ accepted c = true /\
    fst (x_default E c i (init_state w)) = Dead Terminated /\
    mem s i = Some (MkRegion [Atom 5; Atom 6] false true) /\
    fst (x_reset E c i s) = Dead Terminated /\
    In (EvPayEnd i) (trace (snd (x_reset E c i s))).
Proof.
  exists (sample false), throwing_flag, 10, (plan [Some 1]),
    (MkState (upd (fun _ => None) 10 (Some (MkRegion [Atom 5; Atom 6] false true))) (plan [Some 1]) []).
  split; [apply sample_ok|]. split; [apply throwing_flag_truthful|].
  repeat split; vm_compute; auto.
Qed.

(** The hypotheses of the positive theorems are met by the same class with an
    innocuous copy constructor; it behaves like the manipulator of the sample
    environment. *)
Definition quiet_flag : flagclass sworld_t :=
  MkFlagClass _ [Atom 0; Atom 0]
    (fun v w => (ROk (match p_is0 v with Some b => b | None => false end), w))
    (fun w => (ROk [Atom 0; Atom 0], w))
    (fun _ w => ((ROk tt, [Atom 0; Atom 0]), w))
    true true true.

Example C52_example dbg :
  truthful quiet_flag /\ accepted quiet_flag = true /\
  pure_manip quiet_flag (man (sample dbg) 10) /\
  fst (x_default (sample dbg) quiet_flag 10 (init_state quiet)) = Ok tt /\
  snd (x_default (sample dbg) quiet_flag 10 (init_state quiet)) =
  snd (ctor_default (sample dbg) 10 (init_state quiet)).
Proof.
  split; [split; cbn; intros; exact I|]. split; [reflexivity|].
  split; [split; [|reflexivity]|destruct dbg; split; reflexivity].
  intros v b w H. cbn in *. rewrite H. reflexivity.
Qed.
