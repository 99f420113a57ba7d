(** * TextRuns: histories of calls, executed from the text of optional.h *)

From Coq Require Import Ascii String List NArith ZArith Bool Arith Lia.
From Verif Require Import Cells Machine Optional Program Spec Laws Refine Contract Histories Sample.
From Verif Require Import Syntax Source Exec Texts TextFacts TextPairs TextCompare.
Import ListNotations.

Section Facts.
  Context {W : Type}.
  Variable E : env W.
  Variable m : nat.

  Lemma bind_same {A B} (x y : M W A) (k : A -> M W B) :
    (forall s, x s = y s) -> forall s, bind x k s = bind y k s.
  Proof. intros H s. unfold bind. rewrite H. reflexivity. Qed.

  Lemma text_rel c r L R :
    Forall (fun x => forall s, x s = declared E c r L R s) (rel_texts E m c r L R).
  Proof.
    destruct r; [apply text_REq|apply text_RNe|apply text_RLt|apply text_RLe|apply text_RGt|apply text_RGe].
  Qed.

  Lemma text_compare rt c r L R :
    Forall (fun x => forall s, x s = compare E rt c r L R s) (compare_texts E m rt c r L R).
  Proof.
    destruct rt as [|rev]; cbn [compare_texts compare]; [apply text_rel|].
    destruct r; [apply text_rel|..]; apply Forall_map;
      (eapply Forall_impl; [|first [apply text_rel|apply text_three]]); cbn beta; intros x H;
      unfold not_; apply bind_same; exact H.
  Qed.

  Lemma text_three_way g c L R :
    Forall (fun x => forall s, x s = three_way E g c L R s) (three_way_texts E m g c L R).
  Proof.
    assert (T : forall L R, Forall (fun x => forall s, x s = declared3 E c L R s) (three_texts E m c L R))
      by (intros; apply text_three).
    assert (F : forall L R, Forall (fun x => forall s, x s = (o <- declared3 E c L R ;; ret (flip o)) s)
                  (map (fun x => o <- x ;; ret (flip o)) (three_texts E m c L R))).
    { intros. apply Forall_map. eapply Forall_impl; [|apply T]. cbn beta. intros x H. apply bind_same, H. }
    destruct L as [i|x| |v], R as [j|y| |u]; cbn [three_way three_way_texts];
      try apply Forall_nil; try destruct g;
      match goal with |- context [three_texts E m c ?A ?B] => first [exact (T A B)|exact (F A B)] end.
  Qed.

  Lemma swap_shape b (X Y Z D : M W obs) (x y z d : M W unit) :
    (forall s, X s = (x ;; ret ObUnit) s) -> (forall s, Y s = (y ;; ret ObUnit) s) ->
    (forall s, Z s = (z ;; ret ObUnit) s) -> (forall s, D s = (d ;; ret ObUnit) s) ->
    forall s, noexcept_if b (X ;; on_throw (Y ;; Z) (D ;; ret tt) ;; D) s =
              (noexcept_if b (x ;; on_throw (y ;; z) d ;; d) ;; ret ObUnit) s.
  Proof.
    intros HX HY HZ HD s. unfold noexcept_if, on_throw, bind, ret in *. rewrite HX.
    destruct (x s) as [[?|?|?] s1]; [|destruct b; reflexivity|reflexivity].
    rewrite HY. destruct (y s1) as [[?|?|?] s2].
    - rewrite HZ. destruct (z s2) as [[?|?|?] s3]; [| |reflexivity].
      + rewrite HD. destruct (d s3) as [[?|?|?] s4]; try reflexivity. destruct b; reflexivity.
      + rewrite HD. destruct (d s3) as [[?|?|?] s4]; try reflexivity. destruct b; reflexivity.
    - rewrite HD. destruct (d s2) as [[?|?|?] s4]; try reflexivity. destruct b; reflexivity.
    - reflexivity.
  Qed.

  (** std::swap (not library code) with the text of the move operations. *)
  Lemma text_std_swap i j k : Forall (agree E (OStdSwap i j k)) (texts E m (OStdSwap i j k)).
  Proof.
    unfold texts, typed.
    destruct (Nat.eqb (e_tid E i) (e_tid E j)) eqn:T1; [|apply Forall_nil].
    destruct (Nat.eqb (e_tid E k) (e_tid E i)) eqn:T2; [|apply Forall_nil].
    assert (T3 : Nat.eqb (e_tid E j) (e_tid E k) = true).
    { apply Nat.eqb_eq in T1, T2. apply Nat.eqb_eq. congruence. }
    pose proof (text_move_ctor W E m k i) as C. pose proof (text_move_assign W E m i j) as A1.
    pose proof (text_move_assign W E m j k) as A2. pose proof (text_dtor W E m k) as D.
    unfold texts, typed in C, A1, A2. rewrite T1 in A1. rewrite T2 in C. rewrite T3 in A2.
    unfold texts in D. unfold kinds in *. cbn [map] in *.
    repeat apply Forall_cons; try apply Forall_nil; intro s; unfold std_swap_text; cbn [step];
      unfold unit_, std_swap, same_type; rewrite T1; apply swap_shape; intro s'.
    - exact (Forall_inv C s').
    - exact (Forall_inv A1 s').
    - exact (Forall_inv A2 s').
    - exact (Forall_inv D s').
    - exact (Forall_inv (Forall_inv_tail C) s').
    - exact (Forall_inv (Forall_inv_tail A1) s').
    - exact (Forall_inv (Forall_inv_tail A2) s').
    - exact (Forall_inv (Forall_inv_tail D) s').
  Qed.

  (** ** All calls *)

  Lemma texts_step o : Forall (agree E o) (texts E m o).
  Proof.
    destruct o.
    - apply text_default.
    - apply text_nullopt.
    - apply text_in_place.
    - apply text_copy_ctor.
    - apply text_move_ctor.
    - apply text_dtor.
    - apply text_assign_null.
    - apply text_assign.
    - apply text_copy_assign.
    - apply text_move_assign.
    - apply text_emplace.
    - apply text_reset.
    - apply text_swap.
    - apply text_std_swap.
    - apply text_has_value.
    - apply text_bool.
    - apply text_access.
    - apply text_value_or_copy.
    - apply text_value_or_move.
    - apply text_and_then.
    - apply text_transform.
    - apply text_or_else.
    - unfold texts. apply Forall_map. eapply Forall_impl; [|apply text_compare]. cbn beta.
      intros x H. unfold agree. cbn [step]. apply bind_same, H.
    - unfold texts. apply Forall_map. eapply Forall_impl; [|apply text_three_way]. cbn beta.
      intros x H. unfold agree. cbn [step]. apply bind_same, H.
    - apply text_hash.
    - repeat constructor.
    - repeat constructor.
  Qed.

  (** A call without any text is not a C++ program. *)
  Lemma rel_texts_none c r L R :
    rel_texts E m c r L R = [] -> forall s, declared E c r L R s = (Dead IllTyped, s).
  Proof.
    destruct r, L as [i|x| |v], R as [j|y| |u]; unfold rel_texts; intros H s; try reflexivity; exfalso;
      revert H; viable_functions; discriminate.
  Qed.
  Lemma three_texts_none c L R :
    three_texts E m c L R = [] -> forall s, declared3 E c L R s = (Dead IllTyped, s).
  Proof.
    destruct L as [i|x| |v], R as [j|y| |u]; unfold three_texts; intros H s; try reflexivity; exfalso;
      revert H; viable_functions; discriminate.
  Qed.
  Lemma map_none {A B} (f : A -> B) l : map f l = [] -> l = [].
  Proof. destruct l; [auto|discriminate]. Qed.
  Lemma compare_none rt c r L R :
    compare_texts E m rt c r L R = [] -> forall s, compare E rt c r L R s = (Dead IllTyped, s).
  Proof.
    destruct rt as [|rev]; [exact (rel_texts_none c r L R)|].
    assert (N : rel_texts E m c REq (if rev then R else L) (if rev then L else R) = [] ->
                forall s, declared E c REq (if rev then R else L) (if rev then L else R) s = (Dead IllTyped, s))
      by apply rel_texts_none.
    assert (T : three_texts E m c (if rev then R else L) (if rev then L else R) = [] ->
                forall s, declared3 E c (if rev then R else L) (if rev then L else R) s = (Dead IllTyped, s))
      by apply three_texts_none.
    unfold compare_texts, compare. generalize dependent (rel_texts E m c REq (if rev then R else L) (if rev then L else R)).
    generalize dependent (three_texts E m c (if rev then R else L) (if rev then L else R)).
    intros l T l' N. destruct r; [exact N|..]; intros H s; apply map_none in H; unfold not_, bind;
      first [rewrite (N H)|rewrite (T H)]; reflexivity.
  Qed.
  Lemma three_way_none g c L R :
    three_way_texts E m g c L R = [] -> forall s, three_way E g c L R s = (Dead IllTyped, s).
  Proof.
    assert (T := fun A B => three_texts_none c A B).
    assert (F : forall A B, map (fun x => o <- x ;; ret (flip o)) (three_texts E m c A B) = [] ->
                  forall s, (o <- declared3 E c A B ;; ret (flip o)) s = (Dead IllTyped, s)).
    { intros A B H s. apply map_none in H. unfold bind. rewrite (T A B H). reflexivity. }
    destruct L as [i|x| |v], R as [j|y| |u]; unfold three_way_texts, three_way; try (intros; reflexivity);
      try destruct g;
      match goal with |- context [three_texts E m c ?A ?B] => first [exact (T A B)|exact (F A B)] end.
  Qed.
  Lemma cons_none {A} (l : list A) : l = [] -> match l with [] => True | _ => False end.
  Proof. intros ->. exact I. Qed.
  Lemma texts_none o : texts E m o = [] -> forall s, step E o s = (Dead IllTyped, s).
  Proof.
    assert (Ty : forall i j A (l : list A), l <> [] -> typed E i j l = [] ->
                   Nat.eqb (e_tid E i) (e_tid E j) = false).
    { intros i j A l N. unfold typed. destruct (Nat.eqb _ _); [intros ->; contradiction|reflexivity]. }
    destruct o; unfold texts; intros H s;
      try abstract (apply cons_none in H; exact (False_ind _ H)).
    - apply Ty in H; [|intro N; apply cons_none in N; exact N]. cbn [step]. unfold unit_, ctor_copy, same_type. rewrite H. reflexivity.
    - apply Ty in H; [|intro N; apply cons_none in N; exact N]. cbn [step]. unfold unit_, ctor_move, same_type. rewrite H. reflexivity.
    - apply Ty in H; [|intro N; apply cons_none in N; exact N]. cbn [step]. unfold unit_, assign_copy, same_type. rewrite H. reflexivity.
    - apply Ty in H; [|intro N; apply cons_none in N; exact N]. cbn [step]. unfold unit_, assign_move, same_type. rewrite H. reflexivity.
    - apply Ty in H; [|intro N; apply cons_none in N; exact N]. cbn [step]. unfold unit_, swap, same_type. rewrite H. reflexivity.
    - cbn [step]. unfold unit_, std_swap, same_type.
      destruct (Nat.eqb (e_tid E i) (e_tid E j)) eqn:T; [|reflexivity].
      unfold typed in H at 1. rewrite T in H. apply Ty in H; [|intro N; apply cons_none in N; exact N].
      unfold ctor_move, same_type, bind at 1, noexcept_if, bind at 1. rewrite H. reflexivity.
    - apply Ty in H; [|intro N; apply cons_none in N; destruct mv; exact N].
      cbn [step]. unfold unit_, or_else, same_type. rewrite H. reflexivity.
    - apply map_none in H. cbn [step]. unfold bool_, bind. rewrite (compare_none _ _ _ _ _ H). reflexivity.
    - apply map_none in H. cbn [step]. unfold bind. rewrite (three_way_none _ _ _ _ H). reflexivity.
  Qed.
End Facts.

(** * Histories, every call of which executes the text *)

(** The calls of [p] are made one after the other; each is written in one of the ways
    that C++ allows and executed from the text of the header.  An exception that leaves a
    call is observed by the client, who goes on; undefined behaviour ends the run. *)
Inductive text_run {W} (E : env W) (m : nat)
  : list (op W) -> state W -> list obs + fault -> state W -> Prop :=
| text_end s : text_run E m [] s (inl []) s
| text_ok o x p s ob s1 r s2 :
    In x (texts E m o) -> x s = (Ok ob, s1) -> text_run E m p s1 r s2 ->
    text_run E m (o :: p) s (match r with inl xs => inl (ob :: xs) | inr f => inr f end) s2
| text_throw o x p s e s1 r s2 :
    In x (texts E m o) -> x s = (Throw e, s1) -> text_run E m p s1 r s2 ->
    text_run E m (o :: p) s (match r with inl xs => inl (ObThrow e :: xs) | inr f => inr f end) s2
| text_dead o x p s f s1 :
    In x (texts E m o) -> x s = (Dead f, s1) -> text_run E m (o :: p) s (inr f) s1.

(** ** The text does what the model says, whatever the state, and has no other ways *)

Theorem C71_text_is_model :
  forall W (E : env W) m (o : op W) x s, In x (texts E m o) -> x s = step E o s.
Proof.
  intros W E m o x s H. pose proof (texts_step E m o) as F. rewrite Forall_forall in F. exact (F x H s).
Qed.

Lemma text_run_run {W} (E : env W) m p s r s' : text_run E m p s r s' -> run E p s = (r, s').
Proof.
  intros H. induction H as [s|o x p s ob s1 r s2 Hx Hs Hr IH|o x p s e s1 r s2 Hx Hs Hr IH
                           |o x p s f s1 Hx Hs]; cbn [run]; [reflexivity|..];
    rewrite (C71_text_is_model W E m o x s Hx) in Hs; rewrite Hs; try rewrite IH; reflexivity.
Qed.

Lemma run_text_run {W} (E : env W) m p : forall s r s',
  run E p s = (r, s') -> r <> inr IllTyped -> text_run E m p s r s'.
Proof.
  induction p as [|o p IH]; intros s r s' H N; cbn [run] in H.
  - injection H as <- <-. constructor.
  - destruct (texts E m o) as [|x l] eqn:T.
    { rewrite (texts_none E m o T s) in H. injection H as <- <-. contradiction. }
    assert (I : In x (texts E m o)) by (rewrite T; left; reflexivity).
    pose proof (C71_text_is_model W E m o x s I) as X.
    destruct (step E o s) as [[ob|e|f] s1] eqn:S1.
    + destruct (run E p s1) as [r1 s2] eqn:R1. injection H as <- <-.
      eapply text_ok; [exact I|exact X|]. apply IH; [exact R1|].
      intros ->. apply N. reflexivity.
    + destruct (run E p s1) as [r1 s2] eqn:R1. injection H as <- <-.
      eapply text_throw; [exact I|exact X|]. apply IH; [exact R1|].
      intros ->. apply N. reflexivity.
    + injection H as <- <-. eapply text_dead; [exact I|exact X].
Qed.

(** ** Every history: what the text does is determined, and it can be written *)

Theorem C71_text_deterministic :
  forall W (E : env W) m m' p s r r' s1 s2,
    text_run E m p s r s1 -> text_run E m' p s r' s2 -> r = r' /\ s1 = s2.
Proof.
  intros W E m m' p s r r' s1 s2 H H'. apply text_run_run in H. apply text_run_run in H'.
  rewrite H in H'. injection H' as -> ->. auto.
Qed.

(** A history within std::optional's contract, written with the header in any of the
    ways that C++ allows: its text yields the observations of std::optional and leaves
    the optionals with its values; and there is a way to write it. *)
Theorem C71_text_refines_std :
  forall W (E : env W) m (w : W) (p : list (op W)) xs t,
    env_ok E -> Forall op_ok p -> std_run E w p = (Some xs, t) ->
    (exists r s, text_run E m p (init_state w) r s) /\
    forall r s, text_run E m p (init_state w) r s ->
      r = inl xs /\ world s = sworld t /\
      forall i,
        match objs t i with
        | Some (SOpt o) => peek E i s = Some o
        | Some (SVar v) => load_payload E i s = (Ok v, s)
        | None => mem s i = None
        end.
Proof.
  intros W E m w p xs t HE Hp H.
  destruct (C01_history_refines_std W E w p xs t HE Hp H) as (s & R & Hw & Ho). split.
  - exists (inl xs), s. apply run_text_run; [exact R|discriminate].
  - intros r s' T. apply text_run_run in T. rewrite R in T. injection T as <- <-. auto.
Qed.

(** The history of [C01_example] meets the hypotheses. *)
Example C71_refines_example dbg m :
  exists xs t, std_run (sample dbg) demo_world demo = (Some xs, t) /\
  exists s, text_run (sample dbg) m demo (init_state demo_world) (inl xs) s.
Proof.
  destruct (C01_example dbg) as (Ho & xs & t & H). exists xs, t. split; [exact H|].
  destruct (C71_text_refines_std _ _ m _ _ _ _ (sample_ok dbg) Ho H) as ((r & s & T) & U).
  destruct (U r s T) as (-> & _). exists s. exact T.
Qed.

(** The overloads that differ only in [explicit] have the same text. *)
Example C71_explicit_same :
  f_body f1484_TinyOptionalImpl = f_body f1493_TinyOptionalImpl.
Proof. reflexivity. Qed.

(** The interpreter at work: the first text of every call of [demo], evaluated. *)
Fixpoint first_texts {W} (E : env W) (p : list (op W)) (s : state W) : list obs :=
  match p with
  | [] => []
  | o :: p' =>
      match texts E 0 o with
      | x :: _ => match x s with
                  | (Ok ob, s') => ob :: first_texts E p' s'
                  | (Throw e, s') => ObThrow e :: first_texts E p' s'
                  | (Dead _, _) => []
                  end
      | [] => []
      end
  end.
Example C71_evaluated :
  first_texts (sample true) demo (init_state demo_world) =
  [ObUnit; ObUnit; ObUnit; ObThrow (UserExn 4); ObUnit; ObUnit; ObThrow (UserExn 5); ObUnit;
   ObThrow (UserExn 3); ObUnit; ObUnit; ObUnit; ObUnit; ObBool true; ObVal [Atom 8; Atom 9];
   ObUnit; ObUnit; ObUnit; ObBool true].
Proof. vm_compute. reflexivity. Qed.

(** In how many ways some of the calls can be written. *)
Example C71_ways {W} (E : env W) m n :
  length (texts E m (ODefault 0)) = 2 /\ length (texts E m (OInPlace 0 n)) = 12 /\
  length (texts E m (OHasValue 0)) = 8 /\ length (texts E m (OCopyAssign 0 0)) = 6 /\
  length (texts E m (OSwap 0 0)) = 3 /\
  length (texts E m (OCompare RtDirect no_cmp REq (OpTiny 0) (OpVal []))) = 1.
Proof.
  unfold texts, typed. rewrite !Nat.eqb_refl. repeat split; lazy; reflexivity.
Qed.

Print Assumptions C71_text_is_model.
Print Assumptions C71_text_deterministic.
Print Assumptions C71_text_refines_std.
