(** * Lifetime: accounting of payload and flag objects

    The trace of lifetime events of every run, whatever the program does, follows
    at each location a small automaton: nothing alive -> flag alive -> nothing
    alive -> payload alive -> nothing alive -> ... *)

From Coq Require Import List NArith ZArith Bool Arith Lia.
From Verif Require Import Cells Machine Optional Program Effects.
Import ListNotations.

Local Arguments put : simpl never.
Local Arguments sub : simpl never.

(** What is alive at a location (a separate bool flag is not counted: it lives
    exactly as long as the storage). *)
Inductive life : Type := LNone | LFlag | LPay.

(** The automaton; [None]: protocol violation (something is constructed on top of
    a live object, destroyed twice, or destroyed without having been
    constructed). *)
Definition life_step (i : loc) (e : event) (l : life) : option life :=
  match e, l with
  | EvPayBegin j, LNone => if Nat.eqb i j then Some LPay else Some l
  | EvPayEnd j, LPay => if Nat.eqb i j then Some LNone else Some l
  | EvPayAbandoned j, LPay => if Nat.eqb i j then Some LNone else Some l
  | EvFlagBegin j, LNone => if Nat.eqb i j then Some LFlag else Some l
  | EvFlagEnd j, LFlag => if Nat.eqb i j then Some LNone else Some l
  | EvFlagAbandoned j, LFlag => if Nat.eqb i j then Some LNone else Some l
  | EvPayBegin j, _ | EvPayEnd j, _ | EvPayAbandoned j, _
  | EvFlagBegin j, _ | EvFlagEnd j, _ | EvFlagAbandoned j, _ =>
      if Nat.eqb i j then None else Some l
  end.

(** Run the automaton for location [i] over a trace (newest event first). *)
Fixpoint life_of (i : loc) (tr : list event) : option life :=
  match tr with
  | [] => Some LNone
  | e :: tr' => match life_of i tr' with Some l => life_step i e l | None => None end
  end.

(** Number of events of a kind. *)
Definition is_pay_begin (i : loc) (e : event) : bool :=
  match e with EvPayBegin j => Nat.eqb i j | _ => false end.
Definition is_pay_end (i : loc) (e : event) : bool :=
  match e with EvPayEnd j => Nat.eqb i j | _ => false end.
Definition is_pay_abandoned (i : loc) (e : event) : bool :=
  match e with EvPayAbandoned j => Nat.eqb i j | _ => false end.
Definition is_flag_begin (i : loc) (e : event) : bool :=
  match e with EvFlagBegin j => Nat.eqb i j | _ => false end.
Definition is_flag_end (i : loc) (e : event) : bool :=
  match e with EvFlagEnd j => Nat.eqb i j | _ => false end.
Definition is_flag_abandoned (i : loc) (e : event) : bool :=
  match e with EvFlagAbandoned j => Nat.eqb i j | _ => false end.
Definition count (f : event -> bool) (tr : list event) : nat := length (filter f tr).

Definition pay_alive (l : life) : nat := match l with LPay => 1 | _ => 0 end.
Definition flag_alive (l : life) : nat := match l with LFlag => 1 | _ => 0 end.

Lemma life_balance i tr l :
  life_of i tr = Some l ->
  count (is_pay_begin i) tr =
    count (is_pay_end i) tr + count (is_pay_abandoned i) tr + pay_alive l /\
  count (is_flag_begin i) tr =
    count (is_flag_end i) tr + count (is_flag_abandoned i) tr + flag_alive l.
Proof.
  revert l. induction tr as [|e tr IH]; intros l H.
  - injection H as <-. cbn. lia.
  - cbn in H. destruct (life_of i tr) as [l0|]; [|discriminate].
    destruct (IH l0 eq_refl) as (H1 & H2). unfold count in *. clear IH.
    destruct e as [j|j|j|j|j|j], l0; cbn in H |- *; destruct (Nat.eqb i j); try discriminate;
      injection H as <-; cbn in *; lia.
Qed.

Section Lifetime.
  Context {W : Type}.
  Variable E : env W.

  (** What the machine state says is alive at [i]. *)
  Definition current (s : state W) (i : loc) : life :=
    match mem s i with
    | None => LNone
    | Some r => if pay_obj r then LPay
                else if flag_obj r && negb (d_sep (dec E i)) then LFlag else LNone
    end.

  Definition accounted (s : state W) : Prop :=
    forall i, life_of i (trace s) = Some (current s i) /\
      match mem s i with
      | Some r => pay_obj r && flag_obj r && negb (d_sep (dec E i)) = false
      | None => True
      end.

  Lemma life_step_other i j e l :
    match e with EvPayBegin k | EvPayEnd k | EvPayAbandoned k
               | EvFlagBegin k | EvFlagEnd k | EvFlagAbandoned k => k = j end ->
    i <> j -> life_step i e l = Some l.
  Proof.
    intros He N. destruct e as [k|k|k|k|k|k]; subst k; destruct l; cbn;
      destruct (Nat.eqb_spec i j); congruence.
  Qed.

  (** A change of region [i] together with the events that explain it. *)
  Lemma accounted_upd s i x w tr :
    accounted s ->
    (forall j, j <> i -> life_of j tr = life_of j (trace s)) ->
    life_of i tr = Some (current (MkState (upd (mem s) i x) w tr) i) ->
    match x with
    | Some r => pay_obj r && flag_obj r && negb (d_sep (dec E i)) = false
    | None => True
    end ->
    accounted (MkState (upd (mem s) i x) w tr).
  Proof.
    intros H Ho Hi Hx j. destruct (Nat.eq_dec i j) as [<-|N].
    - split; [exact Hi|]. cbn. unfold upd. rewrite Nat.eqb_refl. exact Hx.
    - destruct (H j) as (H1 & H2). cbn. unfold current in *. cbn. unfold upd.
      destruct (Nat.eqb_spec i j); [contradiction|]. split; [|exact H2].
      rewrite Ho by congruence. exact H1.
  Qed.

  Definition pres (s s' : state W) : Prop := accounted s -> accounted s'.

  Lemma current_upd (s : state W) i x w tr :
    current (MkState (upd (mem s) i x) w tr) i =
    match x with
    | None => LNone
    | Some r => if pay_obj r then LPay
                else if flag_obj r && negb (d_sep (dec E i)) then LFlag else LNone
    end.
  Proof. unfold current. cbn. unfold upd. rewrite Nat.eqb_refl. reflexivity. Qed.

  Lemma life_of_same j e tr i :
    match e with EvPayBegin k | EvPayEnd k | EvPayAbandoned k
               | EvFlagBegin k | EvFlagEnd k | EvFlagAbandoned k => k = i end ->
    j <> i -> life_of j (e :: tr) = life_of j tr.
  Proof.
    intros He N. cbn. destruct (life_of j tr); [|reflexivity].
    apply (life_step_other j i); auto.
  Qed.

  Ltac crunch i H :=
    let H1 := fresh in let H2 := fresh in
    destruct (H i) as (H1 & H2); unfold current in H1;
    repeat match goal with
           | Hm : mem _ i = _ |- _ => rewrite Hm in H1, H2
           end.

  Ltac finish :=
    match goal with
    | H1 : life_of ?i _ = Some _ |- _ =>
        cbn in *; rewrite ?H1; cbn; rewrite ?Nat.eqb_refl; cbn; try reflexivity; try assumption
    end.

  Lemma respects_life : respects E pres (fun _ => True) (fun _ => True).
  Proof.
    split; unfold pres.
    - auto.
    - auto.
    - intros s w H i. exact (H i).
    - (* store *)
      intros i v _ s H. unfold store_payload, bind, get_region, set_region, dead.
      destruct (mem s i) as [r|] eqn:Hm; [|exact H].
      destruct (pay_obj r) eqn:Hp; [|exact H]. destruct (Nat.eqb _ _); [|exact H]. cbn.
      crunch i H. apply accounted_upd; auto; rewrite ?current_upd, Hp in *; finish.
    - (* init *)
      intros i _ s H. unfold fm_init, bind, get_region, set_region, dead, log, ret.
      destruct (mem s i) as [r|] eqn:Hm; [|exact H].
      destruct (negb (d_sep (dec E i)) && (flag_obj r || pay_obj r)) eqn:Hc; [exact H|].
      crunch i H. destruct (d_sep (dec E i)) eqn:Sep; cbn.
      + apply accounted_upd; auto; rewrite ?current_upd, ?Sep in *; cbn in *;
          rewrite ?andb_false_r in *; auto.
      + cbn in Hc. apply orb_false_iff in Hc as (Hf & Hp).
        apply accounted_upd; auto.
        * intros j N. apply (life_of_same j _ _ i); [reflexivity|exact N].
        * rewrite current_upd. cbn. rewrite Hp, Hf in *. cbn in *. finish.
          rewrite Sep. reflexivity.
        * cbn. rewrite Hp. reflexivity.
    - (* invalidate *)
      intros i _ s H. unfold fm_invalidate, bind, get_region, set_region, dead, log, ret.
      destruct (mem s i) as [r|] eqn:Hm; [|exact H].
      destruct (flag_obj r) eqn:Hf; [|exact H].
      match goal with |- context [if ?b then _ else _] => destruct b end; [|exact H].
      crunch i H. destruct (d_sep (dec E i)) eqn:Sep; cbn.
      + apply accounted_upd; auto; rewrite ?current_upd, ?Sep, ?Hf in *; cbn in *;
          rewrite ?andb_false_r in *; auto.
      + rewrite Hf in *. cbn in H0, H1. rewrite !andb_true_r in H1. rewrite H1 in H0. cbn in H0.
        apply accounted_upd; auto.
        * intros j N. apply (life_of_same j _ _ i); [reflexivity|exact N].
        * rewrite current_upd. cbn. rewrite H0. cbn. rewrite Nat.eqb_refl, H1. reflexivity.
        * cbn. rewrite H1. reflexivity.
    - (* payload begins *)
      intros i v _ s H. unfold begin_payload, bind, get_region, set_region, dead, log, ret.
      destruct (mem s i) as [r|] eqn:Hm; [|exact H].
      destruct (pay_obj r || (flag_obj r && negb (d_sep (dec E i)))) eqn:Hc; [exact H|].
      destruct (Nat.eqb _ _); [|exact H]. cbn. crunch i H.
      apply orb_false_iff in Hc as (Hp & Hf). rewrite Hp, Hf in *.
      apply accounted_upd; auto.
      * intros j N. apply (life_of_same j _ _ i); [reflexivity|exact N].
      * rewrite current_upd. cbn. rewrite H0. cbn. rewrite Nat.eqb_refl. reflexivity.
    - (* payload ends *)
      intros i _ s H. unfold destroy_payload, bind, get_region, set_region, dead, log, ret, call.
      destruct (mem s i) as [r|] eqn:Hm; [|exact H].
      destruct (pay_obj r) eqn:Hp; [|exact H]. cbn. crunch i H.
      apply accounted_upd; auto.
      * intros j N. apply (life_of_same j _ _ i); [reflexivity|exact N].
      * rewrite current_upd. rewrite Hp in *. cbn in H1 |- *. rewrite H0. cbn.
        rewrite Nat.eqb_refl, H1. reflexivity.
    - (* alloc *)
      intros i _ s H. unfold alloc, set_region.
      destruct (mem s i) as [r|] eqn:Hm; [exact H|]. cbn. crunch i H.
      apply accounted_upd; auto. rewrite current_upd. cbn. rewrite andb_negb_r. exact H0.
    - (* dealloc *)
      intros i _ _ s H. unfold dealloc, bind, get_region, set_region, dead, log, ret.
      destruct (mem s i) as [r|] eqn:Hm; [|exact H]. crunch i H.
      destruct (pay_obj r) eqn:Hp; cbn in *.
      + rewrite H1. cbn. apply accounted_upd; auto.
        * intros j N. apply (life_of_same j _ _ i); [reflexivity|exact N].
        * rewrite current_upd. cbn. rewrite H0. cbn. rewrite Nat.eqb_refl. reflexivity.
      + destruct (flag_obj r && negb (d_sep (dec E i))); cbn; apply accounted_upd; auto.
        * intros j N. apply (life_of_same j _ _ i); [reflexivity|exact N].
        * rewrite current_upd. cbn. rewrite H0. cbn. rewrite Nat.eqb_refl. reflexivity.
        * rewrite current_upd. exact H0.
    - (* new variable *)
      intros i v _ s H. unfold var_new, bind, set_region, log.
      destruct (mem s i) as [r|] eqn:Hm; [exact H|]. destruct (Nat.eqb _ _); [|exact H]. cbn.
      crunch i H. apply accounted_upd; auto.
      * intros j N. apply (life_of_same j _ _ i); [reflexivity|exact N].
      * rewrite current_upd. cbn. rewrite H0. cbn. rewrite Nat.eqb_refl. reflexivity.
    - (* drop variable *)
      intros i _ s H. unfold var_drop, load_payload, bind, get_region, set_region, dead, log, ret, call.
      destruct (mem s i) as [r|] eqn:Hm; [|exact H].
      destruct (pay_obj r) eqn:Hp; [|exact H]. cbn. crunch i H. rewrite Hp in *.
      apply accounted_upd; auto.
      * intros j N. apply (life_of_same j _ _ i); [reflexivity|exact N].
      * rewrite current_upd. cbn. rewrite H0. cbn. rewrite Nat.eqb_refl. reflexivity.
  Qed.

  Lemma step_accounted o s : accounted s -> accounted (snd (step E o s)).
  Proof.
    intros H. refine (step_holds E pres _ _ respects_life o _ _ s H); intros; exact I.
  Qed.
  Lemma init_accounted w : accounted (init_state w).
  Proof. intros i. split; [reflexivity|exact I]. Qed.
  Lemma run_accounted p s : accounted s -> accounted (snd (run E p s)).
  Proof.
    revert s. induction p as [|o p IH]; intros s H; [exact H|]. cbn [run].
    pose proof (step_accounted o s H) as Hs.
    destruct (step E o s) as [[x|e|f] s']; cbn in Hs; [| |exact Hs];
      specialize (IH s' Hs); destruct (run E p s') as [r s'']; exact IH.
  Qed.

  (** ** Abandoned flags arise only where storage ends *)

  Definition abandons_at (i : loc) (s s' : state W) : Prop :=
    count (is_flag_abandoned i) (trace s') = count (is_flag_abandoned i) (trace s) /\
    count (is_pay_abandoned i) (trace s') = count (is_pay_abandoned i) (trace s).

  Lemma respects_abandon i : respects E (abandons_at i) (fun _ => True) (fun j => j <> i).
  Proof.
    assert (Dif : forall e tr, match e with EvFlagAbandoned j | EvPayAbandoned j => j <> i | _ => True end ->
      count (is_flag_abandoned i) (e :: tr) = count (is_flag_abandoned i) tr /\
      count (is_pay_abandoned i) (e :: tr) = count (is_pay_abandoned i) tr).
    { intros e tr He. unfold count. destruct e as [j|j|j|j|j|j]; cbn; auto;
        destruct (Nat.eqb_spec i j); subst; auto; contradiction. }
    split; unfold abandons_at; auto.
    - intros s1 s2 s3 (A & B) (C & D). split; congruence.
    - intros j v _ s. unfold store_payload, bind, get_region, set_region, dead.
      destruct (mem s j) as [r|]; [|auto]. destruct (pay_obj r); [|auto].
      destruct (Nat.eqb _ _); auto.
    - intros j _ s. unfold fm_init, bind, get_region, set_region, dead, log, ret.
      destruct (mem s j) as [r|]; [|auto]. destruct (_ && _); [auto|].
      destruct (d_sep _); cbn; auto; apply Dif; exact I.
    - intros j _ s. unfold fm_invalidate, bind, get_region, set_region, dead, log, ret.
      destruct (mem s j) as [r|]; [|auto]. destruct (flag_obj r); [|auto].
      destruct (_ || _); [|auto]. destruct (d_sep _); cbn; auto; apply Dif; exact I.
    - intros j v _ s. unfold begin_payload, bind, get_region, set_region, dead, log, ret.
      destruct (mem s j) as [r|]; [|auto]. destruct (_ || _); [auto|].
      destruct (Nat.eqb _ _); cbn; auto; apply Dif; exact I.
    - intros j _ s. unfold destroy_payload, bind, get_region, set_region, dead, log, ret, call.
      destruct (mem s j) as [r|]; [|auto]. destruct (pay_obj r); cbn; auto; apply Dif; exact I.
    - intros j _ s. unfold alloc, set_region. destruct (mem s j); auto.
    - intros j _ N s. unfold dealloc, bind, get_region, set_region, dead, log, ret.
      destruct (mem s j) as [r|]; [|auto].
      destruct (pay_obj r), (flag_obj r && _); cbn; auto.
      all: unfold count; cbn; destruct (Nat.eqb_spec i j); try (subst; contradiction); auto.
    - intros j v _ s. unfold var_new, bind, set_region, log.
      destruct (mem s j); [auto|]. destruct (Nat.eqb _ _); cbn; auto; apply Dif; exact I.
    - intros j _ s. unfold var_drop, load_payload, bind, get_region, set_region, dead, log, ret, call.
      destruct (mem s j) as [r|]; [|auto]. destruct (pay_obj r); cbn; auto; apply Dif; exact I.
  Qed.

  Lemma step_abandons o s i :
    ~ In i (drops o) -> abandons_at i s (snd (step E o s)).
  Proof.
    intros N. refine (step_holds E (abandons_at i) _ _ (respects_abandon i) o _ _ s).
    - intros; exact I.
    - intros j Hj ->. exact (N Hj).
  Qed.
End Lifetime.
