(** * Clients: programs that use optionals (C59)

    The other theorems speak about histories, that is, lists of calls.  Here the client is a
    program with local state, loops, conditionals, exceptions that propagate and are
    caught, automatic variables that are destroyed at the end of their block, and
    (recursive) functions.  Which calls it makes may depend on everything that it saw
    before.  The program runs either with tiny optionals or with std::optional. *)

From Coq Require Import List NArith ZArith Bool Arith Lia.
From Verif Require Import Cells CellsFacts Machine Optional Program Spec Laws Refine Contract
  Effects Frame Lifetime Bits Manip Sample Histories ExampleTac.
Import ListNotations.

(** ** The language *)

(** [L]: the client's local state; [W]: the state of the user code behind the payload
    type, which the client may look at. *)
Inductive stmt (W L : Type) : Type :=
| CSkip
| CLet (f : L -> W -> L)                              (* computation *)
| CCall (o : L -> W -> op W) (k : obs -> L -> L)      (* a call and the use of its result *)
| CSeq (a b : stmt W L)
| CIf (c : L -> bool) (a b : stmt W L)
| CWhile (c : L -> bool) (a : stmt W L)
| CTry (a : stmt W L) (h : exn -> stmt W L)           (* try a catch (e) h(e) *)
| CThrow (e : L -> exn)
| CBlock (i : L -> loc) (v : bool) (init a : stmt W L)
                 (* { optional i = init; a }, or { T i = init; a } if [v]; [init] creates [i] *)
| CResult (i : L -> loc) (v : bool) (init a : stmt W L)
                 (* in a function that returns [i] by value: optional i = init; a; return i;
                    the result object is [i] itself (copy elision) *)
| CProc (p : nat) (arg : L -> L) (ret : L -> L -> L). (* call of a function of the client *)
Arguments CSkip {W L}.
Arguments CLet {W L} f.
Arguments CCall {W L} o k.
Arguments CSeq {W L} a b.
Arguments CIf {W L} c a b.
Arguments CWhile {W L} c a.
Arguments CTry {W L} a h.
Arguments CThrow {W L} e.
Arguments CBlock {W L} i v init a.
Arguments CResult {W L} i v init a.
Arguments CProc {W L} p arg ret.

(** How a statement ends: normally, by an exception, with undefined behaviour (or
    termination), or not within the given number of steps. *)
Inductive flow (L : Type) : Type :=
| FNorm (l : L) | FExn (e : exn) (l : L) | FBad | FMore.
Arguments FNorm {L} l.
Arguments FExn {L} e l.
Arguments FBad {L}.
Arguments FMore {L}.

(** The end of the lifetime of an automatic variable: of an optional, or of a variable of
    the payload type. *)
Definition closing {W} (v : bool) (i : loc) : op W := if v then OVarDrop i else ODtor i.

Section Exec.
  Context {W L St : Type}.
  (** The machine that executes calls. *)
  Variable call : op W -> St -> out obs * St.
  Variable look : St -> W.
  Variable procs : nat -> stmt W L.

  (** [n] bounds the depth of the evaluation; the theorems hold for every [n]. *)
  Fixpoint exec (n : nat) (c : stmt W L) (l : L) (s : St) : flow L * St :=
    match n with
    | 0 => (FMore, s)
    | Datatypes.S n =>
        match c with
        | CSkip => (FNorm l, s)
        | CLet f => (FNorm (f l (look s)), s)
        | CCall o k =>
            match call (o l (look s)) s with
            | (Ok x, s') => (FNorm (k x l), s')
            | (Throw e, s') => (FExn e l, s')
            | (Dead _, s') => (FBad, s')
            end
        | CSeq a b =>
            match exec n a l s with
            | (FNorm l', s') => exec n b l' s'
            | r => r
            end
        | CIf b x y => if b l then exec n x l s else exec n y l s
        | CWhile b x =>
            if b l then
              match exec n x l s with
              | (FNorm l', s') => exec n (CWhile b x) l' s'
              | r => r
              end
            else (FNorm l, s)
        | CTry x h =>
            match exec n x l s with
            | (FExn e l', s') => exec n (h e) l' s'
            | r => r
            end
        | CThrow e => (FExn (e l) l, s)
        | CBlock i v init x =>
            match exec n init l s with
            | (FNorm l1, s1) =>
                let (r, s2) := exec n x l1 s1 in
                match r with
                | FNorm _ | FExn _ _ =>
                    (* the destructor runs at the end and during stack unwinding *)
                    match call (closing v (i l)) s2 with
                    | (Ok _, s3) => (r, s3)
                    | (_, s3) => (FBad, s3)
                    end
                | _ => (r, s2)
                end
            | r => r
            end
        | CResult i v init x =>
            match exec n init l s with
            | (FNorm l1, s1) =>
                let (r, s2) := exec n x l1 s1 in
                match r with
                | FExn _ _ =>
                    match call (closing v (i l)) s2 with
                    | (Ok _, s3) => (r, s3)
                    | (_, s3) => (FBad, s3)
                    end
                | _ => (r, s2)
                end
            | r => r
            end
        | CProc p arg ret =>
            match exec n (procs p) (arg l) s with
            | (FNorm l', s') => (FNorm (ret l l'), s')
            | (FExn e l', s') => (FExn e (ret l l'), s')
            | r => r
            end
        end
    end.
End Exec.

(** With tiny optionals. *)
Definition exec_tiny {W L} (E : env W) (procs : nat -> stmt W L) :
  nat -> stmt W L -> L -> state W -> flow L * state W :=
  exec (step E) world procs.
(** With std::optional; a call with undefined behaviour is a fault. *)
Definition std_call {W} (E : env W) (o : op W) (t : sstate W) : out obs * sstate W :=
  match sstep (e_tid E) (ops E) (storable E) (is_value E) o t with
  | (SOk x, t') => (Ok x, t')
  | (SThrow e, t') => (Throw e, t')
  | (SUndef, t') => (Dead NoObject, t')
  end.
Definition exec_std {W L} (E : env W) (procs : nat -> stmt W L) :
  nat -> stmt W L -> L -> sstate W -> flow L * sstate W :=
  exec (std_call E) sworld procs.

(** All calls in the program are of the kind [op_ok]: declared nothrow operations do not
    throw (Laws.v). *)
Fixpoint stmt_ok {W L} (c : stmt W L) : Prop :=
  match c with
  | CSkip | CLet _ | CThrow _ | CProc _ _ _ => True
  | CCall o _ => forall l w, op_ok (o l w)
  | CSeq a b | CIf _ a b => stmt_ok a /\ stmt_ok b
  | CWhile _ a => stmt_ok a
  | CTry a h => stmt_ok a /\ forall e, stmt_ok (h e)
  | CBlock _ _ a b | CResult _ _ a b => stmt_ok a /\ stmt_ok b
  end.

(** ** No program can tell the difference *)

Section Simulation.
  Context {W L : Type}.
  Variable E : env W.
  Variable procs : nat -> stmt W L.
  Hypothesis HE : env_ok E.
  Hypothesis Hprocs : forall p, stmt_ok (procs p).

  Notation srun' := (srun (e_tid E) (ops E) (storable E) (is_value E)).

  (** From [s] and [t] the same history leads to [s'] and [t']. *)
  Definition together (s : state W) (t : sstate W) (s' : state W) (t' : sstate W) : Prop :=
    rel E NoHole s' t' /\
    exists p xs, Forall op_ok p /\ srun' p t = (Some xs, t') /\ run E p s = (inl xs, s').
  Lemma t_none s t : rel E NoHole s t -> together s t s t.
  Proof. intros R. split; [exact R|]. exists [], []. split; [constructor|split; reflexivity]. Qed.
  Lemma t_app s t s1 t1 s2 t2 : together s t s1 t1 -> together s1 t1 s2 t2 -> together s t s2 t2.
  Proof.
    intros (_ & p & xs & Hp & H1 & H2) (R & q & ys & Hq & H3 & H4). split; [exact R|].
    exists (p ++ q), (xs ++ ys). split; [apply Forall_app; auto|]. split.
    - rewrite (srun_app E), H1, H3. reflexivity.
    - rewrite (run_app E), H2, H4. reflexivity.
  Qed.

  (** One call: the same outcome, and it extends the history by that call. *)
  Lemma call_sim o s t :
    op_ok o -> rel E NoHole s t ->
    match std_call E o t with
    | (Dead _, _) => True
    | (r, t') => exists s', step E o s = (r, s') /\ together s t s' t'
    end.
  Proof.
    intros Ho R. pose proof (refines_step E HE o Ho s t R) as A. unfold agrees, std_call in *.
    destruct (sstep _ _ _ _ o t) as [[x|e|] t'] eqn:Hs; [| |exact I];
      destruct A as (s' & H & R'); (exists s'; split; [exact H|]); (split; [exact R'|]);
      exists [o]; eexists; (split; [constructor; [exact Ho|constructor]|]);
      cbn [srun run]; rewrite Hs, H; cbn; split; reflexivity.
  Qed.

  Lemma closing_ok v i : op_ok (@closing W v i).
  Proof. destruct v; exact I. Qed.
  Lemma exec_sim n : forall c l s t,
    stmt_ok c -> rel E NoHole s t ->
    match exec_std E procs n c l t with
    | (FBad, _) => True
    | (f, t') => exists s', exec_tiny E procs n c l s = (f, s') /\ together s t s' t'
    end.
  Proof.
    induction n as [|n IH]; intros c l s t Hc R; [exists s; split; [reflexivity|apply t_none, R]|].
    assert (Hw : world s = sworld t) by apply R.
    unfold exec_std, exec_tiny in *. destruct c as [|g|o k|c1 c2|b c1 c2|b c1|c h|e|i v ci c|i v ci c|p arg ret]; cbn [exec stmt_ok] in *.
    - eauto using t_none.
    - rewrite Hw. eauto using t_none.
    - rewrite Hw. pose proof (call_sim (o l (sworld t)) s t (Hc _ _) R) as H.
      destruct (std_call E (o l (sworld t)) t) as [[x|e|f] t']; [| |exact I];
        destruct H as (s' & -> & R'); eauto.
    - destruct Hc as [H1 H2]. pose proof (IH c1 l s t H1 R) as H.
      destruct (exec (std_call E) _ _ n c1 l t) as [[l'|e l'| |] t']; try exact I;
        destruct H as (s' & -> & R'); eauto.
      pose proof (IH c2 l' s' t' H2 (proj1 R')) as H.
      destruct (exec (std_call E) _ _ n c2 l' t') as [[l2|e l2| |] t2]; try exact I;
        destruct H as (s2 & -> & R2); eauto using t_app.
    - destruct Hc as [H1 H2]. destruct (b l); [exact (IH c1 l s t H1 R)|exact (IH c2 l s t H2 R)].
    - destruct (b l); [|eauto using t_none]. pose proof (IH c1 l s t Hc R) as H.
      destruct (exec (std_call E) _ _ n c1 l t) as [[l'|e l'| |] t']; try exact I;
        destruct H as (s' & -> & R'); eauto.
      pose proof (IH (CWhile b c1) l' s' t' Hc (proj1 R')) as H.
      destruct (exec (std_call E) _ _ n (CWhile b c1) l' t') as [[l2|e l2| |] t2]; try exact I;
        destruct H as (s2 & -> & R2); eauto using t_app.
    - destruct Hc as [H1 H2]. pose proof (IH c l s t H1 R) as H.
      destruct (exec (std_call E) _ _ n c l t) as [[l'|e l'| |] t']; try exact I;
        destruct H as (s' & -> & R'); eauto.
      pose proof (IH (h e) l' s' t' (H2 e) (proj1 R')) as H.
      destruct (exec (std_call E) _ _ n (h e) l' t') as [[l2|e2 l2| |] t2]; try exact I;
        destruct H as (s2 & -> & R2); eauto using t_app.
    - eauto using t_none.
    - destruct Hc as [H1 H2]. pose proof (IH ci l s t H1 R) as H.
      destruct (exec (std_call E) _ _ n ci l t) as [[l1|e l1| |] t1]; try exact I;
        destruct H as (s1 & -> & R1); eauto.
      pose proof (IH c l1 s1 t1 H2 (proj1 R1)) as H.
      destruct (exec (std_call E) _ _ n c l1 t1) as [[l'|e l'| |] t2]; try exact I;
        destruct H as (s2 & -> & R2); [| |eauto using t_app];
        pose proof (call_sim (closing v (i l)) s2 t2 (closing_ok _ _) (proj1 R2)) as H;
        destruct (std_call E (closing v (i l)) t2) as [[y|e'|f] t3]; try exact I;
        destruct H as (s3 & -> & R3); eauto using t_app.
    - destruct Hc as [H1 H2]. pose proof (IH ci l s t H1 R) as H.
      destruct (exec (std_call E) _ _ n ci l t) as [[l1|e l1| |] t1]; try exact I;
        destruct H as (s1 & -> & R1); eauto.
      pose proof (IH c l1 s1 t1 H2 (proj1 R1)) as H.
      destruct (exec (std_call E) _ _ n c l1 t1) as [[l'|e l'| |] t2]; try exact I;
        destruct H as (s2 & -> & R2); [eauto using t_app| |eauto using t_app];
        pose proof (call_sim (closing v (i l)) s2 t2 (closing_ok _ _) (proj1 R2)) as H;
        destruct (std_call E (closing v (i l)) t2) as [[y|e'|f] t3]; try exact I;
        destruct H as (s3 & -> & R3); eauto using t_app.
    - pose proof (IH (procs p) (arg l) s t (Hprocs p) R) as H.
      destruct (exec (std_call E) _ _ n (procs p) (arg l) t) as [[l'|e l'| |] t']; try exact I;
        destruct H as (s' & -> & R'); eauto.
  Qed.
End Simulation.

(** C59: a program that is defined with std::optional (and stores no sentinel: that is
    part of what counts as defined) does exactly the same with tiny optionals: it ends in
    the same way with the same local state, throws the same exceptions, runs forever if and
    only if it does with std::optional; and user code observes the same.  Its execution is
    a history within the contract, so that all theorems about histories apply to it. *)
Theorem C59_no_program_can_tell :
  forall W L (E : env W) (procs : nat -> stmt W L) n c l w f t,
    env_ok E -> (forall p, stmt_ok (procs p)) -> stmt_ok c ->
    exec_std E procs n c l (sinit_state w) = (f, t) -> f <> FBad ->
    exists s,
      exec_tiny E procs n c l (init_state w) = (f, s) /\
      world s = sworld t /\
      (forall i o, objs t i = Some (SOpt o) -> peek E i s = Some o) /\
      (forall i, objs t i = None -> mem s i = None) /\
      exists p, contract E w p /\ reaches E w p s.
Proof.
  intros W L E procs n c l w f t HE Hp Hc Hx Hf.
  pose proof (exec_sim E procs HE Hp n c l _ _ Hc (rel_init E w)) as H. rewrite Hx in H.
  assert (H' : exists s, exec_tiny E procs n c l (init_state w) = (f, s) /\
                         together E (init_state w) (sinit_state w) s t)
    by (destruct f; try exact H; congruence).
  destruct H' as (s & Hs & R & p & xs & Ho & H1 & H2).
  exists s. split; [exact Hs|]. split; [apply R|]. split.
  { intros i o Hi. eapply peek_rel; eauto. }
  split. { intros i Hi. eapply rel_fresh; eauto. }
  exists p. split; [split; [exact Ho|exists xs, t; exact H1]|exists xs; exact H2].
Qed.

(** ** Blocks *)

(** The optional (or variable) that a call creates, the one that it destroys. *)
Definition births {W} (o : op W) : option loc :=
  match o with
  | ODefault i | ONullopt i | OInPlace i _ | OCopyCtor i _ | OMoveCtor i _
  | OAndThen i _ _ _ | OTransform i _ _ _ _ | OOrElse i _ _ _ | OVarNew i _ => Some i
  | _ => None
  end.
Definition deaths {W} (o : op W) : option loc :=
  match o with ODtor i | OVarDrop i => Some i | _ => None end.

(** No exit of the statement changes the name [i]. *)
Fixpoint keeps {W L} (i : L -> loc) (c : stmt W L) : Prop :=
  match c with
  | CSkip | CThrow _ => True
  | CLet f => forall l w, i (f l w) = i l
  | CCall _ k => forall x l, i (k x l) = i l
  | CSeq a b | CIf _ a b | CBlock _ _ a b | CResult _ _ a b => keeps i a /\ keeps i b
  | CWhile _ a => keeps i a
  | CTry a h => keeps i a /\ forall e, keeps i (h e)
  | CProc _ _ ret => forall l l', i (ret l l') = i l
  end.
Definition unchanged {W L} (r : option (L -> loc)) (c : stmt W L) : Prop :=
  match r with Some i => keeps i c | None => True end.

(** The program creates and destroys optionals only by declarations: no explicit
    destructor call, no constructor anywhere else.  With [r = Some i] the statement is an
    initializer of [i], that is, it creates [i] if it ends normally; with [None] it
    creates nothing that outlives it.  [rets p] is the result that function [p] returns
    by value, if any. *)
Fixpoint creates {W L} (rets : nat -> option (L -> loc)) (r : option (L -> loc))
  (c : stmt W L) : Prop :=
  match c with
  | CSkip | CLet _ => r = None
  | CThrow _ => True
  | CCall o _ =>
      forall l w, births (o l w) = option_map (fun i => i l) r /\ deaths (o l w) = None
  | CSeq a b => creates rets None a /\ unchanged r a /\ creates rets r b
  | CIf _ a b => creates rets r a /\ creates rets r b
  | CWhile _ a => r = None /\ creates rets None a
  | CTry a h => creates rets r a /\ unchanged r a /\ forall e, creates rets r (h e)
  | CBlock j _ a b => creates rets (Some j) a /\ unchanged r a /\ creates rets r b
  | CResult j _ a b =>
      (exists i, r = Some i /\ forall l, j l = i l) /\
      creates rets (Some j) a /\ creates rets None b
  | CProc p arg _ =>
      forall l, option_map (fun i => i (arg l)) (rets p) = option_map (fun i => i l) r
  end.
Definition scoped {W L} (rets : nat -> option (L -> loc)) (c : stmt W L) : Prop :=
  creates rets None c.

Section Blocks.
  Context {W : Type}.
  Variable tid : loc -> nat.
  Variable pops : loc -> payops W.
  Variable stor isv : loc -> rep -> bool.
  Notation SM := (@S W).

  Definition alive (j : loc) (t : sstate W) : bool :=
    match objs t j with Some _ => true | None => false end.
  (** If [j] exists ([a]) before, it exists ([n]) after a normal end and ([e]) after an
      exception. *)
  Definition tr {A} (j : loc) (a : bool) (m : SM A) (n e : bool) : Prop :=
    forall t, alive j t = a ->
      match m t with
      | (SOk _, t') => alive j t' = n
      | (SThrow _, t') => alive j t' = e
      | (SUndef, _) => True
      end.

  Lemma tr_ret {A} j a (x : A) e : tr j a (sret x) a e.
  Proof. intros t H. exact H. Qed.
  Lemma tr_throw {A} j a x n : tr j a (@sthrow W A x) n a.
  Proof. intros t H. exact H. Qed.
  Lemma tr_undef {A} j a n e : tr j a (@sundef W A) n e.
  Proof. intros t H. exact I. Qed.
  Lemma tr_bind {A B} j a b n e (m : SM A) (k : A -> SM B) :
    tr j a m b e -> (forall x, tr j b (k x) n e) -> tr j a (sbind m k) n e.
  Proof.
    intros Hm Hk t Ht. unfold sbind. pose proof (Hm t Ht) as H.
    destruct (m t) as [[x|x|] t']; [exact (Hk x t' H)|exact H|exact I].
  Qed.
  Lemma tr_user {A} j a (f : W -> A * W) e : tr j a (suser f) a e.
  Proof. intros t H. unfold suser. destruct (f (sworld t)). exact H. Qed.
  Lemma tr_res {A} j a (r : res A) : tr j a (sres r) a a.
  Proof. destruct r; intros t H; exact H. Qed.
  Lemma tr_contents j a i e : tr j a (contents i) a e.
  Proof. intros t H. unfold contents. destruct (objs t i) as [[o|v]|]; try exact I. exact H. Qed.
  (** After [contents i], [i] exists. *)
  Lemma tr_with {A} j a i n e (k : option rep -> SM A) :
    (i <> j \/ a = true -> forall o, tr j a (k o) n e) -> tr j a (sbind (contents i) k) n e.
  Proof.
    intros Hk t Ht. unfold sbind, contents. destruct (objs t i) as [[o|v]|] eqn:Hi; try exact I.
    refine (Hk _ o t Ht). destruct (Nat.eq_dec i j) as [->|Hn]; [right|left; exact Hn].
    rewrite <- Ht. unfold alive. rewrite Hi. reflexivity.
  Qed.
  Lemma tr_read j a i e : tr j a (sread i) a e.
  Proof. intros t H. unfold sread. destruct (objs t i) as [[[v|]|v]|]; try exact I; exact H. Qed.
  Lemma alive_upd j t i x w :
    alive j (MkS (upd (objs t) i x) w) = if Nat.eqb i j then match x with Some _ => true | None => false end
                                         else alive j t.
  Proof. unfold alive. cbn. unfold upd. destruct (Nat.eqb i j); reflexivity. Qed.
  Lemma tr_set_other j a i x e : i <> j -> tr j a (sset i x) a e.
  Proof.
    intros Hn t H. unfold sset. rewrite alive_upd. apply Nat.eqb_neq in Hn. rewrite Hn. exact H.
  Qed.
  Lemma tr_set_same j a x e : tr j a (sset j x) (match x with Some _ => true | None => false end) e.
  Proof. intros t H. unfold sset. rewrite alive_upd, Nat.eqb_refl. reflexivity. Qed.
  Lemma tr_become j a i o e : i <> j \/ a = true -> tr j a (become stor i o) a e.
  Proof.
    intros H t Ht. unfold become.
    assert (Hs : match sset i (Some (SOpt o)) t with
                 | (SOk _, t') => alive j t' = a | (SThrow _, t') => alive j t' = e | (SUndef, _) => True
                 end).
    { unfold sset. rewrite alive_upd. destruct (Nat.eqb i j) eqn:Hij; [|exact Ht].
      apply Nat.eqb_eq in Hij. destruct H; congruence. }
    destruct o as [v|]; [destruct (stor i v)|]; try exact I; exact Hs.
  Qed.
  Lemma tr_become_new j a o e : tr j a (become stor j o) true e.
  Proof.
    intros t Ht. unfold become.
    destruct o as [v|]; [destruct (stor j v)|]; try exact I;
      unfold sset; rewrite alive_upd, Nat.eqb_refl; reflexivity.
  Qed.
  Lemma tr_write j a i v e : tr j a (swrite stor isv i v) a e.
  Proof.
    intros t Ht. unfold swrite.
    assert (Ha : objs t i <> None -> i <> j \/ a = true).
    { intros Hi. destruct (Nat.eq_dec i j) as [->|Hn]; [right|left; exact Hn].
      rewrite <- Ht. unfold alive. destruct (objs t j); congruence. }
    destruct (objs t i) as [[[u|]|u]|] eqn:Hi; try exact I.
    - refine (tr_become j a i (Some v) e _ t Ht). apply Ha. congruence.
    - destruct (isv i v); [|exact I]. unfold sset. rewrite alive_upd.
      destruct (Nat.eqb i j) eqn:Hij; [|exact Ht]. apply Nat.eqb_eq in Hij.
      destruct Ha; congruence.
  Qed.
  Lemma tr_fresh j a i e : tr j a (fresh i) a e.
  Proof. intros t H. unfold fresh. destruct (objs t i); [exact I|exact H]. Qed.
  (** Creating [j] needs that it does not exist. *)
  Lemma tr_fresh_true {A} j n e (k : unit -> SM A) : tr j true (sbind (fresh j) k) n e.
  Proof.
    intros t H. unfold sbind, fresh. unfold alive in H. destruct (objs t j); [exact I|discriminate].
  Qed.
  Lemma tr_same {A} i j k a (m : SM A) n e : tr k a m n e -> tr k a (same tid i j m) n e.
  Proof. intros H. unfold same. destruct (Nat.eqb _ _); [exact H|apply tr_undef]. Qed.
  Lemma tr_if {A} j a (b : bool) (m1 m2 : SM A) n e :
    tr j a m1 n e -> tr j a m2 n e -> tr j a (if b then m1 else m2) n e.
  Proof. destruct b; auto. Qed.

  Ltac t1 :=
    first
      [ apply tr_ret | apply tr_throw | apply tr_undef | apply tr_user | apply tr_res
      | apply tr_read | apply tr_write | apply tr_fresh
      | apply tr_become; tauto
      | apply tr_same
      | match goal with |- tr _ _ (sbind (contents ?i) _) _ _ => apply tr_with; intros ? [?|] end
      | match goal with |- tr _ _ (sbind (contents ?i) _) _ _ => apply tr_with; intros ? ? end
      | match goal with |- tr _ _ (sbind _ _) _ _ => eapply tr_bind; [|intros ?] end
      | apply tr_contents
      | match goal with |- tr _ _ (if _ then _ else _) _ _ => apply tr_if end
      | match goal with |- tr _ _ (match ?x with None => _ | Some _ => _ end) _ _ => destruct x end ].
  Ltac ts := repeat t1.

  Lemma tr_read_more j a l : tr j a (sread_more l) a a.
  Proof. induction l as [|[i c] l IH]; cbn [sread_more]; ts. exact IH. Qed.
  Lemma tr_write_more j a l : forall vs, tr j a (swrite_more stor isv l vs) a a.
  Proof. induction l as [|[i c] l IH]; intros [|v vs]; cbn [swrite_more]; ts. apply IH. Qed.
  Lemma tr_init j a n : tr j a (sinit stor isv n) a a.
  Proof. unfold sinit. ts; first [apply tr_read_more|apply tr_write_more]. Qed.
  Lemma tr_copy j a i : tr j a (scopy pops i) a a.
  Proof. unfold scopy. ts. Qed.
  Lemma tr_move j a i : tr j a (smove pops stor isv i) a a.
  Proof. unfold smove. ts. Qed.
  Lemma tr_clear j a i : tr j a (s_clear pops stor i) a a.
  Proof. unfold s_clear. ts; unfold sdestroy; ts. Qed.
  Lemma tr_dtor_other j a i : i <> j -> tr j a (s_dtor pops i) a a.
  Proof.
    intros Hn. unfold s_dtor. ts; try (apply tr_set_other; exact Hn); unfold sdestroy; ts.
  Qed.
  Lemma tr_dtor j a : tr j a (s_dtor pops j) false false.
  Proof.
    unfold s_dtor. eapply tr_bind; [apply tr_contents|]. intros [v|].
    - eapply tr_bind; [unfold sdestroy; apply tr_user|]. intros _. apply (tr_set_same j a None).
    - apply (tr_set_same j a None).
  Qed.
  Lemma tr_assign_existing j a i x : tr j a (s_assign_existing stor isv i x) a a.
  Proof. unfold s_assign_existing. ts. Qed.
  Lemma tr_massign j a i k : tr j a (s_move_assign tid pops stor isv i k) a a.
  Proof.
    unfold s_move_assign. apply tr_same.
    apply tr_with. intros Hk o. apply tr_with. intros Hi o'.
    destruct o', o; ts; unfold sdestroy; ts; apply tr_move.
  Qed.
  Lemma tr_ctor_from_other j a get i k :
    (forall b, tr j b get b b) -> i <> j -> tr j a (s_ctor_from tid stor get i k) a a.
  Proof. intros Hg Hn. unfold s_ctor_from. ts; apply Hg. Qed.
  Lemma tr_ctor_from j get k :
    (forall b, tr j b get b b) -> tr j false (s_ctor_from tid stor get j k) true false.
  Proof.
    intros Hg. unfold s_ctor_from. apply tr_same.
    eapply tr_bind; [apply tr_fresh|]. intros _. eapply tr_bind; [apply tr_contents|].
    intros [v|]; [|apply tr_become_new]. eapply tr_bind; [apply Hg|]. intros u. apply tr_become_new.
  Qed.
  Lemma tr_ctor_from_undef j get k n e : tr j true (s_ctor_from tid stor get j k) n e.
  Proof. unfold s_ctor_from. apply tr_same, tr_fresh_true. Qed.
  Lemma tr_new j o : tr j false (s_new stor j o) true false.
  Proof. unfold s_new. eapply tr_bind; [apply tr_fresh|]. intros _. apply tr_become_new. Qed.
  Lemma tr_new_undef j o n e : tr j true (s_new stor j o) n e.
  Proof. unfold s_new. apply tr_fresh_true. Qed.
  Lemma tr_new_other j a k o : k <> j -> tr j a (s_new stor k o) a a.
  Proof. intros H. unfold s_new. ts. Qed.
  Lemma tr_on_throw {A} j a (m : SM A) c n e e' :
    tr j a m n e -> tr j e c e' e' -> tr j a (s_on_throw m c) n e'.
  Proof.
    intros Hm Hc t Ht. unfold s_on_throw. pose proof (Hm t Ht) as H.
    destruct (m t) as [[x|x|] t']; [exact H| |exact I].
    pose proof (Hc t' H) as H'. destruct (c t') as [[y|y|] t'']; [exact H'|exact I|exact I].
  Qed.
  Lemma tr_bind_undef {A B} j a n e (m : SM A) (k : A -> SM B) :
    (forall n' e', tr j a m n' e') -> tr j a (sbind m k) n e.
  Proof.
    intros Hm t Ht. unfold sbind. pose proof (Hm true true t Ht) as H1.
    pose proof (Hm false false t Ht) as H2.
    destruct (m t) as [[x|x|] t']; [congruence|congruence|exact I].
  Qed.
  Lemma tr_std_swap j a i i2 k : tr j a (s_std_swap tid pops stor isv i i2 k) a a.
  Proof.
    unfold s_std_swap. apply tr_same. eapply tr_bind; [apply tr_contents|]. intros _.
    destruct (Nat.eq_dec k j) as [->|Hn].
    - destruct a.
      + apply tr_bind_undef. intros n' e'. apply tr_ctor_from_undef.
      + eapply tr_bind; [apply tr_ctor_from; intros b; apply tr_move|]. intros _.
        eapply tr_bind; [|intros _; apply tr_dtor].
        eapply tr_on_throw; [|apply tr_dtor].
        eapply tr_bind; [apply tr_massign|]. intros _. apply tr_massign.
    - eapply tr_bind; [apply tr_ctor_from_other; [intros b; apply tr_move|exact Hn]|]. intros _.
      eapply tr_bind; [|intros _; apply tr_dtor_other; exact Hn].
      eapply tr_on_throw; [|apply tr_dtor_other; exact Hn].
      eapply tr_bind; [apply tr_massign|]. intros _. apply tr_massign.
  Qed.

  Lemma tr_contents_undef {A} j n e (k : option rep -> SM A) : tr j false (sbind (contents j) k) n e.
  Proof.
    intros t H. unfold sbind, contents. unfold alive in H. destruct (objs t j); [discriminate|exact I].
  Qed.
  Lemma tr_emplace j a i n : tr j a (s_emplace pops stor isv i n) a a.
  Proof.
    unfold s_emplace. destruct (Nat.eq_dec i j) as [->|Hn].
    - destruct a.
      + eapply tr_bind; [apply tr_clear|]. intros _. eapply tr_bind; [apply tr_init|]. intros v.
        apply tr_become. right. reflexivity.
      + apply tr_bind_undef. intros n' e'. unfold s_clear. apply tr_contents_undef.
    - eapply tr_bind; [apply tr_clear|]. intros _. eapply tr_bind; [apply tr_init|]. intros v.
      apply tr_become. left. exact Hn.
  Qed.
  Lemma tr_swap j a i k : tr j a (s_swap tid pops stor isv i k) a a.
  Proof.
    unfold s_swap. apply tr_same.
    apply tr_with. intros Hi x. apply tr_with. intros Hk y.
    destruct x as [x|], y as [y|].
    - ts.
    - eapply tr_bind; [apply tr_move|]. intros v. eapply tr_bind; [apply tr_become; exact Hk|].
      intros _. apply tr_clear.
    - eapply tr_bind; [apply tr_move|]. intros v. eapply tr_bind; [apply tr_become; exact Hi|].
      intros _. apply tr_clear.
    - ts.
  Qed.
  Lemma tr_relate j a c r x y : tr j a (@s_relate W c r x y) a a.
  Proof. unfold s_relate. destruct x, y; ts. Qed.
  Lemma tr_relate3 j a c x y : tr j a (@s_relate3 W c x y) a a.
  Proof. unfold s_relate3. destruct x, y; ts. Qed.
  Lemma tr_operand j a x e : tr j a (@s_operand W x) a e.
  Proof. unfold s_operand. destruct x; first [apply tr_contents|apply tr_ret]. Qed.

  Notation sstep' := (sstep tid pops stor isv).
  (** A call does not create or destroy anything else than it says. *)
  Lemma step_others j a o :
    births o <> Some j -> deaths o <> Some j -> tr j a (sstep' o) a a.
  Proof.
    intros Hb Hd.
    destruct o; cbn [births deaths sstep] in *; unfold sunit, sbool, sval;
      (eapply tr_bind; [|intros ?; apply tr_ret]).
    - apply tr_new_other. congruence.
    - apply tr_new_other. congruence.
    - eapply tr_bind; [apply tr_fresh|]. intros _. eapply tr_bind; [apply tr_init|]. intros v.
      apply tr_become. left. congruence.
    - apply tr_ctor_from_other; [intros b; apply tr_copy|congruence].
    - apply tr_ctor_from_other; [intros b; apply tr_move|congruence].
    - apply tr_dtor_other. congruence.
    - apply tr_clear.
    - unfold s_assign. apply tr_with. intros H [v|]; [apply tr_assign_existing|].
      eapply tr_bind; [apply tr_init|]. intros v. apply tr_become. exact H.
    - unfold s_copy_assign. apply tr_same.
      apply tr_with. intros Hk o. apply tr_with. intros Hi o'.
      destruct o', o; ts; unfold sdestroy; ts; apply tr_copy.
    - apply tr_massign.
    - apply tr_emplace.
    - apply tr_clear.
    - apply tr_swap.
    - apply tr_std_swap.
    - unfold s_has. ts.
    - unfold s_has. ts.
    - unfold s_access. eapply tr_bind; [apply tr_contents|]. intros [v|].
      + ts.
      + destruct k; ts.
    - unfold s_value_or. eapply tr_bind; [apply tr_contents|].
      intros [v|]; [apply tr_copy|apply tr_init].
    - unfold s_value_or. eapply tr_bind; [apply tr_contents|].
      intros [v|]; [apply tr_move|apply tr_init].
    - unfold s_and_then. eapply tr_bind; [apply tr_contents|].
      intros [v|]; [|apply tr_new_other; congruence]. ts. apply tr_new_other. congruence.
    - unfold s_transform. eapply tr_bind; [apply tr_contents|].
      intros [v|]; [|apply tr_new_other; congruence]. ts. apply tr_become. left. congruence.
    - unfold s_or_else. apply tr_same. eapply tr_bind; [apply tr_contents|].
      intros [v|].
      + eapply tr_bind; [apply tr_fresh|]. intros _.
        eapply tr_bind; [apply tr_if; [apply tr_move|apply tr_copy]|].
        intros x. apply tr_become. left. congruence.
      + ts. apply tr_new_other. congruence.
    - unfold s_compare. apply tr_if; [|apply tr_undef].
      eapply tr_bind; [apply tr_operand|]. intros x. eapply tr_bind; [apply tr_operand|]. intros y.
      apply tr_relate.
    - unfold s_three. destruct L, R; try apply tr_undef;
        (eapply tr_bind; [apply tr_operand|]); intros x; (eapply tr_bind; [apply tr_operand|]);
        intros y; try apply tr_relate3; try apply tr_if;
        try (eapply tr_bind; [apply tr_relate3|]; intros z; apply tr_ret); apply tr_relate3.
    - unfold s_hash. ts.
    - eapply tr_bind; [apply tr_fresh|]. intros _. apply tr_if; [|apply tr_undef].
      apply tr_set_other. congruence.
    - intros t Ht. destruct (objs t i) as [[o|v]|]; try exact I.
      assert (H : tr j a (sbind (sdestroy pops i v) (fun _ => sset i None)) a a).
      { eapply tr_bind; [unfold sdestroy; apply tr_user|]. intros _. apply tr_set_other. congruence. }
      exact (H t Ht).
  Qed.
  (** A constructor creates its object, or throws and does not; it needs a new name. *)
  Lemma tr_bind_dead {A B} j a n e (m : SM A) (k : A -> SM B) :
    (forall n', tr j a m n' e) -> tr j a (sbind m k) n e.
  Proof.
    intros Hm t Ht. unfold sbind. pose proof (Hm true t Ht) as H1. pose proof (Hm false t Ht) as H2.
    destruct (m t) as [[x|x|] t']; [congruence|exact H1|exact I].
  Qed.
  Lemma step_births j o :
    births o = Some j -> tr j false (sstep' o) true false /\ forall n, tr j true (sstep' o) n true.
  Proof.
    intros Hb.
    destruct o; cbn [births sstep] in *; try discriminate; injection Hb as Hb; subst;
      unfold sunit; (split;
        [eapply tr_bind; [|intros ?; apply tr_ret]|intros n'; apply tr_bind_dead; intros n'']).
    1,3: apply tr_new.
    1,2: apply tr_new_undef.
    - eapply tr_bind; [apply tr_fresh|]. intros _. eapply tr_bind; [apply tr_init|]. intros v.
      apply tr_become_new.
    - apply tr_fresh_true.
    - apply tr_ctor_from. intros b. apply tr_copy.
    - apply tr_ctor_from_undef.
    - apply tr_ctor_from. intros b. apply tr_move.
    - apply tr_ctor_from_undef.
    - unfold s_and_then. eapply tr_bind; [apply tr_contents|]. intros [v|]; [|apply tr_new].
      ts. apply tr_new.
    - unfold s_and_then. eapply tr_bind; [apply tr_contents|]. intros [v|]; [|apply tr_new_undef].
      ts. apply tr_new_undef.
    - unfold s_transform. eapply tr_bind; [apply tr_contents|]. intros [v|]; [|apply tr_new].
      ts. apply tr_become_new.
    - unfold s_transform. eapply tr_bind; [apply tr_contents|].
      intros [v|]; [apply tr_fresh_true|apply tr_new_undef].
    - unfold s_or_else. apply tr_same. eapply tr_bind; [apply tr_contents|].
      intros [v|].
      + eapply tr_bind; [apply tr_fresh|]. intros _.
        eapply tr_bind; [apply tr_if; [apply tr_move|apply tr_copy]|].
        intros x. apply tr_become_new.
      + ts. apply tr_new.
    - unfold s_or_else. apply tr_same. eapply tr_bind; [apply tr_contents|].
      intros [v|]; [apply tr_fresh_true|]. ts. apply tr_new_undef.
    - eapply tr_bind; [apply tr_fresh|]. intros _. apply tr_if; [|apply tr_undef].
      apply (tr_set_same j false (Some (SVar v))).
    - apply tr_fresh_true.
  Qed.
  (** The end of a lifetime. *)
  Lemma step_closing j v : tr j true (sstep' (closing v j)) false false.
  Proof.
    destruct v; cbn [closing sstep]; unfold sunit; (eapply tr_bind; [|intros ?; apply tr_ret]).
    2: apply tr_dtor.
    intros t Ht. destruct (objs t j) as [[o|u]|]; try exact I.
    assert (G : tr j true (sbind (sdestroy pops j u) (fun _ => sset j None)) false false).
    { eapply tr_bind; [unfold sdestroy; apply tr_user|]. intros _. apply (tr_set_same j true None). }
    exact (G t Ht).
  Qed.
  Lemma closing_others v i : births (@closing W v i) = None /\ deaths (@closing W v i) = Some i.
  Proof. destruct v; split; reflexivity. Qed.
End Blocks.

Section Scoped.
  Context {W L : Type}.
  Variable E : env W.
  Variable procs : nat -> stmt W L.
  Variable rets : nat -> option (L -> loc).
  Hypothesis Hprocs : forall p, creates rets (rets p) (procs p).

  Lemma call_tr j a n e o t :
    tr j a (sstep (e_tid E) (ops E) (storable E) (is_value E) o) n e -> alive j t = a ->
    match std_call E o t with
    | (Ok _, t') => alive j t' = n
    | (Throw _, t') => alive j t' = e
    | (Dead _, _) => True
    end.
  Proof.
    intros H Ht. pose proof (H t Ht) as G. unfold std_call.
    destruct (sstep _ _ _ _ o t) as [[x|x|] t']; exact G.
  Qed.
  Lemma exec_keeps {St} (call : op W -> St -> out obs * St) look i (c : stmt W L) n :
    forall l s, keeps i c ->
    match exec call look procs n c l s with
    | (FNorm l', _) | (FExn _ l', _) => i l' = i l
    | _ => True
    end.
  Proof.
    revert c. induction n as [|n IH]; intros c l s Hc; [exact I|].
    destruct c as [|g|o k|c1 c2|b c1 c2|b c1|c h|e|j v ci c|j v ci c|p arg ret]; cbn [exec keeps] in *.
    - reflexivity.
    - apply Hc.
    - destruct (call _ s) as [[x|e|f] s']; auto.
    - destruct Hc as [H1 H2]. pose proof (IH c1 l s H1) as A.
      destruct (exec call look procs n c1 l s) as [[l'|e l'| |] s']; auto.
      pose proof (IH c2 l' s' H2) as B.
      destruct (exec call look procs n c2 l' s') as [[l2|e l2| |] s2]; congruence.
    - destruct Hc as [H1 H2]. destruct (b l); [exact (IH c1 l s H1)|exact (IH c2 l s H2)].
    - destruct (b l); [|reflexivity]. pose proof (IH c1 l s Hc) as A.
      destruct (exec call look procs n c1 l s) as [[l'|e l'| |] s']; auto.
      pose proof (IH (CWhile b c1) l' s' Hc) as B.
      destruct (exec call look procs n (CWhile b c1) l' s') as [[l2|e l2| |] s2]; congruence.
    - destruct Hc as [H1 H2]. pose proof (IH c l s H1) as A.
      destruct (exec call look procs n c l s) as [[l'|e l'| |] s']; auto.
      pose proof (IH (h e) l' s' (H2 e)) as B.
      destruct (exec call look procs n (h e) l' s') as [[l2|e2 l2| |] s2]; congruence.
    - reflexivity.
    - destruct Hc as [H1 H2]. pose proof (IH ci l s H1) as A.
      destruct (exec call look procs n ci l s) as [[l'|e l'| |] s']; auto.
      pose proof (IH c l' s' H2) as B.
      destruct (exec call look procs n c l' s') as [[l2|e2 l2| |] s2]; auto;
        destruct (call (closing v (j l)) s2) as [[x|x|x] s3]; try exact I; congruence.
    - destruct Hc as [H1 H2]. pose proof (IH ci l s H1) as A.
      destruct (exec call look procs n ci l s) as [[l'|e l'| |] s']; auto.
      pose proof (IH c l' s' H2) as B.
      destruct (exec call look procs n c l' s') as [[l2|e2 l2| |] s2]; auto; [congruence|];
        destruct (call (closing v (j l)) s2) as [[x|x|x] s3]; try exact I; congruence.
    - destruct (exec call look procs n (procs p) (arg l) s) as [[l'|e l'| |] s']; auto.
  Qed.

  (** What exists after a normal end. *)
  Definition also (r : option loc) (j : loc) (t : sstate W) : bool :=
    match r with Some i => Nat.eqb i j || alive j t | None => alive j t end.
  Definition free (r : option loc) (t : sstate W) : Prop :=
    match r with Some i => alive i t = false | None => True end.
  Notation at_ r l := (option_map (fun i => i l) r).

  Lemma call_births o t r :
    births o = r -> deaths o = None ->
    match std_call E o t with
    | (Ok _, t') => (forall j, alive j t' = also r j t) /\ free r t
    | (Throw _, t') => forall j, alive j t' = alive j t
    | (Dead _, _) => True
    end.
  Proof.
    intros Hb Hd. 
    assert (K : forall j, births o <> Some j ->
      match std_call E o t with
      | (Ok _, t') | (Throw _, t') => alive j t' = alive j t
      | _ => True
      end).
    { intros j Hj. pose proof (call_tr j (alive j t) (alive j t) (alive j t) o t) as H.
      destruct (std_call E o t) as [[x|e|f] t']; try exact I;
        (apply H; [apply step_others; congruence|reflexivity]). }
    destruct r as [i|]; cbn [also free].
    2: { destruct (std_call E o t) as [[x|e|f] t']; try exact I; [split; [|exact I]|];
           intros j; apply K; congruence. }
    destruct (step_births (e_tid E) (ops E) (storable E) (is_value E) i o Hb) as (S1 & S2).
    destruct (alive i t) eqn:Hi.
    - pose proof (call_tr i true false true _ t (S2 false) Hi) as A.
      pose proof (call_tr i true true true _ t (S2 true) Hi) as B.
      destruct (std_call E o t) as [[x|e|f] t1]; [congruence| |exact I].
      intros j. destruct (Nat.eq_dec i j) as [<-|Hj]; [congruence|apply K; congruence].
    - pose proof (call_tr i false true false _ t S1 Hi) as A.
      destruct (std_call E o t) as [[x|e|f] t1]; [split; [|reflexivity]| |exact I];
        intros j; (destruct (Nat.eq_dec i j) as [<-|Hj]; [|rewrite ?(proj2 (Nat.eqb_neq i j) Hj); apply K; congruence]).
      + rewrite Nat.eqb_refl. exact A.
      + congruence.
  Qed.
  Lemma call_closing v i t :
    alive i t = true ->
    match std_call E (closing v i) t with
    | (Ok _, t') => forall j, alive j t' = negb (Nat.eqb i j) && alive j t
    | _ => True
    end.
  Proof.
    intros Hi. destruct (closing_others (W := W) v i) as (K1 & K2).
    pose proof (call_tr i true false false _ t (step_closing (e_tid E) (ops E) (storable E) (is_value E) i v) Hi) as A.
    assert (K : forall j, i <> j ->
      match std_call E (closing v i) t with
      | (Ok _, t') => alive j t' = alive j t
      | _ => True
      end).
    { intros j Hj. pose proof (call_tr j (alive j t) (alive j t) (alive j t) (closing v i) t) as H.
      destruct (std_call E (closing v i) t) as [[x|e|f] t']; try exact I;
        (apply H; [apply step_others; congruence|reflexivity]). }
    destruct (std_call E (closing v i) t) as [[x|e|f] t1]; try exact I.
    intros j. destruct (Nat.eq_dec i j) as [<-|Hj].
    - rewrite Nat.eqb_refl. exact A.
    - rewrite (proj2 (Nat.eqb_neq i j) Hj). apply K, Hj.
  Qed.
  Lemma at_same r c l l' : (forall i, r = Some i -> keeps i c -> i l' = i l) ->
    @unchanged W L r c -> at_ r l' = at_ r l.
  Proof. intros H Hc. destruct r as [i|]; [cbn; f_equal; apply H; auto|reflexivity]. Qed.
  Lemma also_eq r j t t' : alive j t' = alive j t -> also r j t' = also r j t.
  Proof. intros H. destruct r; cbn; rewrite H; reflexivity. Qed.
  Lemma free_eq r t t' : (forall j, alive j t' = alive j t) -> free r t' -> free r t.
  Proof. intros H. destruct r; cbn; [rewrite H|]; auto. Qed.

  (** Whatever a program does, afterwards the same objects exist as before, and after a
      normal end of an initializer also the initialized one. *)
  Lemma exec_creates n : forall c r l t,
    creates rets r c ->
    match exec_std E procs n c l t with
    | (FNorm _, t') => (forall j, alive j t' = also (at_ r l) j t) /\ free (at_ r l) t
    | (FExn _ _, t') => forall j, alive j t' = alive j t
    | _ => True
    end.
  Proof.
    induction n as [|n IH]; intros c r l t Hc; [exact I|].
    assert (AT : forall c r l t, @unchanged W L r c ->
      match exec_std E procs n c l t with
      | (FNorm l', _) | (FExn _ l', _) => at_ r l' = at_ r l
      | _ => True
      end).
    { clear. intros c r l t H. destruct r as [i|]; cbn [unchanged option_map] in *.
      - pose proof (exec_keeps (std_call E) sworld i c n l t H) as K. unfold exec_std.
        destruct (exec _ _ _ n c l t) as [[l'|e l'| |] t']; congruence.
      - destruct (exec_std _ _ _ _ _ _) as [[l'|e l'| |] t']; auto. }
    unfold exec_std in *.
    destruct c as [|g|o k|c1 c2|b c1 c2|b c1|c h|e|i v ci c|i v ci c|p arg ret]; cbn [exec creates] in *.
    - subst r. split; [reflexivity|exact I].
    - subst r. split; [reflexivity|exact I].
    - destruct (Hc l (sworld t)) as (Hb & Hd).
      pose proof (call_births (o l (sworld t)) t _ Hb Hd) as H.
      destruct (std_call E (o l (sworld t)) t) as [[x|e|f] t']; exact H.
    - destruct Hc as (H1 & H2 & H3). pose proof (IH c1 None l t H1) as A. pose proof (AT c1 r l t H2) as K.
      destruct (exec (std_call E) _ _ n c1 l t) as [[l'|e l'| |] t']; try exact I; [|exact A].
      destruct A as (A & _). cbn [option_map also] in A.
      pose proof (IH c2 r l' t' H3) as B. rewrite K in B.
      destruct (exec (std_call E) _ _ n c2 l' t') as [[l2|e l2| |] t2]; try exact I.
      + destruct B as (B & C). split; [|exact (free_eq _ _ _ A C)].
        intros j. rewrite B. apply also_eq, A.
      + intros j. rewrite B. apply A.
    - destruct Hc as [H1 H2]. destruct (b l); [exact (IH c1 r l t H1)|exact (IH c2 r l t H2)].
    - destruct Hc as (-> & Hc). destruct (b l); [|split; [reflexivity|exact I]].
      pose proof (IH c1 None l t Hc) as A.
      destruct (exec (std_call E) _ _ n c1 l t) as [[l'|e l'| |] t']; try exact I; [|exact A].
      destruct A as (A & _). cbn [option_map also] in A.
      pose proof (IH (CWhile b c1) None l' t' (conj eq_refl Hc)) as B.
      destruct (exec (std_call E) _ _ n (CWhile b c1) l' t') as [[l2|e l2| |] t2]; try exact I.
      + destruct B as (B & _). split; [|exact I]. intros j. cbn in *. rewrite B. apply A.
      + intros j. rewrite B. apply A.
    - destruct Hc as (H1 & H2 & H3). pose proof (IH c r l t H1) as A. pose proof (AT c r l t H2) as K.
      destruct (exec (std_call E) _ _ n c l t) as [[l'|e l'| |] t']; try exact I; [exact A|].
      pose proof (IH (h e) r l' t' (H3 e)) as B. rewrite K in B.
      destruct (exec (std_call E) _ _ n (h e) l' t') as [[l2|e2 l2| |] t2]; try exact I.
      + destruct B as (B & C). split; [|exact (free_eq _ _ _ A C)].
        intros j. rewrite B. apply also_eq, A.
      + intros j. rewrite B. apply A.
    - intros j. reflexivity.
    - destruct Hc as (H1 & H2 & H3). pose proof (IH ci (Some i) l t H1) as A. pose proof (AT ci r l t H2) as K.
      destruct (exec (std_call E) _ _ n ci l t) as [[l1|e l1| |] t1]; try exact I; [|exact A].
      destruct A as (A & F). cbn [option_map also free] in A, F.
      pose proof (IH c r l1 t1 H3) as B. rewrite K in B.
      assert (Hi : alive (i l) t1 = true) by (rewrite A, Nat.eqb_refl; reflexivity).
      destruct (exec (std_call E) _ _ n c l1 t1) as [[l2|e l2| |] t2]; try exact I.
      + destruct B as (B & C).
        assert (Hi2 : alive (i l) t2 = true) by (rewrite B; destruct r; cbn; rewrite Hi, ?orb_true_r; reflexivity).
        pose proof (call_closing v (i l) t2 Hi2) as D.
        destruct (std_call E (closing v (i l)) t2) as [[y|e'|f] t3]; try exact I.
        destruct r as [q|]; cbn [option_map also free] in *.
        * rewrite A in C. apply orb_false_iff in C. destruct C as (C1 & C2). split; [|exact C2].
          intros j. rewrite D, B, A. destruct (Nat.eqb_spec (i l) j) as [<-|Hj]; cbn; [|reflexivity].
          rewrite F, orb_false_r. symmetry. rewrite Nat.eqb_sym. exact C1.
        * split; [|exact I]. intros j. rewrite D, B, A.
          destruct (Nat.eqb_spec (i l) j) as [<-|Hj]; cbn; [congruence|reflexivity].
      + assert (Hi2 : alive (i l) t2 = true) by (rewrite B; exact Hi).
        pose proof (call_closing v (i l) t2 Hi2) as D.
        destruct (std_call E (closing v (i l)) t2) as [[y|e'|f] t3]; try exact I.
        intros j. rewrite D, B, A.
        destruct (Nat.eqb_spec (i l) j) as [<-|Hj]; cbn; [congruence|reflexivity].
    - destruct Hc as ((q & -> & Hq) & H1 & H2). cbn [option_map].
      pose proof (IH ci (Some i) l t H1) as A.
      destruct (exec (std_call E) _ _ n ci l t) as [[l1|e l1| |] t1]; try exact I; [|exact A].
      destruct A as (A & F). cbn [option_map also free] in A, F. rewrite Hq in *.
      pose proof (IH c None l1 t1 H2) as B.
      assert (Hi : alive (q l) t1 = true) by (rewrite A, Nat.eqb_refl; reflexivity).
      destruct (exec (std_call E) _ _ n c l1 t1) as [[l2|e l2| |] t2]; try exact I.
      + destruct B as (B & _). cbn in B. cbn. split; [|exact F]. intros j. rewrite B. apply A.
      + assert (Hi2 : alive (q l) t2 = true) by (rewrite B; exact Hi).
        pose proof (call_closing v (q l) t2 Hi2) as D.
        destruct (std_call E (closing v (q l)) t2) as [[y|e'|f] t3]; try exact I.
        intros j. rewrite D, B, A.
        destruct (Nat.eqb_spec (q l) j) as [<-|Hj]; cbn; [congruence|reflexivity].
    - pose proof (IH (procs p) (rets p) (arg l) t (Hprocs p)) as A. rewrite (Hc l) in A.
      destruct (exec (std_call E) _ _ n (procs p) (arg l) t) as [[l'|e l'| |] t']; try exact I; exact A.
  Qed.
End Scoped.

(** C59: a program that has its optionals as automatic variables leaves nothing behind when
    it ends, normally or by an exception that nobody catches: with tiny optionals all
    storage is gone, every payload that was constructed has been destroyed exactly once,
    none was lost. *)
Theorem C59_blocks_leave_nothing :
  forall W L (E : env W) (procs : nat -> stmt W L) rets n c l w f t,
    env_ok E -> (forall p, stmt_ok (procs p) /\ creates rets (rets p) (procs p)) ->
    stmt_ok c -> scoped rets c ->
    exec_std E procs n c l (sinit_state w) = (f, t) ->
    (exists l', f = FNorm l') \/ (exists e l', f = FExn e l') ->
    exists s,
      exec_tiny E procs n c l (init_state w) = (f, s) /\ world s = sworld t /\
      forall i,
        mem s i = None /\
        count (is_pay_begin i) (trace s) = count (is_pay_end i) (trace s) /\
        count (is_pay_abandoned i) (trace s) = 0.
Proof.
  intros W L E procs rets n c l w f t HE Hp Hc Hs Hx Hf.
  destruct (C59_no_program_can_tell W L E procs n c l w f t HE (fun p => proj1 (Hp p)) Hc Hx)
    as (s & Hy & Hw & _ & Hm & p & Hk & Hr).
  { destruct Hf as [(l' & ->)|(e & l' & ->)]; discriminate. }
  exists s. split; [exact Hy|]. split; [exact Hw|]. intros i.
  assert (Hi : mem s i = None).
  { apply Hm. pose proof (exec_creates E procs rets (fun p => proj2 (Hp p)) n c None l (sinit_state w) Hs) as A.
    rewrite Hx in A.
    assert (alive i t = false).
    { destruct Hf as [(l' & ->)|(e & l' & ->)]; [apply (proj1 A)|apply A]. }
    unfold alive in *. destruct (objs t i); [discriminate|reflexivity]. }
  split; [exact Hi|].
  destruct (C16_payload_destroyed_exactly_once W E w p s i HE Hk Hr) as (_ & Ha & Hb).
  rewrite Hi, Nat.add_0_r in Hb. auto.
Qed.

(** ** A client, verified for all inputs *)

(** The usual use of an optional as "best so far":

      std::optional/tiny::optional<T> best;
      for (x : xs) if (!best || less( *best, x)) best = x;
      try { return best.value(); } catch (bad_optional_access) { return nothing; }

    with [less] evaluated on what the client read. *)
Record bestL : Type := MkB { todo : list rep; flag : bool; result : option rep }.

Section Best.
  Context {W : Type}.
  Variable touch : W -> W.                       (* side effects of T's operations *)
  Variable less : rep -> rep -> bool.
  Variable i : loc.

  Definition read_it : fn_use W := fun v w => ((ROk v, v), w).
  Definition from_val (v : rep) : ini W := MkIni None true (fun _ w => ((ROk v, []), touch w)) false.
  Definition arg_val (v : rep) : arg W :=
    MkArg (from_val v) (fun _ _ w => ((ROk tt, (v, [])), touch w)) (fun v w => ((ROk tt, v), w)).
  Definition now (l : bestL) : rep := match todo l with x :: _ => x | [] => [] end.
  Definition got (x : obs) : rep := match x with ObVal v => v | _ => [] end.
  Definition yes (x : obs) : bool := match x with ObBool b => b | _ => false end.

  Definition best_body : stmt W bestL :=
    CSeq (CCall (fun _ _ => OBool i) (fun x l => MkB (todo l) (yes x) (result l)))
   (CSeq (CIf flag
            (CCall (fun _ _ => OAccess AccDeref i true read_it)
                   (fun x l => MkB (todo l) (less (got x) (now l)) (result l)))
            (CLet (fun l _ => MkB (todo l) true (result l))))
   (CSeq (CIf flag (CCall (fun l _ => OAssign i (arg_val (now l))) (fun _ l => l)) CSkip)
         (CLet (fun l _ => MkB (tl (todo l)) (flag l) (result l))))).
  Definition best_prog : stmt W bestL :=
    CBlock (fun _ => i) false (CCall (fun _ _ => ODefault i) (fun _ l => l))
      (CSeq (CWhile (fun l => match todo l with [] => false | _ => true end) best_body)
            (CTry (CCall (fun _ _ => OAccess AccValue i true read_it)
                         (fun x l => MkB (todo l) (flag l) (Some (got x))))
                  (fun _ => CLet (fun l _ => MkB (todo l) (flag l) None)))).

  (** What it computes. *)
  Definition better (acc : option rep) (x : rep) : option rep :=
    match acc with
    | None => Some x
    | Some v => if less v x then Some x else Some v
    end.
  Definition best_of (xs : list rep) : option rep := fold_left better xs None.

  Lemma best_ok : stmt_ok best_prog.
  Proof. cbn. repeat split; try (intros; discriminate). Qed.
  Lemma best_scoped rets : scoped rets best_prog.
  Proof. cbn. repeat split. Qed.

  Variable E : env W.
  Notation sto := (storable E i).

  (** The calls of the client, on the specification. *)
  Lemma c_default t :
    objs t i = None -> std_call E (ODefault i) t = (Ok ObUnit, MkS (upd (objs t) i (Some (SOpt None))) (sworld t)).
  Proof. intros H. unfold std_call. cbn. unfold sunit, s_new, sbind, fresh. rewrite H. reflexivity. Qed.
  Lemma c_bool t o :
    objs t i = Some (SOpt o) ->
    std_call E (OBool i) t = (Ok (ObBool (match o with Some _ => true | None => false end)), t).
  Proof. intros H. unfold std_call. cbn. unfold sbool, s_has, sbind, contents. rewrite H. reflexivity. Qed.
  Lemma c_read k t v :
    objs t i = Some (SOpt (Some v)) ->
    exists t', std_call E (OAccess k i true read_it) t = (Ok (ObVal v), t') /\ objs t' = objs t.
  Proof.
    intros H. exists t. split; [|reflexivity]. unfold std_call. cbn. unfold sval, s_access, sbind, contents. rewrite H.
    destruct t; reflexivity.
  Qed.
  Lemma c_throw t :
    objs t i = Some (SOpt None) ->
    std_call E (OAccess AccValue i true read_it) t = (Throw BadOptionalAccess, t).
  Proof. intros H. unfold std_call. cbn. unfold sval, s_access, sbind, contents. rewrite H. reflexivity. Qed.
  Lemma c_assign t o v :
    objs t i = Some (SOpt o) -> sto v = true ->
    exists t', std_call E (OAssign i (arg_val v)) t = (Ok ObUnit, t') /\ objs t' i = Some (SOpt (Some v)).
  Proof.
    intros H Hs. unfold std_call. cbn. unfold sunit, s_assign, sbind, contents. rewrite H.
    destruct o as [u|]; cbn.
    - unfold s_assign_existing, arg_val. cbn. unfold sread, sbind, suser, swrite, become. rewrite H. cbn.
      rewrite H, Hs. cbn. eexists. split; [reflexivity|]. cbn. unfold upd. rewrite Nat.eqb_refl. reflexivity.
    - unfold sinit, from_val. cbn. unfold sbind, suser, become. cbn. rewrite Hs. cbn.
      eexists. split; [reflexivity|]. cbn. unfold upd. rewrite Nat.eqb_refl. reflexivity.
  Qed.
  Lemma c_dtor t o :
    objs t i = Some (SOpt o) -> exists t', std_call E (ODtor i) t = (Ok ObUnit, t').
  Proof.
    intros H. unfold std_call. cbn. unfold sunit, s_dtor, sbind, contents. rewrite H.
    destruct o; cbn; eexists; reflexivity.
  Qed.

  Variable procs : nat -> stmt W bestL.
  Lemma best_round k l t x xs acc :
    todo l = x :: xs -> objs t i = Some (SOpt acc) -> sto x = true ->
    exists l' t',
      exec_std E procs (6 + k) best_body l t = (FNorm l', t') /\
      todo l' = xs /\ result l' = result l /\ objs t' i = Some (SOpt (better acc x)).
  Proof.
    intros Hl Ht Hx. unfold exec_std, best_body. cbn [exec plus Nat.add].
    rewrite (c_bool t acc Ht). destruct l as [td fl rs]. cbn in Hl. subst td.
    destruct acc as [v|]; cbn [exec yes flag todo result now got].
    - destruct (c_read AccDeref t v Ht) as (t1 & -> & H1). cbn [exec yes flag todo result now got].
      cbn [better]. destruct (less v x) eqn:Hls; cbn [exec flag todo].
      + assert (Ht1 : objs t1 i = Some (SOpt (Some v))) by congruence.
        destruct (c_assign t1 _ x Ht1 Hx) as (t2 & -> & H2). cbn [exec].
        eexists _, t2. split; [reflexivity|]. auto.
      + eexists _, t1. split; [reflexivity|]. cbn. rewrite H1. auto.
    - destruct (c_assign t _ x Ht Hx) as (t2 & -> & H2). cbn [exec].
      eexists _, t2. split; [reflexivity|]. auto.
  Qed.
  Lemma best_loop k : forall xs l t acc,
    todo l = xs -> objs t i = Some (SOpt acc) -> Forall (fun x => sto x = true) xs ->
    exists l' t',
      exec_std E procs (length xs + (7 + k))
        (CWhile (fun l => match todo l with [] => false | _ => true end) best_body) l t = (FNorm l', t') /\
      result l' = result l /\ objs t' i = Some (SOpt (fold_left better xs acc)).
  Proof.
    induction xs as [|x xs IH]; intros l t acc Hl Ht Hx.
    - exists l, t. unfold exec_std. cbn. rewrite Hl. auto.
    - inversion Hx as [|? ? Hx1 Hx2]; subst.
      change (length (x :: xs) + (7 + k)) with (Datatypes.S (length xs + (7 + k))).
      destruct (best_round (length xs + (1 + k)) l t x xs acc Hl Ht Hx1) as (l1 & t1 & H1 & G1 & G2 & G3).
      destruct (IH l1 t1 _ G1 G3 Hx2) as (l2 & t2 & H2 & G4 & G5).
      exists l2, t2. split; [|split; [congruence|exact G5]].
      replace (6 + (length xs + (1 + k))) with (length xs + (7 + k)) in H1 by lia.
      unfold exec_std in *. cbn [exec]. rewrite Hl, H1. exact H2.
  Qed.
  Lemma best_std xs w :
    Forall (fun x => sto x = true) xs ->
    exists l' t',
      exec_std E procs (length xs + 10) best_prog (MkB xs false None) (sinit_state w) = (FNorm l', t') /\
      result l' = best_of xs.
  Proof.
    intros Hx. unfold best_prog.
    pose proof (c_default (sinit_state w) eq_refl) as H0.
    replace (length xs + 10) with (Datatypes.S (Datatypes.S (length xs + (7 + 1)))) by lia.
    unfold exec_std. cbn [exec]. rewrite H0.
    set (t0 := MkS _ _).
    destruct (best_loop 1 xs (MkB xs false None) t0 None eq_refl) as (l1 & t1 & H1 & G1 & G2);
      [unfold t0; cbn; unfold upd; rewrite Nat.eqb_refl; reflexivity|exact Hx|].
    unfold exec_std in H1. rewrite H1.
    replace (length xs + (7 + 1)) with (Datatypes.S (Datatypes.S (length xs + 6))) by lia. cbn [exec].
    fold (best_of xs) in G2. unfold closing. destruct (best_of xs) as [v|].
    - destruct (c_read AccValue t1 v G2) as (t2 & -> & H2). cbn [got].
      assert (G : objs t2 i = Some (SOpt (Some v))) by congruence.
      destruct (c_dtor t2 _ G) as (t3 & ->). eexists _, t3. split; reflexivity.
    - rewrite (c_throw t1 G2). destruct (c_dtor t1 _ G2) as (t3 & ->). eexists _, t3. split; reflexivity.
  Qed.
End Best.

(** With tiny optionals, for every storage strategy and payload type, every list of values
    that the optional can store, every comparison and every side effect of T's
    operations: the program computes the best element, or nothing for an empty list, and
    leaves nothing behind. *)
Theorem C59_best_of_a_list :
  forall W (E : env W) touch less i xs w,
    env_ok E -> (forall x, In x xs -> storable E i x = true) ->
    exists n l s,
      exec_tiny E (fun _ => CSkip) n (best_prog touch less i) (MkB xs false None) (init_state w)
        = (FNorm l, s) /\
      result l = best_of less xs /\
      forall j, mem s j = None /\
                count (is_pay_begin j) (trace s) = count (is_pay_end j) (trace s).
Proof.
  intros W E touch less i xs w HE Hx.
  assert (Hx' : Forall (fun x => storable E i x = true) xs) by (apply Forall_forall; exact Hx).
  destruct (best_std touch less i E (fun _ => CSkip) xs w Hx') as (l & t & H & Hr).
  exists (length xs + 10), l.
  destruct (C59_blocks_leave_nothing W bestL E (fun _ => CSkip) (fun _ => None) _ _ _ _ _ _ HE
              (fun _ => conj I eq_refl) (best_ok touch less i) (best_scoped touch less i _) H)
    as (s & Hs & _ & Hm); [left; eexists; reflexivity|].
  exists s. split; [exact Hs|]. split; [exact Hr|]. intros j. destruct (Hm j) as (A & B & _). auto.
Qed.

(** For the sentinel type of the samples (a class with throwing operations elsewhere); 0 is
    the sentinel. *)
Example C59_best_example dbg :
  let num (z : Z) : rep := [Atom z; Atom 7] in
  let less a b := match a, b with Atom x :: _, Atom y :: _ => Z.ltb x y | _, _ => false end in
  (forall x, In x [num 3%Z; num 8%Z; num 5%Z] -> storable (sample dbg) 10 x = true) /\
  best_of less [num 3%Z; num 8%Z; num 5%Z] = Some (num 8%Z) /\
  match exec_tiny (sample dbg) (fun _ => CSkip) 20 (best_prog (fun w => w) less 10)
          (MkB [num 3%Z; num 8%Z; num 5%Z] false None) (init_state quiet) with
  | (FNorm l, _) => result l = Some (num 8%Z)
  | _ => False
  end.
Proof.
  cbn zeta. split.
  - intros x [<-|[<-|[<-|[]]]]; destruct dbg; reflexivity.
  - destruct dbg; vm_compute; auto.
Qed.

(** ** A function that returns an optional by value *)

(** A search, written recursively:

      optional<T> search(xs) {
        if (xs is empty) return nullopt;
        if (good(head of xs)) return optional<T>(in_place, head of xs);
        return search(tail of xs);
      }
      ...
      optional<T> r = search(xs);
      try { return r.value(); } catch (bad_optional_access) { return nothing; }

    All activations construct the caller's variable [r] (copy elision). *)
Section Search.
  Context {W : Type}.
  Variable touch : W -> W.
  Variable good : rep -> bool.
  Variable i : loc.

  Definition search_proc : stmt W bestL :=
    CIf (fun l => match todo l with [] => true | _ => false end)
      (CCall (fun _ _ => ONullopt i) (fun _ l => l))
      (CIf (fun l => good (now l))
         (CCall (fun l _ => OInPlace i (from_val touch (now l))) (fun _ l => l))
         (CProc 0 (fun l => MkB (tl (todo l)) (flag l) (result l)) (fun l _ => l))).
  Definition search_prog : stmt W bestL :=
    CBlock (fun _ => i) false (CProc 0 (fun l => l) (fun l _ => l))
      (CTry (CCall (fun _ _ => OAccess AccValue i true read_it)
                   (fun x l => MkB (todo l) (flag l) (Some (got x))))
            (fun _ => CLet (fun l _ => MkB (todo l) (flag l) None))).
  Definition search_rets (p : nat) : option (bestL -> loc) := Some (fun _ => i).

  Variable E : env W.
  Notation sto := (storable E i).
  Notation ex := (exec_std E (fun _ => search_proc)).

  Lemma search_std xs : forall l t,
    todo l = xs -> objs t i = None -> (forall x, find good xs = Some x -> sto x = true) ->
    exists t', ex (3 * length xs + 4) search_proc l t = (FNorm l, t') /\ objs t' i = Some (SOpt (find good xs)).
  Proof.
    induction xs as [|x xs IH]; intros l t Hl Ht Hx.
    - unfold exec_std, search_proc. change (3 * length (@nil rep) + 4) with 4. cbn [exec]. rewrite Hl.
      unfold std_call. cbn. unfold sunit, s_new, sbind, fresh. rewrite Ht.
      cbn. eexists. split; [reflexivity|]. cbn. unfold upd. rewrite Nat.eqb_refl. reflexivity.
    - replace (3 * length (x :: xs) + 4) with (Datatypes.S (Datatypes.S (Datatypes.S (3 * length xs + 4)))) by (cbn [length]; lia).
      unfold exec_std, search_proc. cbn [exec]. rewrite Hl. unfold now at 1. rewrite Hl.
      cbn [find] in *. destruct (good x) eqn:Hg.
      + specialize (Hx x eq_refl). unfold std_call. cbn. unfold sunit, sbind, fresh, sinit, now. rewrite Hl, Ht.
        cbn. unfold sbind, suser, become. cbn. rewrite Hx. cbn.
        eexists. split; [reflexivity|]. cbn. unfold upd. rewrite Nat.eqb_refl. reflexivity.
      + set (l1 := MkB xs (flag l) (result l)).
        destruct (IH l1 t) as (t' & H & G); [reflexivity|exact Ht|exact Hx|].
        exists t'. split; [|exact G]. unfold exec_std in H. cbn [tl]. fold l1 search_proc. rewrite H. reflexivity.
  Qed.
  Lemma search_total xs w :
    (forall x, find good xs = Some x -> sto x = true) ->
    exists l t,
      ex (3 * length xs + 6) search_prog (MkB xs false None) (sinit_state w) = (FNorm l, t) /\
      result l = find good xs.
  Proof.
    intros Hx. set (l0 := MkB xs false None).
    destruct (search_std xs l0 (sinit_state w) eq_refl eq_refl Hx) as (t1 & H1 & G1).
    replace (3 * length xs + 6) with (Datatypes.S (Datatypes.S (3 * length xs + 4))) by lia.
    unfold exec_std, search_prog in *. cbn [exec]. rewrite H1.
    replace (3 * length xs + 4) with (Datatypes.S (Datatypes.S (3 * length xs + 2))) by lia. cbn [exec].
    unfold closing. destruct (find good xs) as [v|].
    - destruct (c_read i E AccValue t1 v G1) as (t2 & -> & H2). cbn [got].
      assert (G : objs t2 i = Some (SOpt (Some v))) by congruence.
      destruct (c_dtor i E t2 _ G) as (t3 & ->). eexists _, t3. split; reflexivity.
    - rewrite (c_throw i E t1 G1). destruct (c_dtor i E t1 _ G1) as (t3 & ->). eexists _, t3. split; reflexivity.
  Qed.
End Search.

(** For every storage strategy, list, predicate and side effect of T's operations: the
    program finds the first good element and leaves nothing behind. *)
Theorem C59_search :
  forall W (E : env W) touch good i xs w,
    env_ok E -> (forall x, find good xs = Some x -> storable E i x = true) ->
    exists n l s,
      exec_tiny E (fun _ => search_proc touch good i) n (search_prog i) (MkB xs false None) (init_state w)
        = (FNorm l, s) /\
      result l = find good xs /\
      forall j, mem s j = None /\
                count (is_pay_begin j) (trace s) = count (is_pay_end j) (trace s).
Proof.
  intros W E touch good i xs w HE Hx.
  destruct (search_total touch good i E xs w Hx) as (l & t & H & Hr).
  exists (3 * length xs + 6), l.
  assert (Hp : forall p : nat, stmt_ok (search_proc touch good i) /\
                 creates (search_rets i) (search_rets i p) (search_proc touch good i)).
  { intros p. cbn. repeat split; intros; try discriminate. }
  assert (Hc : stmt_ok (search_prog (W := W) i)) by (cbn; repeat split; intros; discriminate).
  assert (Hs : scoped (search_rets i) (search_prog (W := W) i)) by (cbn; repeat split).
  destruct (C59_blocks_leave_nothing W bestL E (fun _ => search_proc touch good i) (search_rets i)
              _ _ _ _ _ _ HE Hp Hc Hs H) as (s & Hy & _ & Hm); [left; eexists; reflexivity|].
  exists s. split; [exact Hy|]. split; [exact Hr|]. intros j. destruct (Hm j) as (A & B & _). auto.
Qed.
Example C59_search_example dbg :
  let num (z : Z) : rep := [Atom z; Atom 7] in
  let big v := match v with Atom x :: _ => Z.ltb 4 x | _ => false end in
  let xs := [num 3%Z; num 8%Z; num 5%Z] in
  (forall x, find big xs = Some x -> storable (sample dbg) 10 x = true) /\
  find big xs = Some (num 8%Z) /\ find big [num 1%Z] = None /\
  match exec_tiny (sample dbg) (fun _ => search_proc (fun w => w) big 10) 20 (search_prog 10)
          (MkB xs false None) (init_state quiet) with
  | (FNorm l, s) => result l = Some (num 8%Z) /\ length (trace s) = 4
  | _ => False
  end.
Proof.
  cbn zeta. split.
  - intros x H. vm_compute in H. injection H as <-. destruct dbg; reflexivity.
  - destruct dbg; vm_compute; auto.
Qed.

(** ** A client with recursion and exceptions *)

(** [f(n)]: { optional<P> x(in_place, n, n); if (n > 0) f(n - 1); else throw UserExn(5); },
    variables numbered by depth; called within try.  The exception unwinds all frames. *)
Definition deep_proc : stmt sworld_t nat :=
  CBlock (fun n => n) false (CCall (fun n _ => OInPlace n (mkP (Z.of_nat n) 1)) (fun _ n => n))
    (CIf (fun n => Nat.eqb n 0) (CThrow (fun _ => UserExn 5)) (CProc 0 pred (fun n _ => n))).
Definition deep_main : stmt sworld_t nat :=
  CTry (CProc 0 (fun n => n) (fun n _ => n)) (fun e => CLet (fun _ _ => match e with UserExn k => 100 + k | _ => 0 end)).

Lemma deep_ok :
  let none (_ : nat) := @None (nat -> loc) in
  stmt_ok deep_proc /\ scoped none deep_proc /\ stmt_ok deep_main /\ scoped none deep_main.
Proof. cbn. repeat split; intros; try discriminate. Qed.

(** Fourteen frames, four with an in-place sentinel and ten with a separate flag; and the
    sixth constructor throws. *)
Example C59_recursion_example dbg :
  (match exec_tiny (sample dbg) (fun _ => deep_proc) 60 deep_main 13 (init_state quiet) with
   | (FNorm 105, s) => mem s 13 = None /\ mem s 0 = None /\ length (trace s) = 36
   | _ => False
   end) /\
  (match exec_std (sample dbg) (fun _ => deep_proc) 60 deep_main 13 (sinit_state quiet) with
   | (FNorm 105, _) => True
   | _ => False
   end) /\
  (match exec_tiny (sample dbg) (fun _ => deep_proc) 60 deep_main 13
           (init_state (plan [None; None; None; None; None; Some 8])) with
   | (FNorm 108, s) => mem s 13 = None /\ mem s 8 = None /\ length (trace s) = 18
   | _ => False
   end).
Proof. destruct dbg; vm_compute; auto. Qed.
