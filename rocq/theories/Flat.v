(** * Flat: one memory of bytes

    [Machine.v] gives every optional a region of its own and remembers which objects are
    alive.  A computer does neither: there is one array of bytes, optionals are at
    addresses in it, in arrays next to each other, and destroyed or uninitialized objects
    are just bytes that somebody left there.  This is the library on such a memory, and
    the proof that it behaves the same. *)

From Coq Require Import List NArith ZArith Bool Arith Lia.
From Verif Require Import Cells Machine Optional Program Spec CellsFacts Laws Refine Contract.
From Verif Require Import Histories Bits Manip IntRange Select Selection Whole Documented Sample.
From Verif Require Import Effects Threads Generic ExampleTac.
Import ListNotations.

(** ** Memory *)

(** The [n] bytes at address [a]. *)
Definition rd (a n : nat) (m : nat -> cell) : rep := map m (seq a n).
(** Write [v] at address [a]. *)
Definition wr (a : nat) (v : rep) (m : nat -> cell) : nat -> cell :=
  fun x => if (a <=? x) && (x <? a + length v) then nth (x - a) v Indet else m x.

(** The state: bytes, and the rest of the program. *)
Record fstate (W : Type) : Type := MkF { bytes : nat -> cell; fworld : W }.
Arguments MkF {W} _ _.
Arguments bytes {W} _ _.
Arguments fworld {W} _.

(** [a] where determinate, anything elsewhere. *)
Definition below : rep -> rep -> Prop := Forall2 (fun x y => x = Indet \/ x = y).

Section FlatMachine.
  Context {W : Type}.
  Variable E : env W.
  (** Address of every variable. *)
  Variable base : loc -> nat.
  (** What really ends up in memory when [new], possibly with indeterminate parts, is to be
      written over [old] at an address; it may depend on everything. *)
  Variable junk : W -> nat -> rep -> rep -> rep.

  Definition f_write (i : loc) (off : nat) (x : rep) : @G (fstate W) unit := fun f =>
    let a := base i + off in
    (Ok tt, MkF (wr a (junk (fworld f) a (rd a (length x) (bytes f)) x) (bytes f)) (fworld f)).
  Definition f_call (A : Type) (g : W -> A * W) : @G (fstate W) A := fun f =>
    let (a, w) := g (fworld f) in (Ok a, MkF (bytes f) w).
  Definition f_load (i : loc) : @G (fstate W) rep := fun f =>
    (Ok (rd (base i) (d_psize (dec E i)) (bytes f)), f).
  Definition f_store (i : loc) (v : rep) : @G (fstate W) unit := fun f =>
    (Ok tt, MkF (wr (base i) (firstn (d_psize (dec E i)) v) (bytes f)) (fworld f)).
  Definition f_dtor (i : loc) : @G (fstate W) unit :=
    bind' (f_load i) (fun v => f_call unit (fun w => (tt, po_dtor (ops E i) v w))).
  Definition f_flag (i : loc) (f : fstate W) : rep :=
    rd (base i + d_foff (dec E i)) (d_fsize (dec E i)) (bytes f).

  (** The primitives: no lifetimes, no checks; where the C++ standard says that the content
      is indeterminate, it is [junk]. *)
  Definition flat : prims W (fstate W) := {|
    p_call := f_call;
    p_alloc := fun i => f_write i 0 (indets (d_ssize (dec E i)));
    p_dealloc := fun i => ret' tt;
    p_load := f_load;
    p_store := f_store;
    p_begin := f_store;
    p_end := fun i => bind' (f_dtor i) (fun _ => f_write i 0 (indets (d_psize (dec E i))));
    p_is_empty := fun i f => match m_is_empty (man E i) (f_flag i f) with
                             | Some b => (Ok b, f)
                             | None => (Dead IndetRead, f)
                             end;
    p_init := fun i f => f_write i (d_foff (dec E i)) (m_init (man E i) (f_flag i f)) f;
    p_invalidate := fun i f => f_write i (d_foff (dec E i)) (m_inval (man E i) (f_flag i f)) f;
    p_var_new := f_store;
    p_var_drop := f_dtor
  |}.

  (** The variables do not overlap. *)
  Definition placed : Prop := forall i j, i <> j ->
    base i + d_ssize (dec E i) <= base j \/ base j + d_ssize (dec E j) <= base i.
  (** Only what is indeterminate is arbitrary. *)
  Definition junk_ok : Prop := forall w a old new,
    length old = length new -> below new (junk w a old new).
  (** The address belongs to no variable that the program names. *)
  Definition elsewhere (p : list (op W)) (x : nat) : Prop :=
    forall o i, In o p -> In i (uses o) -> x < base i \/ base i + d_ssize (dec E i) <= x.
End FlatMachine.

(** A flag manipulator that decides something decides by what is determinate. *)
Record manip_mono (F : manip) : Prop := {
  mm_is_empty : forall c c' b, below c c' -> m_is_empty F c = Some b -> m_is_empty F c' = Some b;
  mm_init : forall c c', below c c' -> below (m_init F c) (m_init F c');
  mm_inval : forall c c', below c c' -> below (m_inval F c) (m_inval F c')
}.
Definition env_mono {W} (E : env W) : Prop := forall t, manip_mono (ot_man (e_tys E t)).

(** ** Facts about bytes *)

Lemma below_refl a : below a a.
Proof. induction a; constructor; auto. Qed.
Lemma below_len a b : below a b -> length a = length b.
Proof. induction 1; cbn; congruence. Qed.
Lemma below_trans a b c : below a b -> below b c -> below a c.
Proof.
  intros H. revert c. induction H as [|x y a b Hx H IH]; intros c Hc; inversion Hc; subst;
    constructor.
  - destruct Hx as [->| ->]; auto.
  - apply IH. assumption.
Qed.
Lemma below_firstn n : forall a b, below a b -> below (firstn n a) (firstn n b).
Proof.
  induction n as [|n IH]; intros a b H; [constructor|]. destruct H; cbn; constructor; auto.
  apply IH, H0.
Qed.
Lemma below_skipn n : forall a b, below a b -> below (skipn n a) (skipn n b).
Proof. induction n as [|n IH]; intros a b H; [exact H|]. destruct H; cbn; [constructor|auto]. Qed.
Lemma below_sub o l a b : below a b -> below (sub o l a) (sub o l b).
Proof. intros H. apply below_firstn, below_skipn, H. Qed.
Lemma below_app a b c d : below a b -> below c d -> below (a ++ c) (b ++ d).
Proof. apply Forall2_app. Qed.
Lemma below_put o x y a b : below x y -> below a b -> below (put o x a) (put o y b).
Proof.
  intros Hx H. unfold put. rewrite (below_len _ _ Hx). apply below_app; [apply below_firstn, H|].
  apply below_app; [exact Hx|apply below_skipn, H].
Qed.
Lemma below_indets x n : length x = n -> below (indets n) x.
Proof. intros <-. induction x; cbn; constructor; auto. Qed.

Lemma length_rd a n m : length (rd a n m) = n.
Proof. unfold rd. rewrite map_length. apply seq_length. Qed.
Lemma nth_rd a n m k : k < n -> nth_error (rd a n m) k = Some (m (a + k)).
Proof.
  intros H. unfold rd. apply map_nth_error.
  rewrite (nth_error_nth' _ 0) by (rewrite seq_length; lia). rewrite seq_nth by lia. reflexivity.
Qed.
Lemma rd_ext a n m m' : (forall x, a <= x < a + n -> m x = m' x) -> rd a n m = rd a n m'.
Proof. intros H. unfold rd. apply map_ext_in. intros x Hx. apply in_seq in Hx. apply H. lia. Qed.
Lemma rd_sub a n m o l : o + l <= n -> sub o l (rd a n m) = rd (a + o) l m.
Proof.
  intros H. apply nth_ext.
  - rewrite length_sub; rewrite ?length_rd; lia.
  - intros k Hk. rewrite length_sub in Hk by (rewrite length_rd; lia).
    rewrite nth_sub by lia. rewrite !nth_rd by lia. f_equal. f_equal. lia.
Qed.
Lemma wr_out a v m x : x < a \/ a + length v <= x -> wr a v m x = m x.
Proof.
  intros H. unfold wr. destruct (Nat.leb_spec a x), (Nat.ltb_spec x (a + length v)); cbn; auto. lia.
Qed.
Lemma wr_in a v m k c : nth_error v k = Some c -> wr a v m (a + k) = c.
Proof.
  intros H. pose proof (proj1 (nth_error_Some v k) ltac:(congruence)) as Hk. unfold wr.
  destruct (Nat.leb_spec a (a + k)), (Nat.ltb_spec (a + k) (a + length v)); cbn; try lia.
  replace (a + k - a) with k by lia. apply nth_error_nth, H.
Qed.
Lemma rd_wr a n m o v : o + length v <= n -> rd a n (wr (a + o) v m) = put o v (rd a n m).
Proof.
  intros H. apply nth_ext.
  - rewrite length_put; rewrite ?length_rd; lia.
  - intros k Hk. rewrite length_rd in Hk. rewrite nth_rd by lia.
    rewrite nth_put by (rewrite length_rd; lia).
    destruct (Nat.ltb_spec k o).
    + rewrite wr_out by lia. rewrite nth_rd by lia. reflexivity.
    + destruct (Nat.ltb_spec k (o + length v)).
      * destruct (nth_error v (k - o)) as [c|] eqn:Hc.
        2:{ apply nth_error_None in Hc. lia. }
        replace (a + k) with (a + o + (k - o)) by lia. f_equal. apply wr_in, Hc.
      * rewrite wr_out by lia. rewrite nth_rd by lia. reflexivity.
Qed.
Lemma rd_wr_same a m v n : length v = n -> rd a n (wr a v m) = v.
Proof.
  intros <-. pose proof (rd_wr a (length v) m 0 v ltac:(lia)) as H. rewrite Nat.add_0_r in H.
  rewrite H. apply put_full. rewrite length_rd. reflexivity.
Qed.

(** ** The flat machine simulates the one with regions *)
Section Simulates.
  Context {W : Type}.
  Variable E : env W.
  Variable base : loc -> nat.
  Variable junk : W -> nat -> rep -> rep -> rep.
  Hypothesis HE : env_ok E.
  Hypothesis HM : env_mono E.
  Hypothesis HP : placed E base.
  Hypothesis HJ : junk_ok junk.
  Local Notation F := (flat E base junk).
  Local Notation psize i := (d_psize (dec E i)).
  Local Notation ssize i := (d_ssize (dec E i)).

  Record shown (i : loc) (r : region) (m : nat -> cell) : Prop := MkShown {
    sh_lo : psize i <= length (cells r);
    sh_hi : length (cells r) <= ssize i;
    sh_full : flag_obj r = true \/ d_sep (dec E i) = false -> length (cells r) = ssize i;
    sh_one : d_sep (dec E i) = false -> pay_obj r = true -> flag_obj r = false;
    sh_cells : below (cells r) (rd (base i) (length (cells r)) m);
    sh_pay : pay_obj r = true -> sub 0 (psize i) (cells r) = rd (base i) (psize i) m
  }.
  Definition same_bytes (s : state W) (f : fstate W) : Prop :=
    world s = fworld f /\
    (forall i r, mem s i = Some r -> shown i r (bytes f)).
  Definition full (i : loc) (s : state W) : Prop :=
    exists r, mem s i = Some r /\ length (cells r) = ssize i.
  Definition hard (d : fault) : bool :=
    match d with AssertFailed | Terminated => true | _ => false end.
  Local Notation SIM := (SIM same_bytes hard).
  Local Notation flo := (flo full).

  Lemma dec_ok i : decomp_ok (dec E i).
  Proof. apply (HE (e_tid E i)). Qed.
  Lemma man_ok i : manip_ok (dec E i) (man E i).
  Proof. apply (HE (e_tid E i)). Qed.
  Lemma mono i : manip_mono (man E i).
  Proof. apply (HM (e_tid E i)). Qed.

  Lemma shown_ext i r m m' :
    shown i r m -> (forall x, base i <= x < base i + ssize i -> m x = m' x) -> shown i r m'.
  Proof.
    intros [A B C D F0 G0] H. constructor; auto.
    - rewrite <- (rd_ext (base i) (length (cells r)) m m'); [exact F0|]. intros x Hx. apply H. lia.
    - intros Hp. rewrite <- (rd_ext (base i) (psize i) m m'); [auto|]. intros x Hx. apply H. lia.
  Qed.
  Lemma same_set s f i r' m' w tr :
    same_bytes s f -> shown i r' m' ->
    (forall x, x < base i \/ base i + ssize i <= x -> m' x = bytes f x) ->
    same_bytes (MkState (upd (mem s) i (Some r')) w tr) (MkF m' w).
  Proof.
    intros (Hw & Hs) Hr Ho. split; [reflexivity|]. cbn [mem bytes].
    intros j r. unfold upd. destruct (Nat.eqb_spec i j) as [<-|Hn].
    - intros [= <-]. exact Hr.
    - intros Hj. apply (shown_ext j r (bytes f)); [apply Hs, Hj|].
      intros x Hx. symmetry. apply Ho. destruct (HP i j Hn); lia.
  Qed.
  Lemma same_unset s f i tr :
    same_bytes s f -> same_bytes (MkState (upd (mem s) i None) (world s) tr) f.
  Proof.
    intros (Hw & Hs). split; [exact Hw|]. cbn [mem].
    intros j r. unfold upd. destruct (Nat.eqb i j); [discriminate|apply Hs].
  Qed.
  Lemma same_world s f w tr :
    same_bytes s f -> same_bytes (MkState (mem s) w tr) (MkF (bytes f) w).
  Proof. intros (Hw & Hs). split; [reflexivity|exact Hs]. Qed.
  Lemma full_mem o i r r' s w tr :
    mem s i = Some r -> length (cells r') = length (cells r) -> flo o s ->
    flo o (MkState (upd (mem s) i (Some r')) w tr).
  Proof.
    intros Hm Hl. destruct o as [j|]; [|auto]. cbn. intros (r0 & Hj & Hl0). unfold full, upd. cbn [mem].
    destruct (Nat.eqb_spec i j) as [<-|Hn]; [|eauto].
    rewrite Hm in Hj. injection Hj as <-. exists r'. split; [reflexivity|congruence].
  Qed.

  (** Writing, with [x] as the model has it and [y] as it is. *)
  Lemma shown_flag i r (m : nat -> cell) x y fl :
    shown i r m -> length (cells r) = ssize i -> below x y -> length x = d_fsize (dec E i) ->
    (d_sep (dec E i) = false -> pay_obj r = false) ->
    shown i (MkRegion (put (d_foff (dec E i)) x (cells r)) fl (pay_obj r))
          (wr (base i + d_foff (dec E i)) y m).
  Proof.
    intros [A B C D F0 G0] Hl Hb Hx Hp. pose proof (dec_ok i) as O. pose proof (do_flag _ O).
    pose proof (below_len _ _ Hb) as Hy.
    assert (HL : length (put (d_foff (dec E i)) x (cells r)) = length (cells r))
      by (apply length_put; lia).
    constructor; cbn [cells flag_obj pay_obj].
    - lia.
    - lia.
    - lia.
    - intros Hs. rewrite (Hp Hs). discriminate.
    - rewrite HL. rewrite rd_wr by lia. apply below_put; assumption.
    - intros Hq. destruct (d_sep (dec E i)) eqn:Hs; [|rewrite Hp in Hq by reflexivity; discriminate].
      pose proof (do_sep _ O Hs). rewrite sub_put_disj by lia. rewrite (G0 Hq).
      apply rd_ext. intros z Hz. symmetry. apply wr_out. lia.
  Qed.
  Lemma shown_flag_cells i r m :
    shown i r m -> length (cells r) = ssize i ->
    below (sub (d_foff (dec E i)) (d_fsize (dec E i)) (cells r))
          (rd (base i + d_foff (dec E i)) (d_fsize (dec E i)) m).
  Proof.
    intros [A B C D F0 G0] Hl. pose proof (do_flag _ (dec_ok i)).
    rewrite <- (rd_sub (base i) (length (cells r))) by lia. apply below_sub, F0.
  Qed.
  Lemma shown_store i r m v :
    shown i r m -> length v = psize i ->
    (d_sep (dec E i) = false -> flag_obj r = false) ->
    shown i (MkRegion (put 0 v (cells r)) (flag_obj r) true) (wr (base i) (firstn (psize i) v) m).
  Proof.
    intros [A B C D F0 G0] Hv Hf. rewrite firstn_all2 by lia.
    assert (HL : length (put 0 v (cells r)) = length (cells r)) by (apply length_put; lia).
    constructor; cbn [cells flag_obj pay_obj].
    - lia.
    - lia.
    - rewrite HL. exact C.
    - intros Hs _. exact (Hf Hs).
    - rewrite HL. pose proof (rd_wr (base i) (length (cells r)) m 0 v ltac:(lia)) as Hr.
      rewrite Nat.add_0_r in Hr. rewrite Hr. apply below_put; [apply below_refl|exact F0].
    - intros _. rewrite sub_put_same' by lia. symmetry. apply rd_wr_same, Hv.
  Qed.

  Lemma f_write_eq i off x f : exists y,
    f_write base junk i off x f = (Ok tt, MkF (wr (base i + off) y (bytes f)) (fworld f)) /\
    below x y.
  Proof. eexists. split; [reflexivity|]. apply HJ, length_rd. Qed.

  Lemma R_call o A (g : W -> A * W) :
    SIM (flo o) (p_call (machine E) A g) (p_call F A g) (fun _ => flo o) (flo o).
  Proof.
    intros s f Hr Hs. cbn. unfold call, f_call. destruct Hr as (Hw & Hr). rewrite <- Hw.
    destruct (g (world s)) as [a w]. eexists. split; [reflexivity|].
    split; [apply same_world; split; [exact Hw|exact Hr]|].
    destruct o; exact Hs.
  Qed.
  Lemma R_load o i :
    SIM (flo o) (p_load (machine E) i) (p_load F i) (fun _ => flo o) (flo o).
  Proof.
    intros s f Hr Hs. cbn. unfold load_payload, bind, get_region.
    destruct (mem s i) as [r|] eqn:Hm; [|discriminate].
    destruct (pay_obj r) eqn:Hp; cbn; [|discriminate].
    exists f. split; [|auto]. unfold f_load. destruct Hr as (_ & Hr).
    rewrite (sh_pay _ _ _ (Hr i r Hm) Hp). reflexivity.
  Qed.
  Lemma R_store o i v :
    SIM (flo o) (p_store (machine E) i v) (p_store F i v) (fun _ => flo o) (flo o).
  Proof.
    intros s f Hr Hs. cbn. unfold store_payload, bind, get_region.
    destruct (mem s i) as [r|] eqn:Hm; [|discriminate].
    destruct (pay_obj r) eqn:Hp; cbn; [|discriminate].
    destruct (Nat.eqb_spec (length v) (psize i)) as [Hv|]; cbn; [|discriminate].
    pose proof Hr as (Hw & Hsh). specialize (Hsh i r Hm).
    eexists. split; [reflexivity|]. rewrite <- Hw. split.
    - apply (same_set s f); [exact Hr| |].
      + apply shown_store; [exact Hsh|exact Hv|]. intros Hs'. apply (sh_one _ _ _ Hsh Hs' Hp).
      + intros x Hx. apply wr_out. pose proof (do_pay _ (dec_ok i)). rewrite ?firstn_length. lia.
    - eapply full_mem; [exact Hm| |exact Hs].
      change (length (put 0 v (cells r)) = length (cells r)). apply length_put.
      pose proof (sh_lo _ _ _ Hsh). lia.
  Qed.
  Lemma R_alloc i :
    SIM all1 (p_alloc (machine E) i) (p_alloc F i) (fun _ => full i) all1.
  Proof.
    intros s f Hr _. cbn [p_alloc machine flat]. unfold alloc.
    destruct (mem s i) as [r|] eqn:Hm; [discriminate|].
    destruct (f_write_eq i 0 (indets (ssize i)) f) as (y & -> & Hb).
    pose proof (below_len _ _ Hb) as Hy. rewrite length_indets in Hy. rewrite Nat.add_0_r.
    unfold set_region. pose proof (dec_ok i) as O. pose proof (do_pay _ O). pose proof Hr as (Hw & _).
    eexists. split; [reflexivity|]. rewrite <- Hw. split.
    - apply (same_set s f); [exact Hr| |].
      + constructor; cbn [cells flag_obj pay_obj]; rewrite ?length_indets; try lia; try discriminate.
        rewrite rd_wr_same by lia. exact Hb.
      + intros x Hx. apply wr_out. lia.
    - exists (MkRegion (indets (ssize i)) (d_sep (dec E i)) false). cbn [mem cells].
      unfold upd. rewrite Nat.eqb_refl. split; [reflexivity|apply length_indets].
  Qed.
  Lemma R_dealloc i :
    SIM all1 (p_dealloc (machine E) i) (p_dealloc F i) (fun _ => all1) all1.
  Proof.
    intros s f Hr _. cbn. unfold dealloc, bind, get_region.
    destruct (mem s i) as [r|] eqn:Hm; [|discriminate].
    destruct (pay_obj r), (flag_obj r && negb (d_sep (dec E i))); cbn;
      (exists f; split; [reflexivity|]; split; [apply same_unset; exact Hr|exact I]).
  Qed.
  Lemma R_begin i v :
    SIM (full i) (p_begin (machine E) i v) (p_begin F i v) (fun _ => all1) (full i).
  Proof.
    intros s f Hr Hs. cbn. unfold bind, get_region.
    destruct (mem s i) as [r|] eqn:Hm; [|discriminate].
    destruct (pay_obj r || (flag_obj r && negb (d_sep (dec E i)))) eqn:Hp; cbn; [discriminate|].
    destruct (Nat.eqb_spec (length v) (psize i)) as [Hv|]; cbn; [|discriminate].
    apply orb_false_elim in Hp. destruct Hp as [Hp Hf].
    pose proof Hr as (Hw & Hsh). specialize (Hsh i r Hm).
    eexists. split; [reflexivity|]. rewrite <- Hw. split; [|exact I].
    apply (same_set s f); [exact Hr| |].
    - apply shown_store; [exact Hsh|exact Hv|]. intros Hs'. rewrite Hs' in Hf.
      destruct (flag_obj r); [discriminate|reflexivity].
    - intros x Hx. apply wr_out. pose proof (do_pay _ (dec_ok i)). rewrite ?firstn_length. lia.
  Qed.
  Lemma R_end i :
    SIM (full i) (p_end (machine E) i) (p_end F i) (fun _ => full i) all1.
  Proof.
    intros s f Hr Hs. cbn [p_end machine flat].
    unfold destroy_payload, f_dtor, bind, bind', get_region, f_load, f_call, call, set_region, log.
    destruct (mem s i) as [r|] eqn:Hm; [|discriminate].
    destruct (pay_obj r) eqn:Hp; cbn beta iota zeta; [|discriminate].
    pose proof Hr as (Hw & Hsh). specialize (Hsh i r Hm). rewrite <- Hw.
    rewrite <- (sh_pay _ _ _ Hsh Hp).
    destruct Hsh as [A B C D F0 G0]. cbn [mem world trace].
    set (w' := po_dtor (ops E i) (sub 0 (psize i) (cells r)) (world s)).
    destruct (f_write_eq i 0 (indets (psize i)) (MkF (bytes f) w')) as (y & -> & Hb).
    pose proof (below_len _ _ Hb) as Hy. rewrite length_indets in Hy. cbn [bytes fworld].
    rewrite Nat.add_0_r.
    eexists. split; [reflexivity|].
    assert (HL : length (put 0 (indets (psize i)) (cells r)) = length (cells r))
      by (apply length_put; rewrite length_indets; lia).
    split.
    - apply (same_set s f); [exact Hr| |].
      + constructor; cbn [cells flag_obj pay_obj]; try lia.
        * rewrite HL. exact C.
        * rewrite HL. pose proof (rd_wr (base i) (length (cells r)) (bytes f) 0 y ltac:(lia)) as Hr0.
          rewrite Nat.add_0_r in Hr0. rewrite Hr0. apply below_put; [exact Hb|exact F0].
      + intros x Hx. apply wr_out. pose proof (do_pay _ (dec_ok i)). rewrite ?firstn_length. lia.
    - eapply (full_mem (Some i)); [exact Hm| |exact Hs]. exact HL.
  Qed.
  Lemma R_is_empty i :
    SIM all1 (p_is_empty (machine E) i) (p_is_empty F i) (fun _ => full i) all1.
  Proof.
    intros s f Hr _. cbn. unfold fm_is_empty, bind, get_region.
    destruct (mem s i) as [r|] eqn:Hm; [|discriminate].
    pose proof Hr as (Hw & Hsh). specialize (Hsh i r Hm).
    destruct (flag_obj r || (pay_obj r && negb (d_sep (dec E i)))) eqn:Hf; cbn; [|discriminate].
    assert (HL : length (cells r) = ssize i).
    { apply (sh_full _ _ _ Hsh). apply orb_prop in Hf. destruct Hf as [Hf|Hf]; [auto|].
      apply andb_prop in Hf. right. destruct (d_sep (dec E i)); [destruct Hf; discriminate|reflexivity]. }
    destruct (m_is_empty (man E i) (sub (d_foff (dec E i)) (d_fsize (dec E i)) (cells r))) as [b|] eqn:Hb;
      cbn; [|discriminate].
    pose proof (mm_is_empty _ (mono i) _ _ b (shown_flag_cells i r _ Hsh HL) Hb) as Hb'.
    exists f. unfold f_flag. rewrite Hb'. split; [reflexivity|]. split; [exact Hr|].
    exists r. auto.
  Qed.
  Lemma R_init i :
    SIM (full i) (p_init (machine E) i) (p_init F i) (fun _ => all1) all1.
  Proof.
    intros s f Hr (r0 & Hm0 & HL). cbn [p_init machine flat]. unfold fm_init, bind, get_region.
    destruct (mem s i) as [r|] eqn:Hm; [|discriminate]. injection Hm0 as <-.
    pose proof Hr as (Hw & Hsh). specialize (Hsh i r Hm).
    destruct (negb (d_sep (dec E i)) && (flag_obj r || pay_obj r)) eqn:Hc; [discriminate|].
    pose proof (do_flag _ (dec_ok i)) as Hfl.
    assert (Hlen : length (sub (d_foff (dec E i)) (d_fsize (dec E i)) (cells r)) = d_fsize (dec E i))
      by (apply length_sub; lia).
    pose proof (mo_init_len _ _ (man_ok i) _ Hlen) as Hx.
    pose proof (mm_init _ (mono i) _ _ (shown_flag_cells i r _ Hsh HL)) as Hb.
    pose proof (below_len _ _ Hb) as Hbl.
    assert (Hnp : d_sep (dec E i) = false -> pay_obj r = false).
    { intros Hs. rewrite Hs in Hc. destruct (flag_obj r), (pay_obj r); try discriminate; reflexivity. }
    destruct (f_write_eq i (d_foff (dec E i)) (m_init (man E i) (f_flag E base i f)) f) as (y & -> & Hy).
    pose proof (below_len _ _ Hy) as Hyl.
    set (c := put (d_foff (dec E i))
      (m_init (man E i) (sub (d_foff (dec E i)) (d_fsize (dec E i)) (cells r))) (cells r)).
    assert (K : forall tr,
      same_bytes (MkState (upd (mem s) i (Some (MkRegion c true (pay_obj r)))) (world s) tr)
       (MkF (wr (base i + d_foff (dec E i)) y (bytes f)) (fworld f))).
    { intros tr. rewrite <- Hw. apply (same_set s f); [exact Hr| |].
      - apply shown_flag; [exact Hsh|exact HL| |exact Hx|exact Hnp].
        eapply below_trans; [exact Hb|exact Hy].
      - intros x Hx'. apply wr_out. unfold f_flag in Hyl. lia. }
    destruct (d_sep (dec E i)); unfold set_region, log, ret;
      (eexists; split; [reflexivity|]; split; [apply K|exact I]).
  Qed.
  Lemma R_invalidate i :
    SIM all1 (p_invalidate (machine E) i) (p_invalidate F i) (fun _ => full i) all1.
  Proof.
    intros s f Hr _. cbn [p_invalidate machine flat]. unfold fm_invalidate, bind, get_region.
    destruct (mem s i) as [r|] eqn:Hm; [|discriminate].
    pose proof Hr as (Hw & Hsh). specialize (Hsh i r Hm).
    destruct (flag_obj r) eqn:Hf; [|discriminate].
    pose proof (sh_full _ _ _ Hsh (or_introl Hf)) as HL.
    match goal with |- context [if ?b then _ else _] => destruct b eqn:Hc end; [|discriminate].
    pose proof (do_flag _ (dec_ok i)) as Hfl.
    assert (Hlen : length (sub (d_foff (dec E i)) (d_fsize (dec E i)) (cells r)) = d_fsize (dec E i))
      by (apply length_sub; lia).
    pose proof (mo_inval_len _ _ (man_ok i) _ Hlen) as Hx.
    pose proof (mm_inval _ (mono i) _ _ (shown_flag_cells i r _ Hsh HL)) as Hb.
    pose proof (below_len _ _ Hb) as Hbl.
    assert (Hnp : d_sep (dec E i) = false -> pay_obj r = false).
    { intros Hs. destruct (pay_obj r) eqn:Hp; [|reflexivity].
      pose proof (sh_one _ _ _ Hsh Hs Hp). congruence. }
    destruct (f_write_eq i (d_foff (dec E i)) (m_inval (man E i) (f_flag E base i f)) f) as (y & -> & Hy).
    pose proof (below_len _ _ Hy) as Hyl.
    set (c := put (d_foff (dec E i))
      (m_inval (man E i) (sub (d_foff (dec E i)) (d_fsize (dec E i)) (cells r))) (cells r)).
    assert (K : forall tr,
      same_bytes (MkState (upd (mem s) i (Some (MkRegion c (d_sep (dec E i)) (pay_obj r)))) (world s) tr)
       (MkF (wr (base i + d_foff (dec E i)) y (bytes f)) (fworld f))).
    { intros tr. rewrite <- Hw. apply (same_set s f); [exact Hr| |].
      - apply shown_flag; [exact Hsh|exact HL| |exact Hx|exact Hnp].
        eapply below_trans; [exact Hb|exact Hy].
      - intros x Hx'. apply wr_out. unfold f_flag in Hyl. lia. }
    assert (KF : forall tr,
      full i (MkState (upd (mem s) i (Some (MkRegion c (d_sep (dec E i)) (pay_obj r)))) (world s) tr)).
    { intros tr. eexists. cbn [mem]. unfold upd. rewrite Nat.eqb_refl. split; [reflexivity|].
      cbn [cells]. unfold c. rewrite length_put; lia. }
    destruct (d_sep (dec E i)); cbn [negb]; unfold set_region, log, ret;
      (eexists; split; [reflexivity|]; split; [apply K|apply KF]).
  Qed.
  Lemma R_var_new i v :
    SIM all1 (p_var_new (machine E) i v) (p_var_new F i v) (fun _ => all1) all1.
  Proof.
    intros s f Hr _. cbn. unfold var_new, bind.
    destruct (mem s i) as [r|] eqn:Hm; [discriminate|].
    destruct (Nat.eqb_spec (length v) (psize i)) as [Hv|]; cbn; [|discriminate].
    pose proof Hr as (Hw & _). eexists. split; [reflexivity|]. rewrite <- Hw. split; [|exact I].
    rewrite firstn_all2 by lia. pose proof (dec_ok i) as O. pose proof (do_pay _ O).
    apply (same_set s f); [exact Hr| |].
    - constructor; cbn [cells flag_obj pay_obj]; try lia; try discriminate.
      + intros [Hc|Hc]; [discriminate|]. pose proof (do_size _ O Hc). lia.
      + rewrite rd_wr_same by reflexivity. apply below_refl.
      + intros _. rewrite rd_wr_same by exact Hv. rewrite <- Hv. apply sub_full.
    - intros x Hx. apply wr_out. lia.
  Qed.
  Lemma R_var_drop i :
    SIM all1 (p_var_drop (machine E) i) (p_var_drop F i) (fun _ => all1) all1.
  Proof.
    intros s f Hr _. cbn. unfold var_drop, f_dtor, load_payload, bind, get_region.
    destruct (mem s i) as [r|] eqn:Hm; [|discriminate].
    destruct (pay_obj r) eqn:Hp; cbn; [|discriminate].
    pose proof Hr as (Hw & Hsh). rewrite (sh_pay _ _ _ (Hsh i r Hm) Hp), <- Hw.
    eexists. split; [reflexivity|]. split; [|exact I].
    apply (same_world (MkState (upd (mem s) i None) (world s) (trace s)) f).
    apply (same_unset s f i (trace s)), Hr.
  Qed.

  Lemma flat_run p s f : same_bytes s f ->
    match run E p s with
    | (inl obs, s') => exists f', run' E F p f = (inl obs, f') /\ same_bytes s' f'
    | (inr d, _) => hard d = true -> exists f', run' E F p f = (inr d, f')
    end.
  Proof.
    intros Hr. pose proof (sim_run E (machine E) F same_bytes full hard (fun _ => True) R_call
      (fun o i _ => R_load o i) (fun o i v _ => R_store o i v) (fun i _ => R_alloc i)
      (fun i _ => R_dealloc i) (fun i v _ => R_begin i v) (fun i _ => R_end i)
      (fun i _ => R_is_empty i) (fun i _ => R_init i) (fun i _ => R_invalidate i)
      (fun i v _ => R_var_new i v) (fun i _ => R_var_drop i) p (fun _ _ _ _ => I) s f Hr) as H.
    rewrite run_machine in H. exact H.
  Qed.
End Simulates.

(** ** Only the variables that are named are written *)
Section Named.
  Context {W : Type}.
  Variable E : env W.
  Variable base : loc -> nat.
  Variable junk : W -> nat -> rep -> rep -> rep.
  Hypothesis HE : env_ok E.
  Hypothesis HJ : junk_ok junk.
  Variable L : loc -> Prop.
  Variable m0 : nat -> cell.

  Definition kept (f f' : fstate W) : Prop :=
    f = f' /\
    forall x, (forall i, L i -> x < base i \/ base i + d_ssize (dec E i) <= x) -> bytes f x = m0 x.
  Local Notation KEEP m := (SIM kept (fun _ => true) all1 m m (fun _ => all1) all1).

  Lemma keep_same {A} (m : @G (fstate W) A) :
    (forall f, kept f f -> kept (snd (m f)) (snd (m f))) -> forall Pre (Q : A -> fstate W -> Prop) (X : fstate W -> Prop),
    (forall a f, Q a f) -> (forall f, X f) -> SIM kept (fun _ => true) Pre m m Q X.
  Proof.
    intros H Pre Q X HQ HX f f' (<- & Hk) _. specialize (H f (conj eq_refl Hk)).
    destruct (m f) as [[a|e|d] f1]; cbn in H; eauto.
  Qed.
  Lemma keep_write i a v f w :
    L i -> base i <= a -> a + length v <= base i + d_ssize (dec E i) ->
    kept f f -> kept (MkF (wr a v (bytes f)) w) (MkF (wr a v (bytes f)) w).
  Proof.
    intros Hi Ha Hl (_ & Hk). split; [reflexivity|]. cbn [bytes]. intros x Hx.
    rewrite wr_out by (specialize (Hx i Hi); lia). apply Hk, Hx.
  Qed.
  Lemma keep_f_write i off x f :
    L i -> off + length x <= d_ssize (dec E i) -> kept f f ->
    kept (snd (f_write base junk i off x f)) (snd (f_write base junk i off x f)).
  Proof.
    intros Hi Hl Hk. unfold f_write. cbn [snd].
    pose proof (below_len _ _ (HJ (fworld f) (base i + off) _ x (length_rd (base i + off) (length x) (bytes f)))) as Hn.
    apply (keep_write i); [exact Hi|lia|lia|exact Hk].
  Qed.
  Lemma keep_store i v f : L i -> kept f f -> kept (snd (f_store E base i v f)) (snd (f_store E base i v f)).
  Proof.
    intros Hi Hk. apply (keep_write i); [exact Hi|lia| |exact Hk].
    rewrite firstn_length. pose proof (do_pay _ (dec_ok E HE i)). lia.
  Qed.
  Lemma keep_world f w : kept f f -> kept (MkF (bytes f) w) (MkF (bytes f) w).
  Proof. intros (_ & Hk). split; [reflexivity|exact Hk]. Qed.

  Lemma keep_run p :
    (forall o i, In o p -> In i (uses o) -> L i) -> forall f xs f',
    kept f f -> run' E (flat E base junk) p f = (inl xs, f') -> kept f' f'.
  Proof.
    intros HU f xs f' Hk Hrun.
    assert (FL : forall i f0, length (f_flag E base i f0) = d_fsize (dec E i))
      by (intros; apply length_rd).
    assert (K : match run' E (flat E base junk) p f with
                | (inl obs, s') => exists f'', run' E (flat E base junk) p f = (inl obs, f'') /\ kept s' f''
                | (inr d, _) => true = true -> exists f'', run' E (flat E base junk) p f = (inr d, f'')
                end).
    { apply (sim_run E (flat E base junk) (flat E base junk) kept (fun _ _ => True) (fun _ => true) L);
        [..|exact HU|exact Hk]; intros;
        (apply keep_same; [|intros; try destruct o; exact I|intros; try destruct o; exact I]);
        intros g0 H0; cbn [flat p_call p_load p_store p_alloc p_dealloc p_begin p_end p_is_empty
                           p_init p_invalidate p_var_new p_var_drop].
      - unfold f_call. match goal with |- context [let (_, _) := ?c in _] => destruct c as [a0 w0] end. apply keep_world, H0.
      - exact H0.
      - apply keep_store; assumption.
      - apply keep_f_write; [assumption|rewrite length_indets; lia|exact H0].
      - exact H0.
      - apply keep_store; assumption.
      - unfold bind', f_dtor, f_load, f_call. cbn iota beta.
        apply (keep_f_write i 0 (indets (d_psize (dec E i)))); [assumption| |apply keep_world, H0].
        rewrite length_indets. apply (do_pay _ (dec_ok E HE i)).
      - destruct (m_is_empty _ _); exact H0.
      - apply keep_f_write; [assumption| |exact H0].
        rewrite (mo_init_len _ _ (man_ok E HE i) _ (FL i g0)). apply (do_flag _ (dec_ok E HE i)).
      - apply keep_f_write; [assumption| |exact H0].
        rewrite (mo_inval_len _ _ (man_ok E HE i) _ (FL i g0)). apply (do_flag _ (dec_ok E HE i)).
      - apply keep_store; assumption.
      - unfold f_dtor, bind'. cbn. apply keep_world, H0. }
    rewrite Hrun in K. destruct K as (f'' & K1 & K2). destruct K2 as (K2 & K3). split; [reflexivity|exact K3].
  Qed.
End Named.

(** ** Which flag manipulators decide by what is determinate *)

Lemma unbytes_exact c : forall c' l, below c c' -> unbytes c = Some l -> c' = c.
Proof.
  induction c as [|x c IH]; intros c' l H Hl; inversion H; subst; [reflexivity|].
  cbn in Hl. destruct x; try discriminate. destruct (unbytes c) as [l0|] eqn:Hc; [|discriminate].
  f_equal; [destruct H2; congruence|]. apply (IH _ l0 H4 eq_refl).
Qed.
Lemma unword_exact c c' x : below c c' -> unword c = Some x -> c' = c.
Proof.
  unfold unword. intros H Hx. destruct (unbytes c) as [l|] eqn:Hl; [|discriminate].
  exact (unbytes_exact c c' l H Hl).
Qed.
Lemma below_one b c' : below [Byte b] c' -> c' = [Byte b].
Proof. intros H. apply (unbytes_exact [Byte b] c' [b] H). reflexivity. Qed.

Definition eqv_mono (eqv : rep -> option bool) : Prop :=
  forall c c' b, below c c' -> eqv c = Some b -> eqv c' = Some b.

Lemma man_assign_mono enc eqv : eqv_mono eqv -> manip_mono (man_assign enc eqv).
Proof.
  intros H. constructor; cbn; [exact H|intros; apply below_refl|].
  intros c c' Hc. rewrite (below_len _ _ Hc). apply below_refl.
Qed.
Lemma man_memcmp_mono sent : manip_mono (man_memcmp sent).
Proof.
  constructor; cbn.
  - intros c c' b H Hb. destruct (unbytes (firstn (length sent) c)) as [l|] eqn:Hl; [|discriminate].
    rewrite (unbytes_exact _ _ l (below_firstn (length sent) c c' H) Hl), Hl. exact Hb.
  - intros c c' H. apply below_app; [apply below_refl|apply below_skipn, H].
  - intros c c' Hc. rewrite (below_len _ _ Hc). apply below_refl.
Qed.
Lemma man_separate_mono : manip_mono man_separate.
Proof.
  constructor; cbn; [|intros; apply below_refl|intros; apply below_refl].
  intros c c' b H Hb. destruct c as [|[|x|] [|]]; try discriminate; [|destruct x as [|[]]; discriminate].
  rewrite (below_one x c' H). exact Hb.
Qed.
Lemma word_eqv_mono (g : N -> bool) :
  eqv_mono (fun c => match unword c with Some x => Some (g x) | None => None end).
Proof.
  intros c c' b H Hb. destruct (unword c) as [x|] eqn:Hx; [|discriminate].
  rewrite (unword_exact c c' x H Hx), Hx. exact Hb.
Qed.
Lemma man_int_mono t z : manip_mono (man_int t z).
Proof. apply man_assign_mono. exact (word_eqv_mono (fun x => Z.eqb (value_of t x) z)). Qed.
Lemma man_float_mono g s : manip_mono (man_float g s).
Proof. apply man_assign_mono. exact (word_eqv_mono (fun x => f_eqb g x s)). Qed.
Lemma man_bool_sentinel_mono b : manip_mono (man_bool_sentinel b).
Proof.
  apply man_assign_mono. intros c c' x H Hx. unfold bool_eqv in Hx.
  destruct c as [|[|y|] [|]]; try discriminate; [|destruct y as [|[]]; discriminate].
  rewrite (below_one y c' H). exact Hx.
Qed.
Lemma man_sentinel_mono t ts s : manip_mono (man_sentinel t ts s).
Proof.
  constructor; cbn; [|intros; apply below_refl|].
  - exact (word_eqv_mono (fun x => cpp_eq t ts (value_of t x) s)).
  - intros c c' Hc. rewrite (below_len _ _ Hc). apply below_refl.
Qed.
Lemma man_ptr_sentinel_mono U x : manip_mono (man_ptr_sentinel U x).
Proof.
  apply man_assign_mono. unfold bytes_eqv.
  intros c c' b H Hb. destruct (unword c) as [y|] eqn:Hy; [|discriminate].
  rewrite (unword_exact c c' y H Hy), Hy. exact Hb.
Qed.

(** The user's own code decides by what is determinate. *)
Record universe_mono (U : universe) : Prop := {
  um_spec : forall t f, u_spec U t = Some f -> manip_mono f;
  um_conv : forall t v enc eqv, u_conv U t v = Some (enc, eqv) -> eqv_mono eqv;
  um_ld : forall r, eqv_mono (fun c => u_ld_eq U c r)
}.

Lemma flag_manipulator_mono U cf t f :
  universe_mono U -> flag_manipulator U cf t = Some f -> manip_mono f.
Proof.
  intros HU H. unfold flag_manipulator in H. destruct (u_spec U t) as [g|] eqn:Hg.
  - injection H as <-. eapply um_spec; eauto.
  - destruct (sentinel_known cf t); [|discriminate]. injection H as <-.
    unfold unused_bits_manip. destruct (base t); try destruct (u_x64 U); apply man_memcmp_mono.
Qed.
Lemma assignment_mono U t v f :
  universe_mono U -> assignment_manip U t v = Some f -> manip_mono f.
Proof.
  intros HU H. unfold assignment_manip in H.
  destruct t, v; cbn in H; try discriminate; unfold implicit_convert in H; cbn in H;
    try match goal with HH : match u_conv U ?a ?b with _ => _ end = _ |- _ =>
          destruct (u_conv U a b) as [[enc eqv]|] eqn:C; [|discriminate]; injection H as <-;
          apply man_assign_mono; exact (um_conv U HU _ _ _ _ C)
        end;
    try match goal with HH : (if ?b then _ else _) = _ |- _ => destruct b; [|discriminate] end;
    try match goal with HH : (if ?b then _ else _) = _ |- _ => destruct b; [discriminate|] end;
    try discriminate;
    injection H as <-;
    first [apply man_int_mono|apply man_float_mono|apply man_bool_sentinel_mono
          |apply man_ptr_sentinel_mono|apply man_assign_mono; apply um_ld; assumption].
Qed.

(** The documented ones (README). *)
Lemma int_member_exact t off c c' z :
  below c c' -> int_member t off c = Some z -> int_member t off c' = Some z.
Proof.
  intros H Hz. unfold int_member in *. destruct (unword (sub off (it_bytes t) c)) as [x|] eqn:Hx; [|discriminate].
  rewrite (unword_exact _ _ x (below_sub _ _ _ _ H) Hx), Hx. exact Hz.
Qed.
Lemma man_index_pair_mono t : manip_mono (man_index_pair t).
Proof.
  constructor; cbn [m_is_empty m_init m_inval man_index_pair]; [|intros; apply below_refl|].
  - intros c c' b H Hb. destruct (int_member t 0 c) as [x|] eqn:Hx; [|discriminate].
    rewrite (int_member_exact t 0 c c' x H Hx). destruct (x <? 0)%Z; [|exact Hb].
    destruct (int_member t (it_bytes t) c) as [y|] eqn:Hy; [|discriminate].
    rewrite (int_member_exact t (it_bytes t) c c' y H Hy). exact Hb.
  - intros c c' Hc. rewrite (below_len _ _ Hc). apply below_refl.
Qed.
Lemma man_index2_mono t : manip_mono (man_index2 t).
Proof.
  constructor; cbn [m_is_empty m_init m_inval man_index2].
  - intros c c' b H Hb. destruct (int_member t (it_bytes t) c) as [y|] eqn:Hy; [|discriminate].
    rewrite (int_member_exact t (it_bytes t) c c' y H Hy). exact Hb.
  - intros c c' H. apply below_put; [apply below_refl|exact H].
  - intros c c' H. apply below_put; [apply below_refl|exact H].
Qed.
Lemma man_iterator_mono off dflt : manip_mono (man_iterator off dflt).
Proof.
  constructor; cbn [m_is_empty m_init m_inval man_iterator]; [|intros; apply below_refl|].
  - intros c c' b H Hb. pose proof (below_sub off 1 c c' H) as Hs.
    destruct (sub off 1 c) as [|[|y|] [|]]; try discriminate; [|destruct y as [|[]]; discriminate].
    rewrite (below_one y _ Hs). exact Hb.
  - intros c c' Hc. rewrite (below_len _ _ Hc). apply below_refl.
Qed.

Lemma named_mono U cf P d f :
  universe_mono U -> named U cf P d f ->
  (forall g, optional_inplace_type U P g = Chosen d f -> manip_mono g) -> manip_mono f.
Proof.
  intros HU H Hg.
  assert (Sel : forall a b, optional_type U cf P a b = Chosen d f -> manip_mono f).
  { intros a b HH. apply C32_selection_as_documented in HH as (_ & HH).
    destruct HH; try apply man_separate_mono;
      first [eapply flag_manipulator_mono; eassumption|eapply assignment_mono; eassumption]. }
  destruct H as [a b Ha Hb Hn H|S m HS Hm Hn H|g Hg' H|H|a Ha Hn Hp H].
  - exact (Sel _ _ H).
  - unfold optional_sentinel_via_type in H.
    destruct (select_decomposition U cf P S m) as [r|d' f'] eqn:Hs; [discriminate|].
    destruct (valid_payload U P); [|discriminate]. injection H as -> ->.
    unfold select_decomposition in Hs.
    destruct (filter (matches U cf P S m) specs) as [|s [|]]; try discriminate.
    assert (Use : forall D t, use_manipulator U cf D t = Chosen d f -> manip_mono f).
    { intros D t HH. unfold use_manipulator in HH.
      destruct (flag_manipulator U cf t) as [g|] eqn:Hq; [|discriminate]. injection HH as <- <-.
      eapply flag_manipulator_mono; eauto. }
    assert (Sen : forall D t, with_sentinel U D t S = Chosen d f -> manip_mono f).
    { intros D t HH. unfold with_sentinel in HH. destruct S as [|v]; [discriminate|].
      destruct (assignment_manip U (base t) v) as [g|] eqn:Hq; [|discriminate]. injection HH as <- <-.
      eapply assignment_mono; eauto. }
    assert (Sep : Chosen (separate U P) man_separate = Chosen d f -> manip_mono f)
      by (intros HH; injection HH as <- <-; apply man_separate_mono).
    assert (Mem : forall k, if_member P m (if cf_mem cf then via_mem_ptr U P m k
                                         else Chosen (separate U P) man_separate) = Chosen d f ->
                (forall D t, k D t = Chosen d f -> manip_mono f) -> manip_mono f).
    { intros k HH Hk. unfold if_member in HH. destruct (mem_class m); [|discriminate].
      destruct (cvty_eqb P (plain u)); [|discriminate].
      destruct (cf_mem cf); [|exact (Sep HH)].
      unfold via_mem_ptr in HH. destruct m as [|[| | | | | | | | |c' t [off|]|]]; try discriminate.
      exact (Hk _ _ HH). }
    destruct s; cbn [body] in Hs; try exact (Sep Hs); try (eapply Use; exact Hs);
      try (eapply Sen; exact Hs); try (apply (Mem _ Hs); intros D t HH; first [eapply Use; exact HH|eapply Sen; exact HH]).
    destruct (cf_mem cf); [discriminate|].
    unfold if_member in Hs. destruct (mem_class m); [|discriminate].
    destruct (cvty_eqb _ _); [|discriminate]. exact (Sep Hs).
  - pose proof (Hg g H) as K. unfold optional_inplace_type in H. destruct (valid_payload U P); [|discriminate].
    injection H as <- <-. exact K.
  - unfold optional_aip_default in H. destruct (has_custom U cf P); [exact (Sel _ _ H)|].
    destruct (swallowing_default U (base P)) as [v|]; [|discriminate]. exact (Sel _ _ H).
  - exact (Sel _ _ H).
Qed.

(** ** C67 *)

(** No program, within the contract or not, changes a byte that does not belong to a
    variable that it names. *)
Theorem C67_named_bytes_only :
  forall W (E : env W) base junk p f xs f',
    env_ok E -> junk_ok junk -> run' E (flat E base junk) p f = (inl xs, f') ->
    forall x, elsewhere E base p x -> bytes f' x = bytes f x.
Proof.
  intros W E base junk p f xs f' HE HJ H x Hx.
  destruct (keep_run E base junk HE HJ (fun i => exists o, In o p /\ In i (uses o)) (bytes f) p
              (fun o i A B => ex_intro _ o (conj A B)) f xs f') as (_ & K);
    [split; reflexivity|exact H|].
  apply K. intros i (o & A & B). exact (Hx o i A B).
Qed.
Print Assumptions C67_named_bytes_only.

(** Every program does on bytes what it does in the model, wherever the variables are
    placed, whatever is in memory at the beginning and whatever is left there: it observes
    the same, ends in the same world, everything determinate is in memory, and no other byte
    has changed.  Also failing assertions and std::terminate are the same.  (If the model
    says "undefined behaviour", nothing is said.) *)
Theorem C67_model_on_bytes :
  forall W (E : env W) base junk m0 w p,
    env_ok E -> env_mono E -> placed E base -> junk_ok junk ->
    match run E p (init_state w) with
    | (inl xs, s) =>
        exists m,
          run' E (flat E base junk) p (MkF m0 w) = (inl xs, MkF m (world s)) /\
          (forall i r, mem s i = Some r -> below (cells r) (rd (base i) (length (cells r)) m)) /\
          (forall x, elsewhere E base p x -> m x = m0 x)
    | (inr AssertFailed, _) =>
        exists f, run' E (flat E base junk) p (MkF m0 w) = (inr AssertFailed, f)
    | (inr Terminated, _) =>
        exists f, run' E (flat E base junk) p (MkF m0 w) = (inr Terminated, f)
    | _ => True
    end.
Proof.
  intros W E base junk m0 w p HE HM HP HJ.
  assert (R0 : same_bytes E base (init_state w) (MkF m0 w)) by (split; [reflexivity|discriminate]).
  pose proof (flat_run E base junk HE HM HP HJ p _ _ R0) as H.
  destruct (run E p (init_state w)) as [[xs|[]] s]; try exact I; try (apply H; reflexivity).
  destruct H as ([m w'] & H1 & Hw & Hs). cbn in Hw. subst w'.
  exists m. split; [exact H1|]. split; [|exact (C67_named_bytes_only W E base junk p _ _ _ HE HJ H1)].
  intros i r Hi. exact (sh_cells _ _ _ _ _ (Hs i r Hi)).
Qed.
Print Assumptions C67_model_on_bytes.

(** Programs within the contract: the bytes behave as std::optional.  At the end, every
    optional's flag bytes say whether it is empty and its payload bytes are the value. *)
Theorem C67_std_on_bytes :
  forall W (E : env W) base junk m0 w p xs t,
    env_ok E -> env_mono E -> placed E base -> junk_ok junk ->
    Forall op_ok p -> std_run E w p = (Some xs, t) ->
    exists m,
      run' E (flat E base junk) p (MkF m0 w) = (inl xs, MkF m (sworld t)) /\
      (forall i,
         let flag := rd (base i + d_foff (dec E i)) (d_fsize (dec E i)) m in
         let payload := rd (base i) (d_psize (dec E i)) m in
         match objs t i with
         | Some (SOpt None) => m_is_empty (man E i) flag = Some true
         | Some (SOpt (Some v)) => m_is_empty (man E i) flag = Some false /\ payload = v
         | Some (SVar v) => payload = v
         | None => True
         end) /\
      (forall x, elsewhere E base p x -> m x = m0 x).
Proof.
  intros W E base junk m0 w p xs t HE HM HP HJ Ho H.
  pose proof (refines_run E HE p _ _ Ho (rel_init E w)) as R. unfold std_run in H. rewrite H in R.
  destruct R as (s & Hs & R).
  assert (R0 : same_bytes E base (init_state w) (MkF m0 w)) by (split; [reflexivity|discriminate]).
  pose proof (flat_run E base junk HE HM HP HJ p _ _ R0) as F. rewrite Hs in F.
  destruct F as ([m w'] & F1 & Hw & Hsh). cbn in Hw, Hsh.
  assert (Hww : world s = sworld t) by apply R.
  exists m. split; [rewrite <- Hww, Hw; exact F1|].
  split; [|exact (C67_named_bytes_only W E base junk p _ _ _ HE HJ F1)].
  intros i flag payload. pose proof (rel_robj E _ _ _ i R I) as Hr.
  assert (FL : forall r b, mem s i = Some r -> length (cells r) = d_ssize (dec E i) ->
    m_is_empty (man E i) (flag_cells (dec E i) (cells r)) = Some b ->
    m_is_empty (man E i) flag = Some b).
  { intros r b Hm Hl Hb. eapply mm_is_empty; [apply (HM (e_tid E i))| |exact Hb].
    exact (shown_flag_cells E base HE i r m (Hsh i r Hm) Hl). }
  destruct (objs t i) as [[[v|]|v]|]; cbn in Hr; [| | |exact I].
  - destruct Hr as (c & Hm & Hl & Hv & He'). split; [exact (FL _ _ Hm Hl He')|].
    pose proof (sh_pay _ _ _ _ _ (Hsh i _ Hm) eq_refl) as K. cbn [cells] in K.
    unfold payload. congruence.
  - destruct Hr as (c & Hm & Hl & He'). exact (FL _ _ Hm Hl He').
  - destruct Hr as (Hm & Hl).
    pose proof (sh_pay _ _ _ _ _ (Hsh i _ Hm) eq_refl) as K. cbn [cells] in K.
    rewrite <- Hl, sub_full in K. unfold payload. rewrite <- Hl. congruence.
Qed.
Print Assumptions C67_std_on_bytes.

(** For every program that the compiler accepts, with the template arguments that it
    writes; the user's own manipulators have to decide by what is determinate. *)
Theorem C67_every_instantiation :
  forall W U cf (E : env W) base junk m0 w p xs t,
    universe_ok U -> universe_mono U -> program_types U cf E ->
    (forall n P g, optional_inplace_type U P g = Chosen (ot_dec (e_tys E n)) (ot_man (e_tys E n)) ->
                   manip_mono g) ->
    placed E base -> junk_ok junk ->
    Forall op_ok p -> std_run E w p = (Some xs, t) ->
    exists m,
      run' E (flat E base junk) p (MkF m0 w) = (inl xs, MkF m (sworld t)) /\
      (forall x, elsewhere E base p x -> m x = m0 x).
Proof.
  intros W U cf E base junk m0 w p xs t HU HM HT Hg HP HJ Ho H.
  assert (EM : env_mono E).
  { intros n. destruct (HT n) as ((P & HN) & _). eapply named_mono; [exact HM|exact HN|].
    intros g. apply (Hg n P g). }
  destruct (C67_std_on_bytes W E base junk m0 w p xs t (program_lawful W U cf E HU HT) EM HP HJ Ho H)
    as (m & A & _ & B).
  exists m. split; assumption.
Qed.
Print Assumptions C67_every_instantiation.

(** Nothing depends on where the variables are and on what is left in memory. *)
Theorem C67_placement_irrelevant :
  forall W (E : env W) base base' junk junk' m0 m0' w p,
    env_ok E -> env_mono E -> placed E base -> placed E base' -> junk_ok junk -> junk_ok junk' ->
    contract E w p ->
    exists xs w' m m',
      run' E (flat E base junk) p (MkF m0 w) = (inl xs, MkF m w') /\
      run' E (flat E base' junk') p (MkF m0' w) = (inl xs, MkF m' w').
Proof.
  intros W E base base' junk junk' m0 m0' w p HE HM HP HP' HJ HJ' (Ho & xs & t & H).
  destruct (C67_std_on_bytes W E base junk m0 w p xs t HE HM HP HJ Ho H) as (m & A & _).
  destruct (C67_std_on_bytes W E base' junk' m0' w p xs t HE HM HP' HJ' Ho H) as (m' & B & _).
  exists xs, (sworld t), m, m'. split; assumption.
Qed.
Print Assumptions C67_placement_irrelevant.

(** An array: the elements are directly one after the other. *)
Theorem C67_array :
  forall W (E : env W) a n, (forall i, d_ssize (dec E i) <= n) -> placed E (fun i => a + n * i).
Proof.
  intros W E a n H i j Hn. pose proof (H i). pose proof (H j).
  destruct (Nat.lt_total i j) as [L|[L|L]]; [left|lia|right]; nia.
Qed.
Print Assumptions C67_array.

(** *** Not vacuous *)

(** The computer writes nothing where nothing has to be written ... *)
Fixpoint leave (old new : rep) : rep :=
  match old, new with
  | o :: old', Indet :: new' => o :: leave old' new'
  | _ :: old', c :: new' => c :: leave old' new'
  | _, _ => []
  end.
Lemma leave_ok W : junk_ok (fun (_ : W) _ => leave).
Proof.
  intros w a old new. revert new.
  induction old as [|o old IH]; intros [|c new] H; try discriminate; [constructor|].
  injection H as H. destruct c; constructor; auto; apply IH, H.
Qed.
(** ... or overwrites destroyed objects with a pattern, as debug builds do. *)
Definition poison (new : rep) : rep :=
  map (fun c => match c with Indet => Byte 0xdd | _ => c end) new.
Lemma poison_ok W : junk_ok (fun (_ : W) _ _ => poison).
Proof.
  intros w a old new _. induction new as [|c new IH]; constructor; [|exact IH].
  destruct c; auto.
Qed.

Lemma sample_mono dbg : env_mono (sample dbg).
Proof.
  assert (P0 : eqv_mono p_is0).
  { intros c c' b H Hb. destruct H as [|x y c c' Hx H]; [discriminate|].
    destruct x; try discriminate. destruct Hx as [Hx|<-]; [discriminate|exact Hb]. }
  intros t. cbn. unfold sample_tys.
  destruct t as [|[|[|[|[|t]]]]]; cbn;
    first [apply man_separate_mono|apply man_memcmp_mono|apply man_assign_mono, P0].
Qed.
Lemma sample_size dbg i : d_ssize (dec (sample dbg) i) <= 8.
Proof.
  unfold dec, ty. cbn [sample e_tys e_tid]. generalize (i / 10) as k. intros k.
  destruct k as [|[|[|[|[|t]]]]]; apply Nat.leb_le; reflexivity.
Qed.
Lemma sample_placed dbg a : placed (sample dbg) (fun i => a + 8 * i).
Proof. apply C67_array, sample_size. Qed.

(** Optionals of different kinds next to each other; a throwing constructor; moves, swaps,
    and values that come and go. *)
Definition C67_history : list (op sworld_t) :=
  [ODefault 0; OInPlace 1 (mkP 1 2); OInPlace 10 (mkP 3 4); ODefault 11;
   OInPlace 20 (mkBits 8 5); ODefault 40; OInPlace 41 (mkBits 1 1);
   OMoveAssign 0 1; OSwap 10 11; OSwap 40 41; OEmplace 1 (mkP 7 8); OReset 20;
   OAccess AccDeref 11 false look; OHasValue 10; OHasValue 20; OHasValue 40; OHasValue 41;
   OAccess AccDeref 40 false look; ODtor 1; OInPlace 1 (mkP 5 6);
   OAccess AccDeref 1 false look; OAccess AccValue 10 false look].
Example C67_example :
  let E := sample true in
  let w := plan [None; None; None; None; Some 3] in
  Forall op_ok C67_history /\
  exists xs t f f',
    std_run E w C67_history = (Some xs, t) /\
    run' E (flat E (fun i => 100 + 8 * i) (fun _ _ => leave)) C67_history
         (MkF (fun x => Byte (N.of_nat (x mod 256))) w) = (inl xs, f) /\
    run' E (flat E (fun i => 700 - 8 * i) (fun _ _ _ => poison)) C67_history
         (MkF (fun _ => Byte 0) w) = (inl xs, f') /\
    In (ObThrow (UserExn 3)) xs /\ In (ObVal [Atom 5; Atom 6]) xs /\
    (* two optionals of type bool, and the bytes behind them *)
    rd 420 16 (bytes f) = Byte 1 :: map (fun x => Byte (N.of_nat x)) [165; 166; 167; 168; 169; 170; 171]
                          ++ Byte 0xfe :: map (fun x => Byte (N.of_nat x)) [173; 174; 175; 176; 177; 178; 179].
Proof.
  split; [op_oks|]. eexists _, _, _, _.
  split; [vm_compute; reflexivity|]. split; [vm_compute; reflexivity|].
  split; [vm_compute; reflexivity|].
  split; [cbn; tauto|]. split; [cbn; tauto|]. vm_compute. reflexivity.
Qed.

(** It matters that the variables do not overlap: here two optionals share their memory. *)
Example C67_overlap :
  let E := sample true in
  let p := [OInPlace 0 (mkP 1 2); ODefault 1; OHasValue 0] in
  contract E quiet p /\
  fst (run E p (init_state quiet)) = inl [ObUnit; ObUnit; ObBool true] /\
  fst (run' E (flat E (fun _ => 0) (fun _ _ => leave)) p (MkF (fun _ => Byte 0) quiet))
    = inl [ObUnit; ObUnit; ObBool false].
Proof.
  split; [split; [op_oks|]; eexists _, _; vm_compute; reflexivity|]. split; vm_compute; reflexivity.
Qed.
(** A client that breaks the contract, using an optional that does not exist: other bytes
    are changed, but only where it should have been. *)
Example C67_stray :
  let E := sample false in
  let p := [OReset 40] in
  ~ contract E quiet p /\
  exists f, run' E (flat E (fun i => 100 + 8 * i) (fun _ _ => leave)) p
                 (MkF (fun _ => Byte 1) quiet) = (inl [ObUnit], f) /\
    bytes f 420 = Byte 0xfe /\ bytes f 419 = Byte 1 /\ bytes f 421 = Byte 1 /\
    ~ elsewhere E (fun i => 100 + 8 * i) p 420 /\ elsewhere E (fun i => 100 + 8 * i) p 421.
Proof.
  split.
  - intros (_ & xs & t & H). vm_compute in H. discriminate.
  - eexists. split; [vm_compute; reflexivity|]. repeat (split; [vm_compute; reflexivity|]). split.
    + intros H. specialize (H _ 40 (or_introl eq_refl) (or_introl eq_refl)). cbn in H. lia.
    + intros o i [<-|[]] [<-|[]]. right. vm_compute. lia.
Qed.
(** And that what the library writes is what it is supposed to be: a computer that loses
    determinate bytes. *)
Example C67_forgetful :
  let E := sample true in
  let p := [ODefault 0; OHasValue 0] in
  ~ junk_ok (fun (_ : sworld_t) _ (old _ : rep) => old) /\
  fst (run' E (flat E (fun i => 8 * i) (fun _ _ old _ => old)) p (MkF (fun _ => Byte 7) quiet))
    = inr IndetRead.
Proof.
  split; [|vm_compute; reflexivity].
  intros H. specialize (H quiet 0 [Byte 1] [Byte 2] eq_refl). inversion H as [|? ? ? ? [X|X] ?]; discriminate.
Qed.
