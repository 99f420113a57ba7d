(** * Forgets: the proof that the library behaves as [Swallow.v] says

    The machine of [Swallow.v] with objects follows the specification with [forgets] call by
    call (as in [Refine.v], with one more possibility: in a debug build the library may stop
    at a failed assertion), and the bytes follow that machine. *)

From Coq Require Import List NArith ZArith Bool Arith Lia.
From Verif Require Import Cells Machine Optional Program Spec CellsFacts Laws Refine Contract.
From Verif Require Import Histories Bits Manip IntRange Select Selection Whole Documented Sample.
From Verif Require Import Effects Threads Generic Flat ExampleTac Moved.
From Verif Require Import Swallow.
Import ListNotations.
(** ** The machine in between behaves like the optionals that forget *)
Section Follows.
  Context {W : Type}.
  Variable E : env W.
  Hypothesis HE : env_ok E.
  Local Notation P := (mid E).
  Local Notation tid := (e_tid E).
  Local Notation pops := (ops E).
  Local Notation bec := (forgets E).
  Local Notation isv := (is_value E).

  Definition emb (x : option sobj) : option aob :=
    match x with
    | None => None
    | Some (SOpt o) => Some (AOpt o)
    | Some (SVar v) => Some (AVar v)
    end.

  (** A variable under construction: it is [h_now] here, and [h_then] for the
      specification. *)
  Record hole : Type := MkHole { h_loc : loc; h_now : option aob; h_then : option sobj }.
  Definition vacant (x : option sobj) : Prop := x = None \/ x = Some (SOpt None).
  Definition at_hole (h : option hole) (a : astate W) (t : sstate W) (j : loc) : Prop :=
    match h with
    | Some q => if Nat.eqb (h_loc q) j
                then aobj a j = h_now q /\ objs t j = h_then q /\ vacant (h_then q)
                else aobj a j = emb (objs t j)
    | None => aobj a j = emb (objs t j)
    end.
  Definition rel (h : option hole) (a : astate W) (t : sstate W) : Prop :=
    aworld a = sworld t /\ forall j, at_hole h a t j.

  Definition dies {A} (r : out A * astate W) : Prop :=
    e_dbg E = true /\ exists a, r = (Dead AssertFailed, a).
  Definition agrees {A} (RO RT : astate W -> sstate W -> Prop)
      (r : out A * astate W) (q : sout A * sstate W) : Prop :=
    match q with
    | (SOk x, t) => dies r \/ exists a, r = (Ok x, a) /\ RO a t
    | (SThrow e, t) => dies r \/ exists a, r = (Throw e, a) /\ RT a t
    | (SUndef, _) => True
    end.
  Definition follows {A} (h : option hole) (m : @G (astate W) A) (sm : @S W A) : Prop :=
    forall a t, rel h a t -> agrees (rel h) (rel h) (m a) (sm t).

  (** *** Composition *)
  Lemma ok_b {A B} (m : @G (astate W) A) (k : A -> @G (astate W) B) a x a' :
    m a = (Ok x, a') -> bind' m k a = k x a'.
  Proof. intros H. unfold bind'. rewrite H. reflexivity. Qed.
  Lemma sok_b {A B} (m : @S W A) (k : A -> @S W B) t x t' :
    m t = (SOk x, t') -> sbind m k t = k x t'.
  Proof. intros H. unfold sbind. rewrite H. reflexivity. Qed.
  Lemma now {A} (RO RT : astate W -> sstate W -> Prop) (x : A) a t r :
    r = (Ok x, a) -> RO a t -> agrees RO RT r (SOk x, t).
  Proof. intros -> H. right. exists a. auto. Qed.
  Lemma ag_bind {A B} (RO RT RO' RT' : astate W -> sstate W -> Prop) (m : @G (astate W) A) (k : A -> @G (astate W) B) sm sk a t :
    agrees RO RT (m a) (sm t) ->
    (forall x a' t', RO a' t' -> sm t = (SOk x, t') -> agrees RO' RT' (k x a') (sk x t')) ->
    (forall a' t', RT a' t' -> RT' a' t') ->
    agrees RO' RT' (bind' m k a) (sbind sm sk t).
  Proof.
    unfold bind', sbind. destruct (sm t) as [[x|e|] t'] eqn:Hs; intros H Hk HT; [| |exact I].
    - destruct H as [(Hd & a' & ->)|(a' & -> & Hr)].
      + destruct (sk x t') as [[y|e|] t'']; cbn; unfold dies; eauto.
      + apply Hk; auto.
    - destruct H as [(Hd & a' & ->)|(a' & -> & Hr)]; cbn; unfold dies; eauto.
  Qed.
  Lemma ag_seq {A B} (R : astate W -> sstate W -> Prop) (m : @G (astate W) A) (k : A -> @G (astate W) B) sm sk a t :
    agrees R R (m a) (sm t) ->
    (forall x a' t', R a' t' -> sm t = (SOk x, t') -> agrees R R (k x a') (sk x t')) ->
    agrees R R (bind' m k a) (sbind sm sk t).
  Proof. intros H Hk. eapply ag_bind; eauto. Qed.
  Lemma f_bind {A B} h (m : @G (astate W) A) (k : A -> @G (astate W) B) sm sk :
    follows h m sm -> (forall x, follows h (k x) (sk x)) -> follows h (bind' m k) (sbind sm sk).
  Proof. intros H Hk a t R. eapply ag_seq; [apply H, R|]. intros x a' t' R' _. apply Hk, R'. Qed.
  Lemma f_ret {A} h (x : A) : follows h (ret' x) (sret x).
  Proof. intros a t R. right. exists a. auto. Qed.
  Lemma f_call {A} h (g : W -> A * W) : follows h (p_call P A g) (suser g).
  Proof.
    intros a t (Hw & Hs). cbn. unfold a_call, suser. rewrite Hw. destruct (g (sworld t)) as [x w].
    right. eexists. split; [reflexivity|]. split; [reflexivity|exact Hs].
  Qed.
  Lemma f_lift {A} h (r : res A) : follows h (lift_res' r) (sres r).
  Proof. intros a t R. destruct r; right; exists a; auto. Qed.
  Lemma ag_weak {A} (RO RT RO' RT' : astate W -> sstate W -> Prop) (r : out A * astate W) q :
    agrees RO RT r q -> (forall a t, RO a t -> RO' a t) -> (forall a t, RT a t -> RT' a t) ->
    agrees RO' RT' r q.
  Proof.
    unfold agrees. intros H HO HT. destruct q as [[x|e|] t]; [| |exact I];
      (destruct H as [H|(a & Ha & Hr)]; [left; exact H|right; eauto]).
  Qed.
  Lemma ag_noexcept {A} (RO RT : astate W -> sstate W -> Prop) b (m : @G (astate W) A) a q :
    agrees RO RT (m a) q -> (b = true -> forall e t, q <> (SThrow e, t)) ->
    agrees RO RT (noexcept_if' b m a) q.
  Proof.
    unfold noexcept_if', agrees. intros H Hn. destruct q as [[x|e|] t]; [| |exact I].
    - destruct H as [(Hd & a' & ->)|(a' & -> & Hr)]; [left; split; eauto|right; eauto].
    - destruct H as [(Hd & a' & ->)|(a' & -> & Hr)]; [left; split; eauto|].
      destruct b; [destruct (Hn eq_refl e t eq_refl)|]. right. eauto.
  Qed.
  Lemma ag_on_throw {A} (RO RT RT' : astate W -> sstate W -> Prop) (m : @G (astate W) A) (cl : @G (astate W) unit) a q :
    agrees RO RT (m a) q ->
    (forall e a' t', q = (SThrow e, t') -> RT a' t' -> exists a'', cl a' = (Ok tt, a'') /\ RT' a'' t') ->
    agrees RO RT' (on_throw' m cl a) q.
  Proof.
    unfold on_throw', agrees. intros H Hc. destruct q as [[x|e|] t]; [| |exact I].
    - destruct H as [(Hd & a' & ->)|(a' & -> & Hr)]; [left; split; eauto|right; eauto].
    - destruct H as [(Hd & a' & ->)|(a' & -> & Hr)]; [left; split; eauto|].
      destruct (Hc e a' t eq_refl Hr) as (a'' & -> & Hr'). right. eauto.
  Qed.
  (** An assertion about a state in which its condition can be evaluated. *)
  Definition decides (c : @G (astate W) bool) (a : astate W) : Prop := exists b, c a = (Ok b, a).
  Lemma assert_dec c a : decides c a -> assert_' E c a = (Ok tt, a) \/ dies (assert_' E c a).
  Proof.
    intros (b & Hb). unfold assert_', dies. destruct (e_dbg E); [|left; reflexivity].
    unfold bind'. rewrite Hb. destruct b; [left; reflexivity|]. right. split; [reflexivity|].
    eexists. reflexivity.
  Qed.
  Lemma ag_after (RO RT : astate W -> sstate W -> Prop) (m : @G (astate W) unit) c a q :
    agrees RO RT (m a) q ->
    (forall a' t', q = (SOk tt, t') -> RO a' t' -> decides c a') ->
    agrees RO RT (bind' m (fun _ => assert_' E c) a) q.
  Proof.
    unfold agrees, bind'. intros H Hc. destruct q as [[[]|e|] t]; [| |exact I].
    - destruct H as [(Hd & a' & ->)|(a' & -> & Hr)]; [left; split; eauto|].
      destruct (assert_dec c a' (Hc a' t eq_refl Hr)) as [Ha|Ha].
      + right. eauto.
      + left. exact Ha.
    - destruct H as [(Hd & a' & ->)|(a' & -> & Hr)]; [left; split; eauto|right; eauto].
  Qed.
  Lemma ag_before {A} (RO RT : astate W -> sstate W -> Prop) (m : @G (astate W) A) c a q :
    decides c a -> agrees RO RT (m a) q ->
    agrees RO RT (bind' (assert_' E c) (fun _ => m) a) q.
  Proof.
    intros Hc H. unfold bind'. destruct (assert_dec c a Hc) as [Ha|(Hd & a' & Ha)]; rewrite Ha; [exact H|].
    destruct q as [[x|e|] t]; cbn; unfold dies; eauto.
  Qed.

  (** *** Objects *)
  Lemma rel_none a t j : rel None a t -> aobj a j = emb (objs t j).
  Proof. intros (_ & H). apply H. Qed.
  Lemma rel_out h a t j : rel h a t -> (forall q, h = Some q -> h_loc q <> j) -> aobj a j = emb (objs t j).
  Proof.
    intros (_ & H) Ho. specialize (H j). destruct h as [q|]; [|exact H]. cbn in H.
    destruct (Nat.eqb_spec (h_loc q) j) as [He|]; [destruct (Ho q eq_refl He)|exact H].
  Qed.
  (** Where the specification sees a value, so does the machine. *)
  Lemma rel_value h a t j x :
    rel h a t -> objs t j = Some x -> x <> SOpt None -> aobj a j = emb (Some x).
  Proof.
    intros R Hj Hx. rewrite <- Hj. apply (rel_out h a t j R). intros q -> He.
    destruct R as (_ & R). specialize (R j). cbn in R. rewrite He, Nat.eqb_refl in R.
    destruct R as (_ & Ht & [Hv|Hv]); congruence.
  Qed.
  Lemma rel_upd h a t j x w :
    rel h a t -> (forall q, h = Some q -> h_loc q <> j) ->
    rel h (MkA (upd (aobj a) j (emb x)) w) (MkS (upd (objs t) j x) w).
  Proof.
    intros (Hw & R) Ho. split; [reflexivity|]. intros k. specialize (R k). unfold at_hole in *.
    cbn [aobj objs]. unfold upd. destruct (Nat.eqb_spec j k) as [<-|Hn]; [|exact R].
    destruct h as [q|]; [|reflexivity].
    destruct (Nat.eqb_spec (h_loc q) j) as [He|]; [destruct (Ho q eq_refl He)|reflexivity].
  Qed.
  Lemma open_hole a t i : rel None a t -> vacant (objs t i) ->
    rel (Some (MkHole i (emb (objs t i)) (objs t i))) a t.
  Proof.
    intros (Hw & R) Hv. split; [exact Hw|]. intros j. specialize (R j). cbn in *.
    destruct (Nat.eqb_spec i j) as [<-|]; auto.
  Qed.
  Lemma close_hole a t i x : rel (Some (MkHole i (emb x) x)) a t -> rel None a t.
  Proof.
    intros (Hw & R). split; [exact Hw|]. intros j. specialize (R j). cbn in *.
    destruct (Nat.eqb i j); [|exact R]. destruct R as (R1 & R2 & _). rewrite R1, R2. reflexivity.
  Qed.
  Lemma hole_now a t i n x : rel (Some (MkHole i n x)) a t -> aobj a i = n.
  Proof. intros (_ & R). specialize (R i). cbn in R. rewrite Nat.eqb_refl in R. apply R. Qed.
  Lemma hole_then a t i n x : rel (Some (MkHole i n x)) a t -> objs t i = x /\ vacant x.
  Proof. intros (_ & R). specialize (R i). cbn in R. rewrite Nat.eqb_refl in R. tauto. Qed.
  Lemma hole_set a t i n x n' : rel (Some (MkHole i n x)) a t ->
    rel (Some (MkHole i n' x)) (MkA (upd (aobj a) i n') (aworld a)) t.
  Proof.
    intros (Hw & R). split; [exact Hw|]. intros j. specialize (R j). cbn in *. unfold upd.
    destruct (Nat.eqb i j); [tauto|exact R].
  Qed.
  Lemma hole_fill a t i n x n' : rel (Some (MkHole i n x)) a t ->
    rel None (MkA (upd (aobj a) i (emb n')) (aworld a)) (MkS (upd (objs t) i n') (sworld t)).
  Proof.
    intros (Hw & R). split; [exact Hw|]. intros j. specialize (R j). cbn in *. unfold upd.
    destruct (Nat.eqb i j); [reflexivity|exact R].
  Qed.

  (** *** Reading and writing payloads *)
  Lemma f_load h i : follows h (p_load P i) (sread i).
  Proof.
    intros a t R. unfold sread. destruct (objs t i) as [[[v|]|v]|] eqn:Hi; try exact I; cbn;
      (rewrite (rel_value h a t i _ R Hi) by discriminate; right; exists a; auto).
  Qed.
  Lemma f_put h i v a t :
    rel h a t -> (forall q, h = Some q -> h_loc q <> i) ->
    agrees (rel h) (rel h) (a_put E i v a) (bec i (Some v) t).
  Proof.
    intros R Ho. unfold a_put, forgets. pose proof (proj1 R) as Hw.
    destruct (storable E i v); [|destruct (empties E i v); [|exact I]];
      (right; eexists; split; [reflexivity|]; rewrite Hw).
    - apply (rel_upd h a t i (Some (SOpt (Some v))) (sworld t) R Ho).
    - apply (rel_upd h a t i (Some (SOpt None)) (sworld t) R Ho).
  Qed.
  Lemma not_hole h a t i x : rel h a t -> objs t i = Some x -> x <> SOpt None ->
    forall q, h = Some q -> h_loc q <> i.
  Proof.
    intros R Hi Hx q -> He. destruct R as (_ & R). specialize (R i). cbn in R.
    rewrite He, Nat.eqb_refl in R. destruct R as (_ & Ht & [Hv|Hv]); congruence.
  Qed.
  Lemma f_store h i v : follows h (p_store P i v) (swrite' bec isv i v).
  Proof.
    intros a t R. unfold swrite'. destruct (objs t i) as [[[d|]|d]|] eqn:Hi; try exact I; cbn [p_store mid];
      rewrite (rel_value h a t i _ R Hi) by discriminate; cbn [emb].
    - apply f_put; [exact R|]. eapply not_hole; [exact R|exact Hi|discriminate].
    - destruct (isv i v); [|exact I]. right. eexists. split; [reflexivity|]. rewrite (proj1 R).
      apply (rel_upd h a t i (Some (SVar v)) (sworld t) R). eapply not_hole; [exact R|exact Hi|discriminate].
  Qed.
  Lemma f_load_more h l : follows h (load_more' P l) (sread_more l).
  Proof.
    induction l as [|[j c] l IH]; [apply f_ret|]. cbn [load_more' sread_more].
    apply f_bind; [apply f_load|]. intros v. apply f_bind; [exact IH|]. intros vs. apply f_ret.
  Qed.
  Lemma f_store_more h l : forall vs, follows h (store_more' P l vs) (swrite_more' bec isv l vs).
  Proof.
    induction l as [|[j c] l IH]; intros vs; [apply f_ret|].
    destruct vs as [|v vs]; [apply f_ret|]. cbn [store_more' swrite_more'].
    apply f_bind; [destruct c; [apply f_ret|apply f_store]|]. intros u. apply IH.
  Qed.
  Lemma f_ini h n : follows h (run_ini' P n) (sinit' bec isv n).
  Proof.
    unfold run_ini', sinit'. apply f_bind; [destruct (i_src n); [apply f_load|apply f_ret]|].
    intros src. apply f_bind; [apply f_load_more|]. intros more.
    apply f_bind; [apply f_call|]. intros p.
    apply f_bind; [destruct (i_src n); [destruct (i_const n)|]; try apply f_ret; apply f_store|].
    intros u. apply f_bind; [apply f_store_more|]. intros u'. apply f_lift.
  Qed.

  (** *** What throws *)
  Lemma bec_nt i o t e t' : bec i o t <> (SThrow e, t').
  Proof. unfold forgets, sset, sundef. destruct o; [destruct (storable E i r), (empties E i r)|]; discriminate. Qed.
  Lemma write_nt i v t e t' : swrite' bec isv i v t <> (SThrow e, t').
  Proof.
    unfold swrite'. destruct (objs t i) as [[[d|]|d]|]; try discriminate; [apply bec_nt|].
    destruct (isv i v); discriminate.
  Qed.
  Lemma write_more_nt l e t' : forall vs t, swrite_more' bec isv l vs t <> (SThrow e, t').
  Proof.
    induction l as [|[j c] l IH]; intros vs t; [discriminate|]. destruct vs as [|v vs]; [discriminate|].
    cbn. unfold sbind. destruct c; [apply IH|]. pose proof (write_nt j v t) as Hn.
    destruct (swrite' bec isv j v t) as [[u|e'|] t1]; [apply IH| |discriminate]. destruct (Hn e' t1 eq_refl).
  Qed.
  Lemma init_throws n t e t' :
    sinit' bec isv n t = (SThrow e, t') -> exists v w, fst (fst (i_fun n v w)) = RThrow e.
  Proof.
    unfold sinit', sbind at 1.
    destruct ((match i_src n with None => sret [] | Some j => sread j end) t) as [[src|e1|] t1] eqn:H1.
    2:{ exfalso. destruct (i_src n); [apply (sread_throws _ _ _ _ H1)|discriminate]. }
    2:{ discriminate. }
    unfold sbind at 1. destruct (sread_more (i_more n) t1) as [[more|e2|] t2] eqn:H2.
    2:{ destruct (sread_more_throws _ _ _ _ H2). }
    2:{ discriminate. }
    unfold sbind at 1. unfold suser. destruct (i_fun n (joined src more) (sworld t2)) as [p w] eqn:Hf.
    intros H. exists (joined src more), (sworld t2). rewrite Hf. cbn [fst]. revert H. unfold sbind.
    match goal with |- context [match ?m ?t with _ => _ end] => destruct (m t) as [[u|e3|] t3] eqn:H3 end.
    2:{ exfalso. destruct (i_src n); [destruct (i_const n)|]; try discriminate. apply (write_nt _ _ _ _ _ H3). }
    2:{ discriminate. }
    destruct (swrite_more' bec isv (i_more n) (snd (parted src more (snd p))) t3) as [[u'|e4|] t4] eqn:H4.
    2:{ destruct (write_more_nt _ _ _ _ _ H4). }
    2:{ discriminate. }
    unfold sres, sret, sthrow. destruct (fst p); intros H; congruence.
  Qed.
  Lemma init_nt n t e t' : ini_ok n -> i_nothrow n = true -> sinit' bec isv n t <> (SThrow e, t').
  Proof.
    intros Hok Hn H. destruct (init_throws n t e t' H) as (v & w & Hf).
    pose proof (Hok Hn v w) as K. rewrite Hf in K. exact K.
  Qed.

  (** *** Construction *)
  Definition build (n : ini W) (i : loc) : @S W unit :=
    sbind (sinit' bec isv n) (fun v => bec i (Some v)).
  Definition empty_hole i x : option hole := Some (MkHole i (Some (AOpt None)) x).
  Lemma has_opt i o a : aobj a i = Some (AOpt o) -> has_value' P i a = (Ok (is_some o), a).
  Proof. intros H. unfold has_value', bind'. cbn. rewrite H. destruct o; reflexivity. Qed.
  Lemma has_dec i o a : aobj a i = Some (AOpt o) -> decides (has_value' P i) a.
  Proof. intros H. eexists. apply has_opt, H. Qed.
  Lemma not_dec c a : decides c a -> decides (not_' c) a.
  Proof. intros (b & H). exists (negb b). unfold not_', bind'. rewrite H. reflexivity. Qed.
  Lemma same_dec i j x y a : aobj a i = Some (AOpt x) -> aobj a j = Some (AOpt y) ->
    decides (same_has' P i j) a.
  Proof.
    intros Hi Hj. exists (Bool.eqb (is_some x) (is_some y)). unfold same_has', bind'.
    rewrite (has_opt _ _ _ Hi), (has_opt _ _ _ Hj). reflexivity.
  Qed.
  (** After [bec] the variable is an optional. *)
  Lemma bec_opt i o t t' : bec i o t = (SOk tt, t') -> exists o', objs t' i = Some (SOpt o').
  Proof.
    unfold forgets, sset, sundef. destruct o as [v|].
    - destruct (storable E i v); [|destruct (empties E i v)]; intros H; try discriminate;
        injection H as <-; cbn; rewrite upd_same; eauto.
    - intros [= <-]. cbn. rewrite upd_same. eauto.
  Qed.
  Lemma build_opt n i t t' : build n i t = (SOk tt, t') -> exists o', objs t' i = Some (SOpt o').
  Proof.
    unfold build, sbind. destruct (sinit' bec isv n t) as [[v|e|] t1]; try discriminate. apply bec_opt.
  Qed.
  Lemma rel_opt a t i o : rel None a t -> objs t i = Some (SOpt o) -> aobj a i = Some (AOpt o).
  Proof. intros R Hi. rewrite (rel_none a t i R), Hi. reflexivity. Qed.

  Lemma placement i n x a t :
    rel (Some (MkHole i (Some (ARaw true)) x)) a t ->
    agrees (rel None) (rel (Some (MkHole i (Some (ARaw true)) x))) (placement_new' P i n a) (build n i t).
  Proof.
    intros R. unfold placement_new', build.
    eapply ag_bind; [apply f_ini, R| |auto]. intros v a1 t1 R1 _. cbn [p_begin mid].
    rewrite (hole_now _ _ _ _ _ R1). unfold a_put, forgets. pose proof (proj1 R1) as Hw.
    destruct (storable E i v); [|destruct (empties E i v); [|exact I]];
      (right; eexists; split; [reflexivity|]).
    - apply (hole_fill _ _ _ _ _ (Some (SOpt (Some v))) R1).
    - apply (hole_fill _ _ _ _ _ (Some (SOpt None)) R1).
  Qed.
  Lemma construct i n x a t :
    rel (empty_hole i x) a t -> ini_ok n ->
    agrees (rel None) (rel (empty_hole i x)) (construct_payload' E P i n a) (build n i t).
  Proof.
    intros R Hok. unfold construct_payload'. apply ag_noexcept.
    2:{ intros Hn e t' H. unfold build, sbind in H.
        destruct (sinit' bec isv n t) as [[v|e'|] t1] eqn:Hi; try discriminate.
        - apply (bec_nt _ _ _ _ _ H).
        - apply (init_nt _ _ _ _ Hok Hn Hi). }
    apply ag_before; [apply not_dec; eapply has_dec, hole_now, R|].
    assert (Hinv : p_invalidate P i a = (Ok tt, MkA (upd (aobj a) i (Some (ARaw true))) (aworld a))).
    { cbn. rewrite (hole_now _ _ _ _ _ R). reflexivity. }
    rewrite (ok_b _ _ _ _ _ Hinv). clear Hinv. cbn beta.
    pose proof (hole_set _ _ _ _ _ (Some (ARaw true)) R) as R1.
    apply ag_after.
    2:{ intros a' t' H R'. destruct (build_opt _ _ _ _ H) as (o & Ho). eapply has_dec, rel_opt; eauto. }
    destruct (i_nothrow n) eqn:Hn.
    - pose proof (placement i n x _ t R1) as K. unfold agrees in *.
      destruct (build n i t) as [[u|e|] t'] eqn:Hb; auto.
      exfalso. unfold build, sbind in Hb. destruct (sinit' bec isv n t) as [[v|e'|] t1] eqn:Hi; try discriminate.
      + apply (bec_nt _ _ _ _ _ Hb).
      + apply (init_nt _ _ _ _ Hok Hn Hi).
    - eapply ag_on_throw; [apply placement, R1|]. intros e a' t' _ R'.
      cbn. rewrite (hole_now _ _ _ _ _ R'). eexists. split; [reflexivity|]. apply (hole_set _ _ _ _ _ _ R').
  Qed.
  Lemma construct_here i n a t :
    rel None a t -> objs t i = Some (SOpt None) -> ini_ok n ->
    agrees (rel None) (rel None) (construct_payload' E P i n a) (build n i t).
  Proof.
    intros R Hi Hok. pose proof (open_hole a t i R ltac:(right; exact Hi)) as R1. rewrite Hi in R1.
    eapply ag_weak; [apply (construct i n _ a t R1 Hok)|auto|]. intros a' t'. apply (close_hole a' t' i (Some (SOpt None))).
  Qed.

  (** Storage for a new variable, empty at first. *)
  Lemma alloc_init i a t : rel None a t -> objs t i = None ->
    exists a1, p_alloc P i a = (Ok tt, a1) /\ aobj a1 i = Some (ARaw false) /\
      exists a2, p_init P i a1 = (Ok tt, a2) /\ rel (empty_hole i None) a2 t.
  Proof.
    intros R Hi. pose proof (rel_none a t i R) as Ha. rewrite Hi in Ha. cbn in Ha.
    cbn. rewrite Ha. eexists. split; [reflexivity|]. cbn [aobj]. rewrite upd_same.
    split; [reflexivity|]. eexists. split; [reflexivity|].
    pose proof (open_hole a t i R ltac:(left; exact Hi)) as R1. rewrite Hi in R1.
    pose proof (hole_set _ _ _ _ _ (Some (ARaw false)) R1) as R2.
    exact (hole_set _ _ _ _ _ (Some (AOpt None)) R2).
  Qed.
  Lemma dealloc_hole i a t : rel (empty_hole i None) a t ->
    exists a', p_dealloc P i a = (Ok tt, a') /\ rel None a' t.
  Proof.
    intros R. cbn. rewrite (hole_now _ _ _ _ _ R). eexists. split; [reflexivity|].
    apply (close_hole _ _ i None). exact (hole_set _ _ _ _ _ None R).
  Qed.
  Lemma fill_empty i x a t : rel (empty_hole i x) a t ->
    rel None a (MkS (upd (objs t) i (Some (SOpt None))) (sworld t)).
  Proof.
    intros R. pose proof (hole_now _ _ _ _ _ R) as Hn. destruct R as (Hw & R). split; [exact Hw|].
    intros j. specialize (R j). cbn in *. unfold upd.
    destruct (Nat.eqb_spec i j) as [He|]; [|exact R]. rewrite <- He. exact Hn.
  Qed.
  Lemma storage_default i a1 a2 x t :
    p_init P i a1 = (Ok tt, a2) -> rel (empty_hole i x) a2 t ->
    storage_default' E P i a1 = (Ok tt, a2) \/ dies (storage_default' E P i a1).
  Proof.
    intros Hi R. unfold storage_default', noexcept_if'. rewrite (ok_b _ _ _ _ _ Hi). cbn beta.
    destruct (assert_dec (not_' (has_value' P i)) a2) as [->|(Hd & a' & ->)].
    - apply not_dec. eapply has_dec, hole_now, R.
    - left. reflexivity.
    - right. split; [exact Hd|]. eexists. reflexivity.
  Qed.
  Lemma f_default i : follows None (ctor_default' E P i) (s_new' bec i None).
  Proof.
    intros a t R. unfold s_new', sbind, fresh. destruct (objs t i) eqn:Hi; [exact I|].
    destruct (alloc_init i a t R Hi) as (a1 & H1 & Hr & a2 & H2 & R2).
    unfold ctor_default'. rewrite (ok_b _ _ _ _ _ H1). cbn.
    destruct (storage_default i a1 a2 _ t H2 R2) as [->|Hd]; [|left; exact Hd].
    right. eexists. split; [reflexivity|]. apply (fill_empty i _ a2 t R2).
  Qed.
  Lemma f_in_place i n : ini_ok n ->
    follows None (ctor_in_place' E P i n) (sbind (fresh i) (fun _ => build n i)).
  Proof.
    intros Hok a t R. unfold sbind, fresh. destruct (objs t i) eqn:Hi; [exact I|].
    destruct (alloc_init i a t R Hi) as (a1 & H1 & Hr & a2 & H2 & R2).
    unfold ctor_in_place'. rewrite (ok_b _ _ _ _ _ H1). cbn beta.
    eapply ag_on_throw.
    - rewrite (ok_b _ _ _ _ _ H2). apply (construct i n _ a2 t R2 Hok).
    - intros e a' t' _ R'. apply dealloc_hole, R'.
  Qed.
  (** *** Destruction *)
  Lemma f_dtor' i : follows None (dtor' P i) (s_dtor pops i).
  Proof.
    intros a t R. unfold s_dtor, contents, sbind at 1. destruct (objs t i) as [[o|?]|] eqn:Hi; try exact I.
    pose proof (rel_opt a t i o R Hi) as Ha.
    unfold dtor', storage_dtor', noexcept_if'. rewrite (ok_b _ _ _ _ _ (has_opt _ _ _ Ha)).
    pose proof (proj1 R) as Hw. destruct o as [v|]; cbn; unfold bind'; cbn; rewrite ?Ha; cbn;
      unfold bind'; cbn; rewrite ?upd_same; (right; eexists; split; [reflexivity|]; rewrite ?Hw).
    - pose proof (rel_upd None a t i None (po_dtor (pops i) v (sworld t)) R ltac:(discriminate)) as K.
      destruct K as (_ & K). split; [reflexivity|]. intros j. specialize (K j). cbn in *.
      unfold upd in *. destruct (Nat.eqb i j); exact K.
    - apply (rel_upd None a t i None (sworld t) R). discriminate.
  Qed.
  Lemma f_reset i : follows None (reset' E P i) (s_clear' pops bec i).
  Proof.
    intros a t R. unfold s_clear', contents, sbind at 1. destruct (objs t i) as [[o|?]|] eqn:Hi; try exact I.
    pose proof (rel_opt a t i o R Hi) as Ha. pose proof (proj1 R) as Hw.
    apply ag_noexcept.
    2:{ intros _ e t'. destruct o; cbn; discriminate. }
    rewrite (ok_b _ _ _ _ _ (has_opt _ _ _ Ha)). destruct o as [v|]; cbn [is_some].
    - assert (H1 : p_end P i a = (Ok tt, MkA (upd (aobj a) i (Some (ARaw false))) (po_dtor (pops i) v (sworld t)))).
      { cbn. rewrite Ha. unfold bind'. cbn. rewrite Hw. reflexivity. }
      rewrite (ok_b _ _ _ _ _ H1). cbn beta.
      apply ag_after.
      + cbn. rewrite upd_same. unfold a_set. cbn [aobj aworld]. right. eexists. split; [reflexivity|].
        pose proof (rel_upd None a t i (Some (SOpt None)) (po_dtor (pops i) v (sworld t)) R ltac:(discriminate)) as K.
        destruct K as (_ & K). split; [reflexivity|]. intros j. specialize (K j). cbn in *.
        unfold upd in *. destruct (Nat.eqb i j); exact K.
      + intros a' t' H R'. apply not_dec. cbn in H. injection H as <-. eapply has_dec, rel_opt; [exact R'|].
        cbn. apply upd_same.
    - right. exists a. auto.
  Qed.
  (** *** Optionals remain optionals *)
  Definition keeps {A} (sm : @S W A) : Prop := forall t r t', sm t = (r, t') ->
    forall j o, objs t j = Some (SOpt o) -> exists o', objs t' j = Some (SOpt o').
  Lemma k_ret {A} (x : A) : keeps (sret x).
  Proof. intros t r t' [= <- <-]; eauto. Qed.
  Lemma k_user {A} (g : W -> A * W) : keeps (suser g).
  Proof. intros t r t'. unfold suser. destruct (g (sworld t)). intros [= <- <-]; eauto. Qed.
  Lemma k_res {A} (x : res A) : keeps (sres x).
  Proof. intros t r t'. destruct x; intros [= <- <-]; eauto. Qed.
  Lemma k_bind {A B} (m : @S W A) (k : A -> @S W B) :
    keeps m -> (forall x, keeps (k x)) -> keeps (sbind m k).
  Proof.
    intros Hm Hk t r t'. unfold sbind. destruct (m t) as [[x|e|] t1] eqn:H1; intros H2 j o Ho;
      destruct (Hm _ _ _ H1 j o Ho) as (o1 & Ho1).
    - apply (Hk x _ _ _ H2 j o1 Ho1).
    - injection H2 as <- <-. eauto.
    - injection H2 as <- <-. eauto.
  Qed.
  Lemma k_read i : keeps (sread i).
  Proof. intros t r t' H. rewrite (sread_state _ _ _ _ H). eauto. Qed.
  Lemma k_read_more l : keeps (sread_more l).
  Proof. intros t r t' H. rewrite (sread_more_state _ _ _ _ H). eauto. Qed.
  Lemma k_bec i o : keeps (bec i o).
  Proof.
    assert (K : forall x (t : sstate W) j q, objs t j = Some (SOpt q) ->
      exists o', upd (objs t) i (Some (SOpt x)) j = Some (SOpt o') :> option sobj).
    { intros x t j q Hq. unfold upd. destruct (Nat.eqb i j); eauto. }
    intros t r t'. unfold forgets, sset, sundef. destruct o as [v|].
    - destruct (storable E i v); [|destruct (empties E i v)]; intros [= <- <-] j q Hq; cbn [objs]; eauto.
    - intros [= <- <-] j q Hq. cbn [objs]. eauto.
  Qed.
  Lemma k_write i v : keeps (swrite' bec isv i v).
  Proof.
    intros t r t'. unfold swrite'. destruct (objs t i) as [[[d|]|d]|] eqn:Hi.
    - apply k_bec.
    - intros [= <- <-]; eauto.
    - destruct (isv i v); intros [= <- <-]; eauto. cbn. intros j o Ho. unfold upd.
      destruct (Nat.eqb_spec i j) as [He|]; [rewrite <- He in Ho; congruence|eauto].
    - intros [= <- <-]; eauto.
  Qed.
  Lemma k_write_more l : forall vs, keeps (swrite_more' bec isv l vs).
  Proof.
    induction l as [|[j c] l IH]; intros vs; [apply k_ret|]. destruct vs; [apply k_ret|].
    cbn. apply k_bind; [destruct c; [apply k_ret|apply k_write]|]. intros u. apply IH.
  Qed.
  Lemma k_init n : keeps (sinit' bec isv n).
  Proof.
    unfold sinit'. apply k_bind; [destruct (i_src n); [apply k_read|apply k_ret]|]. intros src.
    apply k_bind; [apply k_read_more|]. intros more. apply k_bind; [apply k_user|]. intros p.
    apply k_bind; [destruct (i_src n); [destruct (i_const n)|]; try apply k_ret; apply k_write|].
    intros u. apply k_bind; [apply k_write_more|]. intros u'. apply k_res.
  Qed.
  Lemma k_build n i : keeps (build n i).
  Proof. apply k_bind; [apply k_init|]. intros v. apply k_bec. Qed.
  Ltac keep := repeat first
    [apply k_init|apply k_bind|apply k_ret|apply k_res|apply k_user|apply k_read|apply k_write|apply k_bec
    |match goal with
     | |- keeps (if ?b then _ else _) => destruct b
     | |- keeps (match ?b with _ => _ end) => destruct b
     | |- keeps _ => fail 1
     | |- forall _, _ => intros ?
     end].
  Lemma k_existing i a : keeps (s_assign_existing' bec isv i a).
  Proof. unfold s_assign_existing'. keep. Qed.
  Lemma k_contents i : keeps (@contents W i).
  Proof. intros t r t'. unfold contents. destruct (objs t i) as [[?|?]|]; intros [= <- <-]; eauto. Qed.
  Lemma k_clear i : keeps (s_clear' pops bec i).
  Proof. unfold s_clear', sdestroy. apply k_bind; [apply k_contents|]. keep. Qed.
  Lemma k_assign i a : keeps (s_assign' bec isv i a).
  Proof.
    unfold s_assign'. apply k_bind; [apply k_contents|]. intros [v|]; [apply k_existing|]. keep.
  Qed.

  (** *** Copies and moves *)
  Lemma copy_eq j (t : sstate W) : sinit' bec isv (copy_ini E j) t = scopy pops j t.
  Proof.
    unfold sinit', scopy, copy_ini, sbind. cbn.
    destruct (sread j t) as [[v|e|] t1]; try reflexivity.
    unfold suser. destruct (po_copy (ops E j) v (sworld t1)). reflexivity.
  Qed.
  Lemma c_ok j : ini_ok (copy_ini E j).
  Proof. apply copy_ini_ok, HE. Qed.
  Lemma m_ok j : ini_ok (move_ini E j).
  Proof. apply move_ini_ok, HE. Qed.
  Lemma p_ok j : payops_ok (ops E j).
  Proof. apply (HE (e_tid E j)). Qed.
  Lemma move_nt j t e t' : po_nt_move (ops E j) = true -> smove' pops bec isv j t <> (SThrow e, t').
  Proof. intros H. exact (init_nt (move_ini E j) t e t' (m_ok j) H). Qed.

  Lemma dtor_hole i a t : rel (empty_hole i None) a t ->
    exists a', storage_dtor' P i a = (Ok tt, a') /\ rel None a' t.
  Proof.
    intros R. destruct (dealloc_hole i a t R) as (a' & H & R'). exists a'. split; [|exact R'].
    unfold storage_dtor', noexcept_if'. rewrite (ok_b _ _ _ _ _ (has_opt _ _ _ (hole_now _ _ _ _ _ R))).
    cbn [is_some]. rewrite (ok_b (ret' tt) _ a tt a eq_refl). cbn beta. rewrite H. reflexivity.
  Qed.
  Lemma ctor_body i j n (get : @S W rep) a t :
    (forall t, sinit' bec isv n t = get t) -> ini_ok n ->
    rel (empty_hole i None) a t -> objs t i = None ->
    agrees (rel None) (rel None)
      (on_throw'
         (bind' (has_value' P j) (fun b =>
          bind' (if b then construct_payload' E P i n else assert_' E (not_' (has_value' P i))) (fun _ =>
          assert_' E (same_has' P i j))))
         (storage_dtor' P i) a)
      (sbind (contents j) (fun o =>
         match o with
         | None => bec i None
         | Some _ => sbind get (fun v => bec i (Some v))
         end) t).
  Proof.
    intros Hget Hok R Hi. unfold sbind at 1, contents. destruct (objs t j) as [[o|?]|] eqn:Hj; try exact I.
    assert (Nij : i <> j) by congruence.
    assert (Haj : aobj a j = Some (AOpt o)).
    { rewrite (rel_out _ a t j R), Hj; [reflexivity|]. intros q [= <-]. exact Nij. }
    destruct o as [v|]; cbn [is_some].
    - replace (sbind get (fun v => bec i (Some v)) t) with (build n i t)
        by (unfold build, sbind; rewrite Hget; reflexivity).
      eapply ag_on_throw; [|intros e a' t' _ R'; apply dtor_hole, R'].
      rewrite (ok_b _ _ _ _ _ (has_opt _ _ _ Haj)). cbn [is_some].
      apply ag_after; [apply (construct i n _ a t R Hok)|].
      intros a' t' H R'. destruct (build_opt _ _ _ _ H) as (x & Hx).
      destruct (k_build n i _ _ _ H j _ Hj) as (y & Hy). eapply same_dec; eapply rel_opt; eauto.
    - eapply (ag_on_throw (rel None) (fun _ _ => False)); [|intros e a' t' _ []].
      rewrite (ok_b _ _ _ _ _ (has_opt _ _ _ Haj)). cbn [is_some].
      apply ag_after.
      + destruct (assert_dec (not_' (has_value' P i)) a) as [Ha|Ha].
        * apply not_dec. eapply has_dec, hole_now, R.
        * right. exists a. split; [exact Ha|]. apply (fill_empty i _ a t R).
        * left. exact Ha.
      + intros a' t' H R'. destruct (bec_opt _ _ _ _ H) as (x & Hx).
        destruct (k_bec i None _ _ _ H j _ Hj) as (y & Hy). eapply same_dec; eapply rel_opt; eauto.
  Qed.
  Lemma f_ctor i j n get nt :
    (forall t, sinit' bec isv n t = get t) -> ini_ok n -> (nt = true -> i_nothrow n = true) ->
    follows None
      (same_type' E i j
       (bind' (p_alloc P i) (fun _ => noexcept_if' nt
         (bind' (storage_default' E P i) (fun _ =>
          on_throw'
           (bind' (has_value' P j) (fun b =>
            bind' (if b then construct_payload' E P i n else assert_' E (not_' (has_value' P i))) (fun _ =>
            assert_' E (same_has' P i j))))
           (storage_dtor' P i))))))
      (s_ctor_from' tid bec get i j).
  Proof.
    intros Hget Hok Hnt a t R. unfold s_ctor_from', same, same_type'.
    destruct (Nat.eqb (tid i) (tid j)); [|exact I].
    unfold sbind at 1, fresh. destruct (objs t i) eqn:Hi; [exact I|].
    destruct (alloc_init i a t R Hi) as (a1 & H1 & Hr & a2 & H2 & R2).
    rewrite (ok_b _ _ _ _ _ H1). apply ag_noexcept.
    - destruct (storage_default i a1 a2 _ t H2 R2) as [Hd|(Hd & a' & Ha)].
      + rewrite (ok_b _ _ _ _ _ Hd). apply ctor_body; auto.
      + unfold bind'. rewrite Ha.
        match goal with |- agrees _ _ _ ?q => destruct q as [[x|e|] t'] end; cbn; unfold dies; eauto.
    - intros Hn e t' H. unfold sbind, contents in H.
      destruct (objs t j) as [[[v|]|?]|]; try discriminate.
      rewrite <- Hget in H. destruct (sinit' bec isv n t) as [[x|e1|] t1] eqn:Hs; try discriminate.
      + apply (bec_nt _ _ _ _ _ H).
      + apply (init_nt _ _ _ _ Hok (Hnt Hn) Hs).
  Qed.
  Lemma noexcept_false {A} (m : @G (astate W) A) a : noexcept_if' false m a = m a.
  Proof. unfold noexcept_if'. destruct (m a) as [[x|e|d] a']; reflexivity. Qed.
  Lemma f_copy_ctor i j : follows None (ctor_copy' E P i j) (s_ctor_from' tid bec (scopy pops j) i j).
  Proof.
    intros a t R.
    pose proof (f_ctor i j (copy_ini E j) (scopy pops j) false (copy_eq j) (c_ok j) ltac:(discriminate) a t R) as K.
    revert K. unfold ctor_copy', same_type'. destruct (Nat.eqb (tid i) (tid j)); [|auto].
    unfold bind' at 1. unfold bind' at 4. destruct (p_alloc P i a) as [[x|e|d] a']; [|auto|auto].
    rewrite noexcept_false. auto.
  Qed.
  Lemma f_move_ctor i j :
    follows None (ctor_move' E P i j) (s_ctor_from' tid bec (smove' pops bec isv j) i j).
  Proof.
    intros a t R. destruct (Nat.eqb_spec (tid i) (tid j)) as [Ht|Hn].
    - apply (f_ctor i j (move_ini E j) (smove' pops bec isv j) (po_nt_move (ops E i))); auto.
      + apply m_ok.
      + cbn. rewrite (fresh_ops E i j Ht). auto.
    - unfold s_ctor_from', same. destruct (Nat.eqb_spec (tid i) (tid j)); [contradiction|exact I].
  Qed.

  (** *** Assignment *)
  Lemma f_existing h i x : follows h (assign_payload' P i x) (s_assign_existing' bec isv i x).
  Proof.
    unfold assign_payload', s_assign_existing'. destruct (i_src (a_ini x)) as [j|].
    - destruct (Nat.eqb i j).
      + repeat (apply f_bind; [first [apply f_load|apply f_call|apply f_store]|intros ?]).
        apply f_lift.
      + apply f_bind; [apply f_load|intros d]. apply f_bind; [apply f_load|intros v].
        apply f_bind; [apply f_call|intros p]. apply f_bind; [apply f_store|intros _].
        apply f_bind; [|intros _; apply f_lift].
        destruct (i_const (a_ini x)); [apply f_ret|apply f_store].
    - repeat (apply f_bind; [first [apply f_load|apply f_call|apply f_store]|intros ?]).
      apply f_lift.
  Qed.
  Lemma f_assign i x : ini_ok (a_ini x) ->
    follows None (assign_value' E P i x) (s_assign' bec isv i x).
  Proof.
    intros Hok a t R. unfold s_assign', sbind at 1, contents.
    destruct (objs t i) as [[o|?]|] eqn:Hi; try exact I.
    unfold assign_value'. rewrite (ok_b _ _ _ _ _ (has_opt _ _ _ (rel_opt a t i o R Hi))).
    destruct o as [v|]; cbn [is_some]; apply ag_after.
    - apply f_existing, R.
    - intros a' t' H R'. destruct (k_existing i x _ _ _ H i _ Hi) as (o' & Ho). eapply has_dec, rel_opt; eauto.
    - apply (construct_here i (a_ini x) a t R Hi Hok).
    - intros a' t' H R'. destruct (build_opt _ _ _ _ H) as (o' & Ho). eapply has_dec, rel_opt; eauto.
  Qed.
  (** Copy and move assignment are assignment from [j], or reset. *)
  Lemma f_assign_from i j (x : arg W) :
    i_src (a_ini x) = Some j -> ini_ok (a_ini x) ->
    follows None
      (bind' (has_value' P j) (fun b =>
       bind' (if b then assign_value' E P i x else reset' E P i) (fun _ =>
       assert_' E (same_has' P i j))))
      (sbind (contents j) (fun src => sbind (contents i) (fun dst =>
       match dst, src with
       | Some _, Some _ => s_assign_existing' bec isv i x
       | None, Some _ => build (a_ini x) i
       | Some d, None => sbind (sdestroy pops i d) (fun _ => bec i None)
       | None, None => sret tt
       end))).
  Proof.
    intros Hs Hok a t R. unfold sbind at 1, contents.
    destruct (objs t j) as [[sr|?]|] eqn:Hj; try exact I.
    unfold sbind at 1, contents. destruct (objs t i) as [[ds|?]|] eqn:Hi; try exact I.
    rewrite (ok_b _ _ _ _ _ (has_opt _ _ _ (rel_opt a t j sr R Hj))).
    set (q := match ds with
              | Some d => match sr with
                          | Some _ => s_assign_existing' bec isv i x
                          | None => sbind (sdestroy pops i d) (fun _ => bec i None)
                          end
              | None => match sr with Some _ => build (a_ini x) i | None => sret tt end
              end).
    assert (K : keeps q).
    { unfold q. destruct ds, sr; [apply k_existing|unfold sdestroy; keep|apply k_build|apply k_ret]. }
    apply ag_after.
    2:{ intros a' t' H R'. destruct (K _ _ _ H i _ Hi) as (o1 & H1). destruct (K _ _ _ H j _ Hj) as (o2 & H2).
        eapply same_dec; eapply rel_opt; eauto. }
    unfold q. destruct sr as [v|]; cbn [is_some].
    - pose proof (f_assign i x Hok a t R) as F. unfold s_assign', sbind at 1, contents in F.
      rewrite Hi in F. destruct ds; exact F.
    - pose proof (f_reset i a t R) as F. unfold s_clear', sbind at 1, contents in F.
      rewrite Hi in F. destruct ds; exact F.
  Qed.
  Lemma read_opt i v (t : sstate W) : objs t i = Some (SOpt (Some v)) -> sread i t = (SOk v, t).
  Proof. intros H. unfold sread. rewrite H. reflexivity. Qed.
  Lemma copy_existing i j d v t :
    objs t i = Some (SOpt (Some d)) -> objs t j = Some (SOpt (Some v)) ->
    s_assign_existing' bec isv i (copy_arg E j) t =
    (if Nat.eqb i j
     then sbind (suser (po_self_cassign (pops j) v)) (fun p =>
          sbind (swrite' bec isv i (snd p)) (fun _ => sres (fst p)))
     else sbind (sread i) (fun d => sbind (suser (po_cassign (pops j) d v)) (fun p =>
          sbind (swrite' bec isv i (snd p)) (fun _ => sres (fst p))))) t.
  Proof.
    intros Hi Hj. unfold s_assign_existing'. cbn [i_src a_ini copy_arg copy_ini i_const].
    destruct (Nat.eqb_spec i j) as [He|Hn].
    - rewrite He in *. rewrite (sok_b _ _ _ _ _ (read_opt j v t Hj)). reflexivity.
    - rewrite !(sok_b _ _ _ _ _ (read_opt i d t Hi)), (sok_b _ _ _ _ _ (read_opt j v t Hj)).
      unfold sbind, suser. cbn [a_assign copy_arg].
      destruct (po_cassign (ops E j) d v (sworld t)) as [[r d'] w']. cbn [fst snd].
      destruct (swrite' bec isv i d' (MkS (objs t) w')) as [[[]|e|] t']; reflexivity.
  Qed.
  Lemma move_existing i j d v t :
    objs t i = Some (SOpt (Some d)) -> objs t j = Some (SOpt (Some v)) ->
    s_assign_existing' bec isv i (move_arg E j) t =
    (if Nat.eqb i j
     then sbind (suser (po_self_massign (pops j) v)) (fun p =>
          sbind (swrite' bec isv i (snd p)) (fun _ => sres (fst p)))
     else sbind (sread i) (fun d => sbind (suser (po_massign (pops j) d v)) (fun p =>
          sbind (swrite' bec isv i (fst (snd p))) (fun _ =>
          sbind (swrite' bec isv j (snd (snd p))) (fun _ => sres (fst p)))))) t.
  Proof.
    intros Hi Hj. unfold s_assign_existing'. cbn [i_src a_ini move_arg move_ini i_const].
    destruct (Nat.eqb_spec i j) as [He|Hn].
    - rewrite He in *. rewrite (sok_b _ _ _ _ _ (read_opt j v t Hj)). reflexivity.
    - rewrite !(sok_b _ _ _ _ _ (read_opt i d t Hi)), (sok_b _ _ _ _ _ (read_opt j v t Hj)). reflexivity.
  Qed.
  Lemma inspect i (t : sstate W) :
    (exists o, objs t i = Some (SOpt o) /\ contents i t = (SOk o, t)) \/ contents i t = (SUndef, t).
  Proof. unfold contents. destruct (objs t i) as [[o|?]|]; eauto. Qed.
  Lemma sun_b {A B} (m : @S W A) (k : A -> @S W B) t t' :
    m t = (SUndef, t') -> sbind m k t = (SUndef, t').
  Proof. intros H. unfold sbind. rewrite H. reflexivity. Qed.
  Lemma f_copy_assign i j : follows None (assign_copy' E P i j) (s_copy_assign' tid pops bec isv i j).
  Proof.
    intros a t R. unfold assign_copy', same_type', s_copy_assign', same.
    destruct (Nat.eqb (tid i) (tid j)); [|exact I].
    pose proof (f_assign_from i j (copy_arg E j) eq_refl (c_ok j) a t R) as K. revert K.
    destruct (inspect j t) as [(sr & Hj & Cj)|Cj]; [|rewrite !(sun_b _ _ _ _ Cj); auto].
    rewrite !(sok_b _ _ _ _ _ Cj).
    destruct (inspect i t) as [(ds & Hi & Ci)|Ci]; [|rewrite !(sun_b _ _ _ _ Ci); auto].
    rewrite !(sok_b _ _ _ _ _ Ci). intros K.
    destruct ds as [d|], sr as [v|]; try exact K.
    - rewrite (copy_existing i j d v t Hi Hj) in K. destruct (Nat.eqb i j); exact K.
    - unfold build, sbind in K. change (a_ini (copy_arg E j)) with (copy_ini E j) in K.
      rewrite copy_eq in K. exact K.
  Qed.
  Lemma existing_throws i x t e t' :
    s_assign_existing' bec isv i x t = (SThrow e, t') ->
    (exists d v w, fst (fst (a_assign x d v w)) = RThrow e) \/
    (exists v w, fst (fst (a_self x v w)) = RThrow e).
  Proof.
    unfold s_assign_existing', sbind, suser.
    destruct (i_src (a_ini x)) as [j|].
    - destruct (Nat.eqb i j).
      + destruct (sread i t) as [[d|?|] t1] eqn:H1; try discriminate.
        2:{ destruct (sread_throws _ _ _ _ H1). }
        destruct (a_self x d (sworld t1)) as [[r d'] w] eqn:Ha. cbn [fst snd].
        destruct (swrite' bec isv i d' (MkS (objs t1) w)) as [[u|?|] t2] eqn:H2; try discriminate.
        2:{ destruct (write_nt _ _ _ _ _ H2). }
        destruct r; cbn; unfold sret, sthrow; intros H; [discriminate|]. right. exists d, (sworld t1).
        rewrite Ha. cbn. congruence.
      + destruct (sread i t) as [[d|?|] t1] eqn:H1; try discriminate.
        2:{ destruct (sread_throws _ _ _ _ H1). }
        destruct (sread j t1) as [[v|?|] t2] eqn:H2; try discriminate.
        2:{ destruct (sread_throws _ _ _ _ H2). }
        destruct (a_assign x d v (sworld t2)) as [[r [d' v']] w] eqn:Ha. cbn [fst snd].
        destruct (swrite' bec isv i d' (MkS (objs t2) w)) as [[u|?|] t3] eqn:H3; try discriminate.
        2:{ destruct (write_nt _ _ _ _ _ H3). }
        match goal with |- context [match ?m t3 with _ => _ end] => destruct (m t3) as [[u'|?|] t4] eqn:H4 end;
          try discriminate.
        2:{ destruct (i_const (a_ini x)); [discriminate|destruct (write_nt _ _ _ _ _ H4)]. }
        destruct r; cbn; unfold sret, sthrow; intros H; [discriminate|]. left. exists d, v, (sworld t2).
        rewrite Ha. cbn. congruence.
    - destruct (sread i t) as [[d|?|] t1] eqn:H1; try discriminate.
      2:{ destruct (sread_throws _ _ _ _ H1). }
      destruct (a_assign x d [] (sworld t1)) as [[r [d' v']] w] eqn:Ha. cbn [fst snd].
      destruct (swrite' bec isv i d' (MkS (objs t1) w)) as [[u|?|] t2] eqn:H2; try discriminate.
      2:{ destruct (write_nt _ _ _ _ _ H2). }
      destruct r; cbn; unfold sret, sthrow; intros H; [discriminate|]. left. exists d, [], (sworld t1).
      rewrite Ha. cbn. congruence.
  Qed.
  Lemma f_move_assign i j : follows None (assign_move' E P i j) (s_move_assign' tid pops bec isv i j).
  Proof.
    intros a t R. unfold assign_move', same_type', s_move_assign', same.
    destruct (Nat.eqb_spec (tid i) (tid j)) as [Ht|]; [|exact I].
    pose proof (f_assign_from i j (move_arg E j) eq_refl (m_ok j) a t R) as K.
    pose proof (p_ok j) as Pj. pose proof (fresh_ops E i j Ht) as Ho. revert K.
    destruct (inspect j t) as [(sr & Hj & Cj)|Cj]; [|rewrite !(sun_b _ _ _ _ Cj); auto].
    rewrite !(sok_b _ _ _ _ _ Cj).
    destruct (inspect i t) as [(ds & Hi & Ci)|Ci]; [|rewrite !(sun_b _ _ _ _ Ci); auto].
    rewrite !(sok_b _ _ _ _ _ Ci). intros K.
    destruct ds as [d|], sr as [v|].
    - pose proof (move_existing i j d v t Hi Hj) as He. rewrite He in K.
      assert (Hn : po_nt_massign (ops E i) && po_nt_move (ops E i) = true ->
        forall e t', s_assign_existing' bec isv i (move_arg E j) t <> (SThrow e, t')).
      { intros Hb e t' H. apply andb_prop in Hb. destruct Hb as [Hb _]. rewrite Ho in Hb.
        destruct (existing_throws _ _ _ _ _ H) as [(d0 & v0 & w0 & Hf)|(v0 & w0 & Hf)]; cbn in Hf.
        - pose proof (py_massign _ Pj Hb d0 v0 w0) as Q. rewrite Hf in Q. exact Q.
        - pose proof (py_self_massign _ Pj Hb v0 w0) as Q. rewrite Hf in Q. exact Q. }
      rewrite He in Hn. destruct (Nat.eqb i j); (apply ag_noexcept; [exact K|exact Hn]).
    - apply ag_noexcept; [exact K|]. intros _ e t'. cbn. discriminate.
    - apply ag_noexcept; [exact K|]. intros Hb e t' H. apply andb_prop in Hb. destruct Hb as [_ Hb].
      rewrite Ho in Hb. unfold sbind in H.
      destruct (smove' pops bec isv j t) as [[x|e1|] t1] eqn:Hs; try discriminate.
      + apply (bec_nt _ _ _ _ _ H).
      + apply (move_nt _ _ _ _ Hb Hs).
    - apply ag_noexcept; [exact K|]. intros _ e t'. discriminate.
  Qed.
  Lemma clear_nt i t e t' : s_clear' pops bec i t <> (SThrow e, t').
  Proof.
    unfold s_clear', sbind, contents. destruct (objs t i) as [[[v|]|?]|]; cbn; try discriminate.
  Qed.
  Lemma clear_none i t u t' : s_clear' pops bec i t = (SOk u, t') -> objs t' i = Some (SOpt None).
  Proof.
    unfold s_clear', sbind, contents. destruct (objs t i) as [[[v|]|?]|] eqn:Hi; cbn; try discriminate.
    - intros [= <- <-]. cbn. apply upd_same.
    - intros [= <- <-]. exact Hi.
  Qed.
  Lemma f_emplace i n : ini_ok n -> follows None (emplace' E P i n) (s_emplace' pops bec isv i n).
  Proof.
    intros Hok a t R. unfold emplace', s_emplace'.
    eapply ag_bind; [apply f_reset, R| |auto]. intros u a1 t1 R1 H1.
    pose proof (clear_none _ _ _ _ H1) as Hi.
    apply ag_after; [apply (construct_here i n a1 t1 R1 Hi Hok)|].
    intros a' t' H R'. destruct (build_opt _ _ _ _ H) as (o & Ho). eapply has_dec, rel_opt; eauto.
  Qed.

  (** *** Swapping *)
  Lemma move_clear i j a t x :
    rel None a t -> objs t i = Some (SOpt None) -> objs t j = Some (SOpt (Some x)) ->
    agrees (rel None) (rel None)
      (bind' (construct_payload' E P i (move_ini E j)) (fun _ => reset' E P j) a)
      (sbind (smove' pops bec isv j) (fun v => sbind (bec i (Some v)) (fun _ => s_clear' pops bec j)) t).
  Proof.
    intros R Hi Hj.
    replace (sbind (smove' pops bec isv j) (fun v => sbind (bec i (Some v)) (fun _ => s_clear' pops bec j)) t)
      with (sbind (build (move_ini E j) i) (fun _ => s_clear' pops bec j) t).
    2:{ unfold build, sbind. change (sinit' bec isv (move_ini E j) t) with (smove' pops bec isv j t).
        destruct (smove' pops bec isv j t) as [[v|e|] t1]; reflexivity. }
    eapply ag_bind; [apply (construct_here i _ a t R Hi (m_ok j))| |auto].
    intros u a1 t1 R1 _. apply f_reset, R1.
  Qed.
  Lemma move_clear_nt i j t e t' :
    po_nt_move (ops E j) = true ->
    sbind (smove' pops bec isv j) (fun v => sbind (bec i (Some v)) (fun _ => s_clear' pops bec j)) t
      <> (SThrow e, t').
  Proof.
    intros Hn H. unfold sbind in H. destruct (smove' pops bec isv j t) as [[v|e1|] t1] eqn:H1; try discriminate.
    - destruct (bec i (Some v) t1) as [[u|e2|] t2] eqn:H2; try discriminate.
      + apply (clear_nt _ _ _ _ H).
      + apply (bec_nt _ _ _ _ _ H2).
    - apply (move_nt _ _ _ _ Hn H1).
  Qed.
  Lemma f_swap i j : follows None (swap' E P i j) (s_swap' tid pops bec isv i j).
  Proof.
    intros a t R. unfold swap', same_type', s_swap', same.
    destruct (Nat.eqb_spec (tid i) (tid j)) as [Ht|]; [|exact I].
    pose proof (p_ok i) as Pi. pose proof (fresh_ops E i j Ht) as Ho.
    unfold sbind at 1, contents. destruct (objs t i) as [[x|?]|] eqn:Hi; try exact I.
    unfold sbind at 1, contents. destruct (objs t j) as [[y|?]|] eqn:Hj; try exact I.
    pose proof (has_opt _ _ _ (rel_opt a t i x R Hi)) as Hx. pose proof (has_opt _ _ _ (rel_opt a t j y R Hj)) as Hy.
    destruct x as [x|], y as [y|]; cbn [is_some] in Hx, Hy;
      (apply ag_noexcept; [rewrite (ok_b _ _ _ _ _ Hx), (ok_b _ _ _ _ _ Hy); cbn [Bool.eqb]|]).
    - unfold swap_payloads'. destruct (Nat.eqb_spec i j) as [He|Hn].
      + pose proof (f_load None i a t R) as L. rewrite (read_opt i x t Hi) in L.
        destruct L as [(Hd & a' & L)|(a' & L & R')].
        { cbn in L. rewrite (rel_opt a t i (Some x) R Hi) in L. discriminate. }
        rewrite (ok_b _ _ _ _ _ L).
        refine (f_bind None _ _ _ _ (f_call None _) (fun p => f_bind None _ _ _ _ (f_store None i _) (fun _ => f_lift None _)) a' t R').
      + pose proof (f_load None i a t R) as L. rewrite (read_opt i x t Hi) in L.
        destruct L as [(Hd & a' & L)|(a' & L & R')].
        { cbn in L. rewrite (rel_opt a t i (Some x) R Hi) in L. discriminate. }
        rewrite (ok_b _ _ _ _ _ L).
        pose proof (f_load None j a' t R') as L'. rewrite (read_opt j y t Hj) in L'.
        destruct L' as [(Hd & a'' & L')|(a'' & L' & R'')].
        { cbn in L'. rewrite (rel_opt a' t j (Some y) R' Hj) in L'. discriminate. }
        rewrite (ok_b _ _ _ _ _ L').
        refine (f_bind None _ _ _ _ (f_call None _) (fun p => f_bind None _ _ _ _ (f_store None i _)
          (fun _ => f_bind None _ _ _ _ (f_store None j _) (fun _ => f_lift None _))) a'' t R'').
    - intros Hb e t' H. apply andb_prop in Hb. destruct Hb as [_ Hb]. revert H. unfold sbind, suser.
      destruct (Nat.eqb i j).
      + pose proof (py_self_swap _ Pi Hb x (sworld t)) as Q.
        destruct (po_self_swap (ops E i) x (sworld t)) as [[r v] w]. cbn [fst snd] in *.
        destruct (swrite' bec isv i v (MkS (objs t) w)) as [[u|?|] t1] eqn:H1; try discriminate.
        2:{ destruct (write_nt _ _ _ _ _ H1). }
        destruct r; [discriminate|contradiction].
      + pose proof (py_swap _ Pi Hb x y (sworld t)) as Q.
        destruct (po_swap (ops E i) x y (sworld t)) as [[r [v1 v2]] w]. cbn [fst snd] in *.
        destruct (swrite' bec isv i v1 (MkS (objs t) w)) as [[u|?|] t1] eqn:H1; try discriminate.
        2:{ destruct (write_nt _ _ _ _ _ H1). }
        destruct (swrite' bec isv j v2 t1) as [[u'|?|] t2] eqn:H2; try discriminate.
        2:{ destruct (write_nt _ _ _ _ _ H2). }
        destruct r; [discriminate|contradiction].
    - apply (move_clear j i a t x R Hj Hi).
    - intros Hb e t'. apply andb_prop in Hb. destruct Hb as [Hb _]. apply move_clear_nt, Hb.
    - apply (move_clear i j a t y R Hi Hj).
    - intros Hb e t'. apply andb_prop in Hb. destruct Hb as [Hb _]. apply move_clear_nt. rewrite <- Ho. exact Hb.
    - right. exists a. auto.
    - intros _ e t'. discriminate.
  Qed.
  Lemma move_assign_nt i j t e t' :
    tid i = tid j -> po_nt_massign (ops E j) && po_nt_move (ops E j) = true ->
    s_move_assign' tid pops bec isv i j t <> (SThrow e, t').
  Proof.
    intros Ht Hb. apply andb_prop in Hb. destruct Hb as [Hb Hm]. pose proof (p_ok j) as Pj.
    unfold s_move_assign', same. destruct (Nat.eqb (tid i) (tid j)); [|discriminate].
    destruct (inspect j t) as [(sr & Hj & Cj)|Cj]; [|rewrite !(sun_b _ _ _ _ Cj); discriminate].
    rewrite !(sok_b _ _ _ _ _ Cj).
    destruct (inspect i t) as [(ds & Hi & Ci)|Ci]; [|rewrite !(sun_b _ _ _ _ Ci); discriminate].
    rewrite !(sok_b _ _ _ _ _ Ci). destruct ds as [d|], sr as [v|].
    - pose proof (move_existing i j d v t Hi Hj) as He. intros H.
      assert (Hx : s_assign_existing' bec isv i (move_arg E j) t = (SThrow e, t')).
      { rewrite He. destruct (Nat.eqb i j); exact H. }
      destruct (existing_throws _ _ _ _ _ Hx) as [(d0 & v0 & w0 & Hf)|(v0 & w0 & Hf)]; cbn in Hf.
      + pose proof (py_massign _ Pj Hb d0 v0 w0) as Q. rewrite Hf in Q. exact Q.
      + pose proof (py_self_massign _ Pj Hb v0 w0) as Q. rewrite Hf in Q. exact Q.
    - cbn. discriminate.
    - unfold sbind. destruct (smove' pops bec isv j t) as [[x|e1|] t1] eqn:Hs; try discriminate.
      + apply bec_nt.
      + destruct (move_nt _ _ _ _ Hm Hs).
    - discriminate.
  Qed.
  Lemma f_on_throw {A} (m : @G (astate W) A) sm cl sc :
    follows None m sm -> follows None cl sc -> (forall a, ~ dies (cl a)) ->
    follows None (on_throw' m cl) (s_on_throw sm sc).
  Proof.
    intros Hm Hc Hd a t R. specialize (Hm a t R). unfold on_throw', s_on_throw. unfold agrees in Hm.
    destruct (sm t) as [[x|e|] t']; [| |exact I].
    - destruct Hm as [(Hb & a' & ->)|(a' & -> & R')]; cbn; unfold dies; eauto.
    - destruct Hm as [(Hb & a' & ->)|(a' & -> & R')].
      + destruct (sc t') as [[[]|e'|] t'']; cbn; unfold dies; eauto.
      + specialize (Hc a' t' R'). unfold agrees in Hc. specialize (Hd a').
        destruct (sc t') as [[[]|e'|] t'']; try exact I.
        destruct Hc as [Hc|(a'' & -> & R'')]; [contradiction|]. cbn. eauto.
  Qed.
  Lemma dtor_lives i a : ~ dies (dtor' P i a).
  Proof.
    intros (_ & a' & H). revert H. unfold dtor', storage_dtor', noexcept_if', has_value', bind'. cbn.
    destruct (aobj a i) as [[b|[v|]|v]|] eqn:Ha; cbn; try discriminate; rewrite ?Ha; cbn;
      unfold bind'; cbn; rewrite ?upd_same; discriminate.
  Qed.
  Lemma f_noexcept {A} h b (m : @G (astate W) A) sm :
    follows h m sm -> (b = true -> forall t e t', sm t <> (SThrow e, t')) -> follows h (noexcept_if' b m) sm.
  Proof. intros H Hn a t R. apply ag_noexcept; [apply H, R|]. intros Hb e t'. apply Hn, Hb. Qed.
  Lemma sdtor_nt i (t : sstate W) e t' : s_dtor pops i t <> (SThrow e, t').
  Proof. apply s_dtor_not_throw. Qed.
  Lemma f_std_swap i j k : follows None (std_swap' E P i j k) (s_std_swap' tid pops bec isv i j k).
  Proof.
    intros a t R. unfold s_std_swap', same, std_swap', same_type'.
    destruct (Nat.eqb_spec (tid i) (tid j)) as [Ht|]; [|exact I].
    destruct (inspect j t) as [(o & _ & Cj)|Cj]; [rewrite (sok_b _ _ _ _ _ Cj)|rewrite (sun_b _ _ _ _ Cj); exact I].
    match goal with |- agrees _ _ (?m a) (?sm t) => assert (F : follows None m sm); [|apply F, R] end.
    apply f_noexcept.
    - apply f_bind; [apply f_move_ctor|]. intros _. apply f_bind; [|intros _; apply f_dtor'].
      apply f_on_throw; [|apply f_dtor'|apply dtor_lives].
      apply f_bind; [apply f_move_assign|]. intros _. apply f_move_assign.
    - intros Nt t1 e t1' HS. apply andb_prop in Nt. destruct Nt as (N1 & N2).
      unfold sbind at 1 in HS.
      destruct (s_ctor_from' tid bec (smove' pops bec isv i) k i t1) as [[[]|?|] t2] eqn:H1;
        [| |discriminate].
      + assert (Hk : tid k = tid i).
        { revert H1. unfold s_ctor_from', same. destruct (Nat.eqb_spec (tid k) (tid i)); [auto|discriminate]. }
        unfold sbind at 1, s_on_throw, sbind at 1 in HS.
        destruct (s_move_assign' tid pops bec isv i j t2) as [[[]|?|] t3] eqn:H2; [| |discriminate].
        * destruct (s_move_assign' tid pops bec isv j k t3) as [[[]|?|] t4] eqn:H3; [| |discriminate].
          -- eapply sdtor_nt, HS.
          -- eapply move_assign_nt; [|rewrite <- (fresh_ops E k i Hk) in N2; exact N2|exact H3]. congruence.
        * eapply move_assign_nt; [exact Ht|rewrite (fresh_ops E i j Ht) in N2; exact N2|exact H2].
      + revert H1. unfold s_ctor_from', same. destruct (Nat.eqb (tid k) (tid i)); [|discriminate].
        unfold sbind at 1, fresh. destruct (objs t1 k); [discriminate|].
        destruct (inspect i t1) as [([v|] & Hi & C)|C]; [| |rewrite (sun_b _ _ _ _ C); discriminate];
          rewrite (sok_b _ _ _ _ _ C).
        * unfold sbind. destruct (smove' pops bec isv i t1) as [[x|?|] t4] eqn:Hs; try discriminate.
          -- apply bec_nt.
          -- destruct (move_nt _ _ _ _ N1 Hs).
        * apply bec_nt.
  Qed.

  (** *** Observers *)
  Lemma deref_opt i v a : aobj a i = Some (AOpt (Some v)) -> op_deref' E P i a = (Ok tt, a).
  Proof.
    intros H. unfold op_deref', assert_'. destruct (e_dbg E); [|reflexivity].
    rewrite (ok_b _ _ _ _ _ (has_opt _ _ _ H)). reflexivity.
  Qed.
  Lemma load_opt i v a : aobj a i = Some (AOpt (Some v)) -> p_load P i a = (Ok v, a).
  Proof. intros H. cbn. rewrite H. reflexivity. Qed.
  Lemma f_has i : follows None (has_value' P i) (s_has i).
  Proof.
    intros a t R. unfold s_has. destruct (inspect i t) as [(o & Hi & C)|C];
      [rewrite (sok_b _ _ _ _ _ C)|rewrite (sun_b _ _ _ _ C); exact I].
    right. exists a. split; [|exact R]. rewrite (has_opt _ _ _ (rel_opt _ _ _ _ R Hi)). destruct o; reflexivity.
  Qed.
  Lemma f_change i (c : bool) v :
    follows None (if c then ret' tt else p_store P i v) (if c then sret tt else swrite' bec isv i v).
  Proof. destruct c; [apply f_ret|apply f_store]. Qed.
  Lemma f_access k i c f : follows None (bind' (acc' E P k i) (fun _ => use_payload' P i c f)) (s_access' bec isv k i c f).
  Proof.
    intros a t R. unfold s_access'. destruct (inspect i t) as [([v|] & Hi & C)|C];
      [rewrite (sok_b _ _ _ _ _ C)..|rewrite (sun_b _ _ _ _ C); exact I];
      pose proof (rel_opt _ _ _ _ R Hi) as Ha.
    - assert (acc' E P k i a = (Ok tt, a)) as He.
      { destruct k; cbn [acc']; try (apply (deref_opt _ _ _ Ha)).
        unfold value'. rewrite (ok_b _ _ _ _ _ (has_opt _ _ _ Ha)). reflexivity. }
      rewrite (ok_b _ _ _ _ _ He). unfold use_payload'.
      rewrite (ok_b _ _ _ _ _ (load_opt _ _ _ Ha)).
      apply f_bind; [apply f_call| |exact R]. intros p.
      apply f_bind; [apply f_change|]. intros _. apply f_lift.
    - destruct k; try exact I. right. exists a. split; [|exact R].
      unfold bind' at 1. cbn [acc']. unfold value'.
      rewrite (ok_b _ _ _ _ _ (has_opt _ _ _ Ha)). reflexivity.
  Qed.
  Lemma f_value_or_copy i d :
    follows None (value_or_copy' E P i d) (s_value_or' bec isv (scopy pops i) i d).
  Proof.
    intros a t R. unfold s_value_or', value_or_copy'. destruct (inspect i t) as [(o & Hi & C)|C];
      [rewrite (sok_b _ _ _ _ _ C)|rewrite (sun_b _ _ _ _ C); exact I].
    rewrite (ok_b _ _ _ _ _ (has_opt _ _ _ (rel_opt _ _ _ _ R Hi))).
    destruct o; cbn [is_some]; [rewrite <- copy_eq|]; apply f_ini, R.
  Qed.
  Lemma f_value_or_move i d :
    follows None (value_or_move' E P i d) (s_value_or' bec isv (smove' pops bec isv i) i d).
  Proof.
    intros a t R. unfold s_value_or', value_or_move'. destruct (inspect i t) as [(o & Hi & C)|C];
      [rewrite (sok_b _ _ _ _ _ C)|rewrite (sun_b _ _ _ _ C); exact I].
    rewrite (ok_b _ _ _ _ _ (has_opt _ _ _ (rel_opt _ _ _ _ R Hi))).
    destruct o; cbn [is_some]; apply f_ini, R.
  Qed.

  (** *** Monadic operations *)
  Lemma f_ext {A} h (m : @G (astate W) A) (sm sm' : @S W A) :
    follows h m sm -> (forall t, sm t = sm' t) -> follows h m sm'.
  Proof. intros H He a t R. rewrite <- He. apply H, R. Qed.
  Lemma f_build k o : follows None (build_result' E P k o) (s_new' bec k o).
  Proof.
    destruct o as [v|]; [|apply f_default].
    eapply f_ext; [apply f_in_place|].
    - intros _ v0 w. exact I.
    - intros t. unfold s_new', build, sbind. destruct (fresh k t) as [[u|?|] [ob w]]; reflexivity.
  Qed.
  Lemma f_and_then k i c f : follows None (and_then' E P k i c f) (s_and_then' bec isv k i c f).
  Proof.
    intros a t R. unfold s_and_then', and_then'. destruct (inspect i t) as [(o & Hi & C)|C];
      [rewrite (sok_b _ _ _ _ _ C)|rewrite (sun_b _ _ _ _ C); exact I].
    pose proof (rel_opt _ _ _ _ R Hi) as Ha. rewrite (ok_b _ _ _ _ _ (has_opt _ _ _ Ha)).
    destruct o as [v|]; cbn [is_some]; [|apply f_default, R].
    rewrite (ok_b _ _ _ _ _ (deref_opt _ _ _ Ha)), (ok_b _ _ _ _ _ (load_opt _ _ _ Ha)).
    apply f_bind; [apply f_call| |exact R]. intros p.
    apply f_bind; [apply f_change|]. intros _.
    apply f_bind; [apply f_lift|]. intros x. apply f_build.
  Qed.
  Lemma f_transform k i c f nt :
    (nt = true -> forall v w, no_throw (fst (fst (f v w)))) ->
    follows None (transform' E P k i c f nt) (s_transform' bec isv k i c f).
  Proof.
    intros Hok a t R. unfold s_transform', transform'. destruct (inspect i t) as [(o & Hi & C)|C];
      [rewrite (sok_b _ _ _ _ _ C)|rewrite (sun_b _ _ _ _ C); exact I].
    pose proof (rel_opt _ _ _ _ R Hi) as Ha. rewrite (ok_b _ _ _ _ _ (has_opt _ _ _ Ha)).
    destruct o as [v|]; cbn [is_some]; [|apply f_default, R].
    rewrite (ok_b _ _ _ _ _ (deref_opt _ _ _ Ha)).
    pose proof (f_in_place k (MkIni (Some i) c f nt) Hok a t R) as H.
    match type of H with agrees _ _ _ ?X => match goal with |- agrees _ _ _ ?Y => assert (X = Y) as HXY end end.
    { destruct (objs t k) eqn:Hk; [unfold sbind, fresh; rewrite Hk; reflexivity|].
      assert (fresh k t = (SOk tt, t)) as Hf by (unfold fresh; rewrite Hk; reflexivity).
      rewrite !(sok_b _ _ _ _ _ Hf). unfold build, sinit'. cbn [i_src i_fun i_const i_more].
      unfold sbind, sread. rewrite Hi. cbn [sread_more swrite_more' sret joined parted fst snd].
      unfold sret at 1. cbn [joined parted fst snd].
      destruct (suser (f v) t) as [[p|?|] t1]; try reflexivity.
      destruct c; [|destruct (swrite' bec isv i (snd p) t1) as [[?|?|] ?]; try reflexivity];
        cbn; unfold sret; cbn; (destruct (sres (fst p) _) as [[?|?|] ?]; reflexivity). }
    rewrite <- HXY. exact H.
  Qed.
  Lemma f_or_else k i mv f :
    follows None (or_else' E P k i mv f) (s_or_else' tid pops bec isv k i mv f).
  Proof.
    intros a t R. unfold or_else', s_or_else', same_type', same.
    destruct (Nat.eqb (tid k) (tid i)) eqn:Et; [|exact I].
    destruct (inspect i t) as [(o & Hi & C)|C];
      [rewrite (sok_b _ _ _ _ _ C)|rewrite (sun_b _ _ _ _ C); exact I].
    pose proof (rel_opt _ _ _ _ R Hi) as Ha. rewrite (ok_b _ _ _ _ _ (has_opt _ _ _ Ha)).
    destruct o as [v|]; cbn [is_some].
    - destruct mv.
      + pose proof (f_move_ctor k i a t R) as H. unfold s_ctor_from', same in H.
        rewrite Et in H. unfold sbind at 1, fresh in H. unfold sbind at 1, fresh.
        destruct (objs t k); [exact I|]. rewrite (sok_b _ _ _ _ _ C) in H. exact H.
      + pose proof (f_copy_ctor k i a t R) as H. unfold s_ctor_from', same in H.
        rewrite Et in H. unfold sbind at 1, fresh in H. unfold sbind at 1, fresh.
        destruct (objs t k); [exact I|]. rewrite (sok_b _ _ _ _ _ C) in H. exact H.
    - apply f_bind; [apply f_call| |exact R]. intros r.
      apply f_bind; [apply f_lift|]. intros x. apply f_build.
  Qed.

  (** *** Comparisons and hash *)
  Lemma has_od L a t x :
    rel None a t -> is_opt L = true -> s_operand L t = (SOk x, t) ->
    od_has' P L a = (Ok (is_some x), a).
  Proof.
    intros R HL H. destruct L; try discriminate; cbn in *.
    - destruct (inspect i t) as [(o & Hi & C)|C]; rewrite C in H; [|discriminate].
      injection H as <-. apply has_opt, (rel_opt _ _ _ _ R Hi).
    - unfold sret in H. injection H as <-. destruct o; reflexivity.
  Qed.
  Lemma get_od L a t v :
    rel None a t -> is_opt L = true -> s_operand L t = (SOk (Some v), t) ->
    od_get' E P L a = (Ok v, a).
  Proof.
    intros R HL H. destruct L; try discriminate; cbn [od_get'].
    - cbn in H. destruct (inspect i t) as [(o & Hi & C)|C]; rewrite C in H; [|discriminate].
      injection H as ->. pose proof (rel_opt _ _ _ _ R Hi) as Ha.
      rewrite (ok_b _ _ _ _ _ (deref_opt _ _ _ Ha)). apply load_opt, Ha.
    - cbn in H. unfold sret in H. injection H as ->. reflexivity.
  Qed.
  Lemma f_rel_call h c r x y : follows h (rel_call' P c r x y) (sbind (suser (c_rel c r x y)) (fun z => sres z)).
  Proof. apply f_bind; [apply f_call|]. intros z. apply f_lift. Qed.
  Lemma f_three_call h c x y : follows h (three_call' P c x y) (sbind (suser (c_three c x y)) (fun z => sres z)).
  Proof. apply f_bind; [apply f_call|]. intros z. apply f_lift. Qed.

  Lemma cmp_opts c r L R0 a t x y :
    rel None a t -> is_opt L = true -> is_opt R0 = true ->
    s_operand L t = (SOk x, t) -> s_operand R0 t = (SOk y, t) ->
    agrees (rel None) (rel None) (cmp_opt_opt' E P c r L R0 a) (s_relate c r x y t).
  Proof.
    intros R HL HR Hx Hy.
    pose proof (has_od _ _ _ _ R HL Hx) as Lx. pose proof (has_od _ _ _ _ R HR Hy) as Ly.
    assert (D : forall u v q, x = Some u -> y = Some v ->
      agrees (rel None) (rel None) (deref_cmp' E P c q L R0 a) (s_relate c q x y t)).
    { intros u v q -> ->. unfold deref_cmp'.
      rewrite (ok_b _ _ _ _ _ (get_od _ _ _ _ R HL Hx)).
      rewrite (ok_b _ _ _ _ _ (get_od _ _ _ _ R HR Hy)).
      apply f_rel_call, R. }
    destruct r; unfold cmp_opt_opt';
      repeat (first [rewrite (ok_b _ _ _ _ _ Lx) | rewrite (ok_b _ _ _ _ _ Ly)]);
      destruct x as [u|], y as [v|]; cbn [is_some Bool.eqb negb xorb];
      repeat (first [rewrite (ok_b _ _ _ _ _ Lx) | rewrite (ok_b _ _ _ _ _ Ly)]);
      cbn [is_some Bool.eqb negb xorb];
      try (eapply D; reflexivity);
      (right; exists a; split; [reflexivity|exact R]).
  Qed.
  Lemma three_opts c L R0 a t x y :
    rel None a t -> is_opt L = true -> is_opt R0 = true ->
    s_operand L t = (SOk x, t) -> s_operand R0 t = (SOk y, t) ->
    agrees (rel None) (rel None) (three_opt_opt' E P c L R0 a) (s_relate3 c x y t).
  Proof.
    intros R HL HR Hx Hy.
    pose proof (has_od _ _ _ _ R HL Hx) as Lx. pose proof (has_od _ _ _ _ R HR Hy) as Ly.
    unfold three_opt_opt'. rewrite (ok_b _ _ _ _ _ Lx).
    destruct x as [u|], y as [v|]; cbn [is_some].
    - rewrite (ok_b _ _ _ _ _ Ly). cbn [is_some].
      rewrite (ok_b _ _ _ _ _ (get_od _ _ _ _ R HL Hx)).
      rewrite (ok_b _ _ _ _ _ (get_od _ _ _ _ R HR Hy)).
      apply f_three_call, R.
    - rewrite (ok_b _ _ _ _ _ Ly). cbn [is_some].
      rewrite (ok_b _ _ _ _ _ Lx), (ok_b _ _ _ _ _ Ly). right. exists a. split; [reflexivity|exact R].
    - rewrite (ok_b _ _ a false a eq_refl).
      rewrite (ok_b _ _ _ _ _ Lx), (ok_b _ _ _ _ _ Ly). right. exists a. split; [reflexivity|exact R].
    - rewrite (ok_b _ _ a false a eq_refl).
      rewrite (ok_b _ _ _ _ _ Lx), (ok_b _ _ _ _ _ Ly). right. exists a. split; [reflexivity|exact R].
  Qed.

  Lemma f_declared c r L R0 : follows None (declared' E P c r L R0) (s_compare c r L R0).
  Proof.
    intros a t R. unfold s_compare. destruct (involved L R0) eqn:Hinv; [|exact I].
    assert (Ox : forall A, (exists x, s_operand A t = (SOk x, t)) \/ s_operand A t = (SUndef, t)).
    { intros [i|o| |v]; cbn; unfold sret; eauto. unfold contents.
      destruct (objs t i) as [[o|?]|]; eauto. }
    destruct (Ox L) as [(x & Hx)|Hx]; [rewrite (sok_b _ _ _ _ _ Hx)|rewrite (sun_b _ _ _ _ Hx); exact I].
    destruct (Ox R0) as [(y & Hy)|Hy]; [rewrite (sok_b _ _ _ _ _ Hy)|rewrite (sun_b _ _ _ _ Hy); exact I].
    destruct L as [i|lo| |lv], R0 as [j|ro| |rv]; try discriminate;
      try (apply cmp_opts; auto; fail); cbn [declared'].
    - cbn in Hy. unfold sret in Hy. injection Hy as <-.
      pose proof (has_od (OpTiny i) _ _ _ R eq_refl Hx) as Hh. cbn [od_has'] in Hh.
      unfold s_relate, cmp_opt_null', not_'.
      destruct r, x as [v|]; cbn [is_some] in Hh;
        rewrite ?(ok_b _ _ _ _ _ Hh);
        try (rewrite (ok_b _ _ a _ _ (ok_b _ _ _ _ _ Hh)));
        (right; exists a; split; [try reflexivity; try exact Hh|exact R]).
    - cbn in Hy. unfold sret in Hy. injection Hy as <-.
      pose proof (has_od (OpTiny i) _ _ _ R eq_refl Hx) as Hh. cbn [od_has'] in Hh.
      unfold cmp_opt_val'. rewrite (ok_b _ _ _ _ _ Hh).
      destruct x as [u|]; cbn [is_some].
      + rewrite (ok_b _ _ _ _ _ (get_od (OpTiny i) _ _ _ R eq_refl Hx)). apply f_rel_call, R.
      + right. exists a. split; [destruct r; reflexivity|exact R].
    - cbn in Hx. unfold sret in Hx. injection Hx as <-.
      pose proof (has_od (OpTiny j) _ _ _ R eq_refl Hy) as Hh. cbn [od_has'] in Hh.
      unfold s_relate, cmp_null_opt', not_'.
      destruct r, y as [v|]; cbn [is_some] in Hh;
        rewrite ?(ok_b _ _ _ _ _ Hh);
        try (rewrite (ok_b _ _ a _ _ (ok_b _ _ _ _ _ Hh)));
        (right; exists a; split; [try reflexivity; try exact Hh|exact R]).
    - cbn in Hx. unfold sret in Hx. injection Hx as <-.
      pose proof (has_od (OpTiny j) _ _ _ R eq_refl Hy) as Hh. cbn [od_has'] in Hh.
      unfold cmp_val_opt'. rewrite (ok_b _ _ _ _ _ Hh).
      destruct y as [u|]; cbn [is_some].
      + rewrite (ok_b _ _ _ _ _ (get_od (OpTiny j) _ _ _ R eq_refl Hy)). apply f_rel_call, R.
      + right. exists a. split; [destruct r; reflexivity|exact R].
  Qed.

  Lemma three_null i a t o :
    rel None a t -> objs t i = Some (SOpt o) ->
    three_opt_null' P i a = (Ok (match o with Some _ => OGreater | None => OEquiv end), a).
  Proof.
    intros R Hi. unfold three_opt_null'.
    rewrite (ok_b _ _ _ _ _ (has_opt _ _ _ (rel_opt _ _ _ _ R Hi))). destruct o; reflexivity.
  Qed.
  Lemma three_val c i v a t o :
    rel None a t -> objs t i = Some (SOpt o) ->
    agrees (rel None) (rel None) (three_opt_val' E P c i v a) (s_relate3 c o (Some v) t).
  Proof.
    intros R Hi. unfold three_opt_val'. pose proof (rel_opt _ _ _ _ R Hi) as Ha.
    rewrite (ok_b _ _ _ _ _ (has_opt _ _ _ Ha)).
    destruct o as [u|]; cbn [is_some].
    - cbn [od_get']. rewrite (ok_b (bind' _ _) _ a u a).
      2:{ rewrite (ok_b _ _ _ _ _ (deref_opt _ _ _ Ha)). apply load_opt, Ha. }
      apply f_three_call, R.
    - right. exists a. split; [reflexivity|exact R].
  Qed.
  Lemma ag_flip (m : @G (astate W) ordering) sm a t :
    agrees (rel None) (rel None) (m a) (sm t) ->
    agrees (rel None) (rel None) (bind' m (fun o => ret' (flip o)) a) (sbind sm (fun o => sret (reverse o)) t).
  Proof.
    intros H. eapply ag_seq; [exact H|]. intros x a' t' R' _.
    right. exists a'. rewrite flip_reverse. split; [reflexivity|exact R'].
  Qed.
  Lemma f_three g c L R0 : follows None (three_way' E P g c L R0) (s_three g c L R0).
  Proof.
    intros a t R.
    assert (Op : forall i, (exists o, objs t i = Some (SOpt o) /\ s_operand (OpTiny i) t = (SOk o, t))
                        \/ s_operand (OpTiny i) t = (SUndef, t)).
    { intros i. cbn. unfold contents. destruct (objs t i) as [[o|?]|]; eauto. }
    destruct L as [i|lo| |lv].
    - cbn [s_three]. unfold sbind at 1.
      destruct (Op i) as [(x & Hi & Hx)|Hx]; rewrite Hx; [|exact I].
      unfold sbind at 1. destruct R0 as [j|ro| |rv].
      + destruct (Op j) as [(y & Hj & Hy)|Hy]; rewrite Hy; [|exact I].
        cbn [three_way']. eapply three_opts; eauto.
      + cbn [s_operand]. unfold sret at 1. cbn [three_way']. eapply three_opts; eauto.
      + cbn [s_operand]. unfold sret at 1. cbn [three_way'].
        unfold agrees. rewrite (three_null _ _ _ _ R Hi).
        destruct x; right; exists a; (split; [reflexivity|exact R]).
      + cbn [s_operand]. unfold sret at 1. cbn [three_way']. apply three_val; auto.
    - destruct R0 as [j|ro| |rv]; cbn [s_three]; try exact I.
      cbn [s_operand]. unfold sbind at 1, sret at 1. unfold sbind at 1.
      change (contents j t) with (s_operand (OpTiny j) t).
      destruct (Op j) as [(y & Hj & Hy)|Hy]; rewrite Hy; [|exact I].
      cbn [three_way']. destruct g.
      + eapply three_opts; eauto.
      + apply ag_flip. eapply three_opts; eauto.
    - destruct R0 as [j|ro| |rv]; cbn [s_three]; try exact I.
      cbn [s_operand]. unfold sbind at 1, sret at 1. unfold sbind at 1.
      change (contents j t) with (s_operand (OpTiny j) t).
      destruct (Op j) as [(y & Hj & Hy)|Hy]; rewrite Hy; [|exact I].
      cbn [three_way']. apply ag_flip. unfold agrees.
      rewrite (three_null _ _ _ _ R Hj).
      destruct y; right; exists a; (split; [reflexivity|exact R]).
    - destruct R0 as [j|ro| |rv]; cbn [s_three]; try exact I.
      cbn [s_operand]. unfold sbind at 1, sret at 1. unfold sbind at 1.
      change (contents j t) with (s_operand (OpTiny j) t).
      destruct (Op j) as [(y & Hj & Hy)|Hy]; rewrite Hy; [|exact I].
      cbn [three_way']. apply ag_flip. apply three_val; auto.
  Qed.
  Lemma f_declared3 c L R0 :
    route_defined (RtRewritten false) RLt L R0 = true ->
    follows None (declared3' E P c L R0)
      (if involved L R0 then sbind (s_operand L) (fun x => sbind (s_operand R0) (fun y => s_relate3 c x y))
       else sundef).
  Proof.
    intros Hd. pose proof (f_three true c L R0) as H.
    destruct L as [i|lo| |lv], R0 as [j|ro| |rv]; try discriminate; exact H.
  Qed.
  Lemma f_compare rt c r L R0 :
    cmp_ok rt c r L R0 -> follows None (compare' E P rt c r L R0) (s_compare c r L R0).
  Proof.
    intros Hok. destruct rt as [|rev]; [apply f_declared|].
    intros a t R. rewrite (s_compare_rewritten _ _ _ _ _ t Hok). cbv zeta.
    destruct Hok as (Hd & _).
    assert (N : forall A B (f : ordering -> bool),
      route_defined (RtRewritten false) RLt A B = true ->
      agrees (rel None) (rel None) (bind' (declared3' E P c A B) (fun o => ret' (f o)) a)
        (sbind (if involved A B then sbind (s_operand A) (fun x => sbind (s_operand B) (fun y => s_relate3 c x y))
                   else sundef) (fun o => sret (f o)) t)).
    { intros A B f HD. eapply ag_seq; [apply f_declared3; auto|].
      intros x a' t' R' _. right. exists a'. split; [reflexivity|exact R']. }
    assert (Hd' : r <> REq -> r <> RNe ->
      route_defined (RtRewritten false) RLt (if rev then R0 else L) (if rev then L else R0) = true).
    { intros E1 E2. destruct r; try congruence; exact Hd. }
    cbn [compare']. destruct r.
    - apply f_declared, R.
    - unfold not_'. eapply ag_seq; [apply f_declared, R|].
      intros x a' t' R' _. right. exists a'. split; [reflexivity|exact R'].
    - apply (N _ _ (fun o => ord_test RLt (if rev then flip o else o))), Hd'; congruence.
    - apply (N _ _ (fun o => ord_test RLe (if rev then flip o else o))), Hd'; congruence.
    - apply (N _ _ (fun o => ord_test RGt (if rev then flip o else o))), Hd'; congruence.
    - apply (N _ _ (fun o => ord_test RGe (if rev then flip o else o))), Hd'; congruence.
  Qed.
  Lemma f_hash h i : follows None (hash' E P h i) (s_hash h i).
  Proof.
    intros a t R. unfold s_hash, hash'. destruct (inspect i t) as [(o & Hi & C)|C];
      [rewrite (sok_b _ _ _ _ _ C)|rewrite (sun_b _ _ _ _ C); exact I].
    pose proof (rel_opt _ _ _ _ R Hi) as Ha. rewrite (ok_b _ _ _ _ _ (has_opt _ _ _ Ha)).
    destruct o as [v|]; cbn [is_some].
    - cbn [od_get']. rewrite (ok_b (bind' _ _) _ a v a).
      2:{ rewrite (ok_b _ _ _ _ _ (deref_opt _ _ _ Ha)). apply load_opt, Ha. }
      apply f_bind; [apply f_call| |exact R]. intros x. apply f_lift.
    - right. exists a. split; [reflexivity|exact R].
  Qed.

  (** *** One call, and whole histories *)
  Lemma f_wrap {A} (m : @G (astate W) A) sm (f : A -> obs) :
    follows None m sm -> follows None (bind' m (fun x => ret' (f x))) (sbind sm (fun x => sret (f x))).
  Proof. intros H. apply f_bind; [exact H|]. intros x. apply f_ret. Qed.
  Lemma f_step o : op_ok o -> follows None (step' E P o) (sstep' tid pops bec isv o).
  Proof.
    intros Hok. destruct o; cbn [step' sstep' op_ok] in *;
      unfold unit_', bool_', val_', sunit, sbool, sval; apply f_wrap.
    - apply f_default.
    - apply f_noexcept; [apply f_default|].
      intros _ t e t'. unfold s_new', sbind, fresh. destruct (objs t i); [congruence|]. apply bec_nt.
    - apply f_in_place, Hok.
    - apply f_copy_ctor.
    - apply f_move_ctor.
    - apply f_dtor'.
    - apply f_noexcept; [apply f_reset|]. intros _ t e t'. apply clear_nt.
    - apply f_assign, Hok.
    - apply f_copy_assign.
    - apply f_move_assign.
    - apply f_emplace, Hok.
    - apply f_reset.
    - apply f_swap.
    - apply f_std_swap.
    - apply f_has.
    - apply f_has.
    - apply f_access.
    - apply f_value_or_copy.
    - apply f_value_or_move.
    - apply f_and_then.
    - apply f_transform, Hok.
    - apply f_or_else.
    - apply f_compare, Hok.
    - apply f_three.
    - apply f_hash.
    - intros a t R. unfold sbind, fresh. destruct (objs t i) eqn:Hi; [exact I|].
      pose proof (rel_none a t i R) as Ha. rewrite Hi in Ha. cbn in Ha.
      cbn [p_var_new mid]. rewrite Ha. destruct (isv i v) eqn:Hl; [|exact I].
      right. eexists. split; [reflexivity|]. rewrite (proj1 R).
      apply (rel_upd None a t i (Some (SVar v)) (sworld t) R). discriminate.
    - intros a t R. destruct (objs t i) as [[?|v]|] eqn:Hi; try exact I.
      pose proof (rel_none a t i R) as Ha. rewrite Hi in Ha. cbn in Ha.
      cbn [p_var_drop mid]. rewrite Ha. right. eexists. split; [reflexivity|]. rewrite (proj1 R).
      apply (rel_upd None a t i None _ R). discriminate.
  Qed.

  Lemma f_run p a t :
    Forall op_ok p -> rel None a t ->
    match srun' tid pops bec isv p t with
    | (Some xs, t') => (exists a', run' E P p a = (inl xs, a') /\ rel None a' t')
                       \/ e_dbg E = true /\ exists a', run' E P p a = (inr AssertFailed, a')
    | (None, _) => True
    end.
  Proof.
    intros Hp. revert a t. induction Hp as [|o p Ho Hp IH]; intros a t R.
    - cbn. left. exists a. split; [reflexivity|exact R].
    - cbn [srun' run']. pose proof (f_step o Ho a t R) as H. unfold agrees in H.
      destruct (sstep' tid pops bec isv o t) as [[x|e|] t1]; [| |exact I];
        specialize (fun a1 => IH a1 t1);
        (destruct (srun' tid pops bec isv p t1) as [[xs|] t2]; [|exact I]);
        (destruct H as [(Hd & a1 & ->)|(a1 & -> & R1)]; [right; eauto|]);
        (destruct (IH a1 R1) as [(a2 & -> & R2)|(Hd & a2 & ->)]; cbn; [left|right]; eauto).
  Qed.
End Follows.

(** ** Within the contract it is std::optional *)
Section Extends.
  Context {W : Type}.
  Variable tid : loc -> nat.
  Variable pops : loc -> payops W.
  Variable bec bec' : loc -> option rep -> @S W unit.
  Variable isv : loc -> rep -> bool.

  (** Wherever [m] defines something, [m'] does the same. *)
  Definition ext {A} (m m' : @S W A) : Prop :=
    forall t, match m t with (SUndef, _) => True | r => m' t = r end.
  Hypothesis HB : forall i o, ext (bec i o) (bec' i o).

  Lemma x_refl {A} (m : @S W A) : ext m m.
  Proof. intros t. destruct (m t) as [[x|e|] t']; auto. Qed.
  Lemma x_bind {A B} (m m' : @S W A) (k k' : A -> @S W B) :
    ext m m' -> (forall x, ext (k x) (k' x)) -> ext (sbind m k) (sbind m' k').
  Proof.
    intros H Hk t. specialize (H t). unfold sbind. destruct (m t) as [[x|e|] t']; [| |exact I]; rewrite H.
    - specialize (Hk x t'). destruct (k x t') as [[y|e|] t'']; auto.
    - reflexivity.
  Qed.
  Lemma x_write i v : ext (swrite' bec isv i v) (swrite' bec' isv i v).
  Proof.
    intros t. unfold swrite'. destruct (objs t i) as [[[d|]|d]|]; try exact I.
    - apply HB.
    - destruct (isv i v); [|exact I]. cbn. reflexivity.
  Qed.
  Lemma x_same i j (m m' : @S W unit) : ext m m' -> ext (same tid i j m) (same tid i j m').
  Proof. intros H. unfold same. destruct (Nat.eqb (tid i) (tid j)); [exact H|apply x_refl]. Qed.
  Lemma x_on_throw {A} (m m' : @S W A) c : ext m m' -> ext (s_on_throw m c) (s_on_throw m' c).
  Proof.
    intros H t. specialize (H t). unfold s_on_throw. destruct (m t) as [[x|e|] t']; [| |exact I]; rewrite H.
    - reflexivity.
    - destruct (c t') as [[[]|e'|] t'']; auto.
  Qed.
  Lemma x_more l vs : ext (swrite_more' bec isv l vs) (swrite_more' bec' isv l vs).
  Proof.
    revert vs. induction l as [|[j c] l IH]; intros [|v vs]; try apply x_refl. cbn [swrite_more'].
    apply x_bind; [destruct c; [apply x_refl|apply x_write]|]. intros _. apply IH.
  Qed.
  Ltac ex := repeat first
    [ apply x_refl | apply HB | apply x_write | apply x_more
    | apply x_bind; [|intros ?] | apply x_same | apply x_on_throw
    | match goal with |- context [match ?x with _ => _ end] => destruct x end ].
  Lemma x_ini n : ext (sinit' bec isv n) (sinit' bec' isv n).
  Proof. unfold sinit'. destruct (i_src n); [destruct (i_const n)|]; ex. Qed.
  Lemma x_move j : ext (smove' pops bec isv j) (smove' pops bec' isv j).
  Proof. unfold smove'. ex. Qed.
  Lemma x_from get get' i j : ext get get' -> ext (s_ctor_from' tid bec get i j) (s_ctor_from' tid bec' get' i j).
  Proof. intros H. unfold s_ctor_from'. ex. exact H. Qed.
  Lemma x_clear i : ext (s_clear' pops bec i) (s_clear' pops bec' i).
  Proof. unfold s_clear'. ex. Qed.
  Lemma x_existing i a : ext (s_assign_existing' bec isv i a) (s_assign_existing' bec' isv i a).
  Proof. unfold s_assign_existing'. ex. Qed.
  Lemma x_move_assign i j : ext (s_move_assign' tid pops bec isv i j) (s_move_assign' tid pops bec' isv i j).
  Proof. unfold s_move_assign'. ex. Qed.
  Lemma x_step o : ext (sstep' tid pops bec isv o) (sstep' tid pops bec' isv o).
  Proof.
    pose proof x_ini as H1. pose proof x_move as H2. pose proof x_clear as H3.
    pose proof x_existing as H4. pose proof x_move_assign as H5.
    destruct o; cbn [sstep']; try apply x_refl; unfold sunit, sbool, sval; (apply x_bind; [|intros ?; apply x_refl]);
      unfold s_new', s_assign', s_copy_assign', s_emplace', s_swap', s_std_swap', s_access',
        s_value_or', s_and_then', s_transform', s_or_else';
      repeat first [apply H1 | apply H2 | apply H3 | apply H4 | apply H5 | apply x_from
        | apply x_refl | apply HB | apply x_write | apply x_bind; [|intros ?] | apply x_same | apply x_on_throw
        | match goal with |- ext (match ?x with _ => _ end) _ => destruct x
                        | |- ext (match ?x with _ => _ end _) _ => destruct x end].
  Qed.
  Lemma x_run p t xs t' :
    srun' tid pops bec isv p t = (Some xs, t') -> srun' tid pops bec' isv p t = (Some xs, t').
  Proof.
    revert t xs t'. induction p as [|o p IH]; intros t xs t'; [auto|]. cbn [srun'].
    pose proof (x_step o t) as H. destruct (sstep' tid pops bec isv o t) as [[x|e|] t1]; [| |discriminate];
      rewrite H; (destruct (srun' tid pops bec isv p t1) as [[ys|] t2] eqn:Hr; [|discriminate]);
      rewrite (IH _ _ _ Hr); auto.
  Qed.
End Extends.

Lemma srun_app W tid pops bec isv (p q : list (op W)) t :
  srun' tid pops bec isv (p ++ q) t =
  match srun' tid pops bec isv p t with
  | (Some xs, t1) => let (r, t2) := srun' tid pops bec isv q t1 in (option_map (app xs) r, t2)
  | r => r
  end.
Proof.
  revert t. induction p as [|o p IH]; intros t.
  - cbn. destruct (srun' tid pops bec isv q t) as [[ys|] t2]; reflexivity.
  - cbn [app srun']. destruct (sstep' tid pops bec isv o t) as [[x|e|] t1]; [| |reflexivity]; rewrite IH;
      (destruct (srun' tid pops bec isv p t1) as [[ys|] t2]; [|reflexivity]);
      (destruct (srun' tid pops bec isv q t2) as [[zs|] t3]; reflexivity).
Qed.

(** ** The theorems *)

(** These optionals do what std::optional does as long as the contract is observed. *)
Theorem C68_within_the_contract :
  forall W (E : env W) w p xs t,
    std_run E w p = (Some xs, t) -> swallow_run E w p = (Some xs, t).
Proof.
  intros W E w p xs t. unfold std_run, swallow_run. rewrite <- srun_become.
  apply x_run. intros i o s. unfold forgets, become. destruct o as [v|]; cbn; [|reflexivity].
  destruct (storable E i v); cbn; [reflexivity|exact I].
Qed.
Print Assumptions C68_within_the_contract.

Lemma swallow_bytes W (E : env W) base junk m0 w p xs t :
  env_ok E -> env_mono E -> placed E base -> junk_ok junk ->
  Forall op_ok p -> swallow_run E w p = (Some xs, t) ->
  (exists f, run' E (flat E base junk) p (MkF m0 w) = (inl xs, f) /\ fworld f = sworld t /\
     forall i, match objs t i with
               | Some (SOpt o) => looks E base i (bytes f) (AOpt o)
               | Some (SVar v) => looks E base i (bytes f) (AVar v)
               | None => True
               end)
  \/ e_dbg E = true /\ exists f, run' E (flat E base junk) p (MkF m0 w) = (inr AssertFailed, f).
Proof.
  intros HE HM HP HJ Ho H. unfold swallow_run in H.
  assert (R0 : rel None (MkA (fun _ => None) w) (sinit_state w)) by (split; [reflexivity|intros j; reflexivity]).
  assert (B0 : behind E base (MkA (fun _ => None) w) (MkF m0 w)) by (split; [reflexivity|discriminate]).
  pose proof (f_run E HE p _ _ Ho R0) as K. rewrite H in K.
  pose proof (bytes_run E base junk HE HM HP HJ p _ _ B0) as B.
  destruct K as [(a & Ha & R)|(Hd & a & Ha)]; rewrite Ha in B.
  - left. destruct B as (f & Hf & Hw & Hl). exists f. split; [exact Hf|].
    split; [rewrite <- Hw; apply R|]. intros i. specialize (Hl i). rewrite (rel_none _ _ i R) in Hl.
    destruct (objs t i) as [[o|v]|]; [| |exact I]; apply Hl; reflexivity.
  - right. split; [exact Hd|]. destruct (B eq_refl) as (f & Hf). eauto.
Qed.

(** Whatever is stored: without assertions every program observes what it observes with
    optionals that forget a value that looks empty at the moment it is stored.  At the end
    the bytes of every optional say whether it is empty, and no other byte has changed. *)
Theorem C68_release_on_bytes :
  forall W (E : env W) base junk m0 w p xs t,
    env_ok E -> env_mono E -> placed E base -> junk_ok junk -> e_dbg E = false ->
    Forall op_ok p -> swallow_run E w p = (Some xs, t) ->
    exists m,
      run' E (flat E base junk) p (MkF m0 w) = (inl xs, MkF m (sworld t)) /\
      (forall i,
         let flag := rd (base i + d_foff (dec E i)) (d_fsize (dec E i)) m in
         let payload := rd (base i) (d_psize (dec E i)) m in
         match objs t i with
         | Some (SOpt None) => m_is_empty (man E i) flag = Some true
         | Some (SOpt (Some v)) => m_is_empty (man E i) flag = Some false /\ payload = v
         | Some (SVar v) => payload = v
         | None => True
         end) /\
      (forall x, elsewhere E base p x -> m x = m0 x).
Proof.
  intros W E base junk m0 w p xs t HE HM HP HJ Hd Ho H.
  destruct (swallow_bytes W E base junk m0 w p xs t HE HM HP HJ Ho H)
    as [([m w'] & Hf & Hw & Hl)|(Hd' & _)]; [|congruence].
  cbn in Hw. subst w'. exists m. split; [exact Hf|].
  split; [|exact (C67_named_bytes_only W E base junk p _ _ _ HE HJ Hf)].
  intros i. specialize (Hl i). cbn in Hl. destruct (objs t i) as [[[v|]|v]|]; try exact Hl.
  destruct Hl as (A & B). split; assumption.
Qed.
Print Assumptions C68_release_on_bytes.

(** With assertions there is one more possibility: a failed assertion. *)
Theorem C68_debug_on_bytes :
  forall W (E : env W) base junk m0 w p xs t,
    env_ok E -> env_mono E -> placed E base -> junk_ok junk ->
    Forall op_ok p -> swallow_run E w p = (Some xs, t) ->
    exists f, run' E (flat E base junk) p (MkF m0 w) = (inl xs, f) /\ fworld f = sworld t
           \/ e_dbg E = true /\ run' E (flat E base junk) p (MkF m0 w) = (inr AssertFailed, f).
Proof.
  intros W E base junk m0 w p xs t HE HM HP HJ Ho H.
  destruct (swallow_bytes W E base junk m0 w p xs t HE HM HP HJ Ho H)
    as [(f & Hf & Hw & _)|(Hd & f & Hf)]; exists f; auto.
Qed.
Print Assumptions C68_debug_on_bytes.

(** How a client may store exactly the value [v] in the optional [i], which contains [o]. *)
Definition stores {W} (i : loc) (v : rep) (o : option rep) (call : op W) : Prop :=
  call = OEmplace i (const_ini v)
  \/ (o = None /\ exists f g, call = OAssign i (MkArg (const_ini v) f g))
  \/ (exists d f g, o = Some d /\ call = OAssign i (MkArg (const_ini v) f g) /\
        forall w, f d [] w = ((ROk tt, (v, [])), w))
  \/ (exists d k f x, o = Some d /\ call = OAccess k i false f /\ forall w, f d w = ((ROk x, v), w)).
Lemma swallow_store W (E : env W) t i v o call :
  objs t i = Some (SOpt o) -> empties E i v = true -> stores i v o call ->
  op_ok call /\
  exists x t', sstep' (e_tid E) (ops E) (forgets E) (is_value E) call t = (SOk x, t') /\
    objs t' i = Some (SOpt None).
Proof.
  intros Hi He Hs.
  assert (Hb : forall u, forgets E i (Some v) u = (SOk tt, MkS (upd (objs u) i (Some (SOpt None))) (sworld u))).
  { intros u. unfold forgets. rewrite He. unfold storable, storable_in.
    unfold empties in He. apply andb_prop in He. destruct He as (He & H3). apply andb_prop in He.
    destruct He as (H1 & H2). rewrite H1. destruct (d_sep (dec E i)); [discriminate|].
    destruct (m_is_empty (man E i) (flag_cells (dec E i) v)) as [[]|]; try discriminate. reflexivity. }
  assert (Ok : @ini_ok W (const_ini v)) by (intros _ v0 w; exact I).
  destruct Hs as [->|[(-> & f & g & ->)|[(d & f & g & -> & -> & Hf)|(d & k & f & x & -> & -> & Hf)]]];
    (split; [try exact Ok; exact I|]).
  - cbn [sstep']. unfold sunit, s_emplace', s_clear', sbind, contents. rewrite Hi.
    destruct o as [d|]; cbn; rewrite Hb; cbn;
      (eexists _, _; split; [reflexivity|]; cbn [objs]; apply upd_same).
  - cbn [sstep']. unfold sunit, s_assign', sbind, contents. rewrite Hi. cbn. rewrite Hb.
    eexists _, _. split; [reflexivity|]. cbn [objs]. apply upd_same.
  - cbn [sstep']. unfold sunit, s_assign', sbind, contents. rewrite Hi. cbn.
    unfold sbind, sread, suser. rewrite Hi, Hf. cbn. unfold swrite'. cbn [objs]. rewrite Hi, Hb.
    eexists _, _. split; [reflexivity|]. cbn [objs]. apply upd_same.
  - cbn [sstep']. unfold sval, s_access', sbind, contents. rewrite Hi.
    unfold suser. rewrite Hf. unfold swrite'. cbn [objs snd fst]. rewrite Hi, Hb.
    eexists _, _. split; [reflexivity|]. cbn [objs]. apply upd_same.
Qed.

(** After any history, storing a value that looks empty makes the optional report no value,
    and destroying it then runs no code of the user: the value is never destroyed. *)
Theorem C68_stored_sentinel_is_lost :
  forall W (E : env W) base junk m0 w p xs t i o v call,
    env_ok E -> env_mono E -> placed E base -> junk_ok junk -> e_dbg E = false ->
    Forall op_ok p -> swallow_run E w p = (Some xs, t) ->
    objs t i = Some (SOpt o) -> empties E i v = true -> stores i v o call ->
    exists x w' m1 m2 m3,
      run' E (flat E base junk) (p ++ [call]) (MkF m0 w) = (inl (xs ++ [x]), MkF m1 w') /\
      run' E (flat E base junk) (p ++ [call; OHasValue i]) (MkF m0 w)
        = (inl (xs ++ [x; ObBool false]), MkF m2 w') /\
      run' E (flat E base junk) (p ++ [call; ODtor i]) (MkF m0 w)
        = (inl (xs ++ [x; ObUnit]), MkF m3 w').
Proof.
  intros W E base junk m0 w p xs t i o v call HE HM HP HJ Hd Ho H Hi He Hs.
  destruct (swallow_store W E t i v o call Hi He Hs) as (Hok & x & t1 & H1 & Hi1).
  assert (K : forall q ys t2, Forall op_ok q ->
    srun' (e_tid E) (ops E) (forgets E) (is_value E) q t = (Some ys, t2) ->
    exists m, run' E (flat E base junk) (p ++ q) (MkF m0 w) = (inl (xs ++ ys), MkF m (sworld t2))).
  { intros q ys t2 Hq Hr.
    destruct (C68_release_on_bytes W E base junk m0 w (p ++ q) (xs ++ ys) t2 HE HM HP HJ Hd) as (m & Hm & _).
    - apply Forall_app. split; assumption.
    - unfold swallow_run in *. rewrite srun_app, H, Hr. reflexivity.
    - eauto. }
  exists x, (sworld t1).
  destruct (K [call] [x] t1) as (m1 & K1); [auto|cbn [srun']; rewrite H1; reflexivity|].
  destruct (K [call; OHasValue i] [x; ObBool false] t1) as (m2 & K2).
  { repeat constructor; assumption. }
  { cbn [srun']. rewrite H1. cbn. unfold sbool, s_has, sbind, contents. rewrite Hi1. reflexivity. }
  destruct (K [call; ODtor i] [x; ObUnit] (MkS (upd (objs t1) i None) (sworld t1))) as (m3 & K3).
  { repeat constructor; assumption. }
  { cbn [srun']. rewrite H1. cbn. unfold sunit, s_dtor, sbind, contents. rewrite Hi1. reflexivity. }
  exists m1, m2, m3. auto.
Qed.
Print Assumptions C68_stored_sentinel_is_lost.

(** The types that the library selects. *)
Theorem C68_every_instantiation :
  forall W U cf (E : env W) base junk m0 w p xs t,
    universe_ok U -> universe_mono U -> program_types U cf E ->
    (forall n P g, optional_inplace_type U P g = Chosen (ot_dec (e_tys E n)) (ot_man (e_tys E n)) ->
                   manip_mono g) ->
    placed E base -> junk_ok junk -> e_dbg E = false ->
    Forall op_ok p -> swallow_run E w p = (Some xs, t) ->
    exists m,
      run' E (flat E base junk) p (MkF m0 w) = (inl xs, MkF m (sworld t)) /\
      (forall x, elsewhere E base p x -> m x = m0 x).
Proof.
  intros W U cf E base junk m0 w p xs t HU HM HT Hg HP HJ Hd Ho H.
  assert (EM : env_mono E).
  { intros n. destruct (HT n) as ((P & HN) & _). eapply named_mono; [exact HM|exact HN|].
    intros g. apply (Hg n P g). }
  destruct (C68_release_on_bytes W E base junk m0 w p xs t (program_lawful W U cf E HU HT) EM HP HJ Hd Ho H)
    as (m & A & _ & B).
  exists m. split; assumption.
Qed.
Print Assumptions C68_every_instantiation.

(** *** Not vacuous *)

(** Optional 10 is created with the sentinel, 11 gets it through a reference; then 10 gets
    a proper value, which goes to 12 by a swap.  A double gets the bits of its sentinel. *)
Definition set_to (v : rep) : fn_use sworld_t := fun d w => ((ROk d, v), w).
Definition C68_history : list (op sworld_t) :=
  [OInPlace 10 (mkP 0 7); OHasValue 10; OInPlace 11 (mkP 1 2); OHasValue 11;
   OAccess AccDeref 11 false (set_to [Atom 0; Atom 5]); OHasValue 11; OReset 11;
   OEmplace 10 (mkP 3 4); OAccess AccDeref 10 true look; ODefault 12; OSwap 10 12;
   OHasValue 10; OAccess AccValue 12 true look; OAccess AccValue 11 true look;
   OInPlace 20 (mkBits 8 5); OHasValue 20;
   OAccess AccDeref 20 false (set_to (word 8 sent_double)); OHasValue 20; ODtor 20; ODtor 10; ODtor 11; ODtor 12].
Example C68_example :
  let E := sample false in
  let base := fun i => 100 + 8 * i in
  Forall op_ok C68_history /\ ~ contract E quiet C68_history /\
  exists xs t f,
    swallow_run E quiet C68_history = (Some xs, t) /\
    run' E (flat E base (fun _ _ => leave)) C68_history (MkF (fun _ => Byte 0) quiet) = (inl xs, f) /\
    fworld f = sworld t /\
    firstn 6 xs = [ObUnit; ObBool false; ObUnit; ObBool true; ObVal [Atom 1; Atom 2]; ObBool false] /\
    In (ObVal [Atom 3; Atom 4]) xs /\ In (ObThrow BadOptionalAccess) xs /\
  (* with assertions the first call already fails *)
  exists f', run' (sample true) (flat (sample true) base (fun _ _ => leave)) C68_history
                  (MkF (fun _ => Byte 0) quiet) = (inr AssertFailed, f').
Proof.
  assert (S0 : exists xs t, swallow_run (sample false) quiet C68_history = (Some xs, t))
    by (eexists _, _; vm_compute; reflexivity).
  cbv zeta. split; [unfold C68_history; op_oks|]. split.
  { intros (_ & xs & t & H). vm_compute in H. discriminate. }
  eexists _, _, _. split; [vm_compute; reflexivity|]. split; [vm_compute; reflexivity|].
  split; [vm_compute; reflexivity|]. split; [vm_compute; reflexivity|].
  split; [cbn; tauto|]. split; [cbn; tauto|]. eexists. vm_compute. reflexivity.
Qed.

(** Storing after a history. *)
Example C68_store_example :
  let E := sample false in
  let p := [OInPlace 10 (mkP 1 2); ODefault 11] in
  exists xs t,
    swallow_run E quiet p = (Some xs, t) /\
    objs t 10 = Some (SOpt (Some [Atom 1; Atom 2])) /\ empties E 10 [Atom 0; Atom 3] = true /\
    stores 10 [Atom 0; Atom 3] (Some [Atom 1; Atom 2]) (OEmplace 10 (@const_ini sworld_t [Atom 0; Atom 3])) /\
    stores 10 [Atom 0; Atom 3] (Some [Atom 1; Atom 2])
           (OAccess AccDeref 10 false (set_to [Atom 0; Atom 3])) /\
    (* a separate flag: no value looks empty *)
    (forall v, empties E 0 v = false).
Proof.
  eexists _, _. split; [vm_compute; reflexivity|]. split; [reflexivity|]. split; [reflexivity|].
  split; [left; reflexivity|]. split.
  - right; right; right. eexists _, _, _, _. split; [reflexivity|]. split; [reflexivity|]. reflexivity.
  - intros v. unfold empties. cbn. destruct (length v) as [|[|[|n]]]; reflexivity.
Qed.

(** A handle that is 0 once it was moved from (C51): swaps and moves on, in a release build. *)
Example C68_moved_example :
  let E := handle false in
  let p := [ODefault 0; OInPlace 1 (mkP 5 6); OSwap 0 1; OMoveCtor 2 0; OHasValue 0; OHasValue 1;
            OHasValue 2; OCopyAssign 1 0; OEmplace 0 (mkP 7 8); OMoveAssign 1 0; OHasValue 0;
            OAccess AccDeref 1 true look; OAccess AccDeref 2 true look; ODtor 0; ODtor 1; ODtor 2] in
  Forall op_ok p /\ ~ contract E quiet p /\
  exists xs t f,
    swallow_run E quiet p = (Some xs, t) /\
    run' E (flat E (fun i => 8 * i) (fun _ _ _ => poison)) p (MkF (fun _ => Byte 0) quiet) = (inl xs, f) /\
    fworld f = sworld t /\
    In (ObVal [Atom 7; Atom 8]) xs /\ In (ObVal [Atom 5; Atom 6]) xs.
Proof.
  cbv zeta. split; [op_oks|]. split.
  { intros (_ & xs & t & H). vm_compute in H. discriminate. }
  eexists _, _, _. split; [vm_compute; reflexivity|]. split; [vm_compute; reflexivity|].
  split; [vm_compute; reflexivity|]. split; cbn; tauto.
Qed.
