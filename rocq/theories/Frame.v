(** * Frame: locality, read-only operations, and the bytes that the flag uses *)

From Coq Require Import List NArith ZArith Bool Arith Lia.
From Verif Require Import Cells CellsFacts Machine Optional Program Laws Effects.
Import ListNotations.

Local Arguments put : simpl never.
Local Arguments sub : simpl never.

Section Frame.
  Context {W : Type}.
  Variable E : env W.

  (** ** Locality *)

  Lemma upd_ne {A} (f : loc -> option A) i x j : i <> j -> upd f i x j = f j.
  Proof. intros N. unfold upd. destruct (Nat.eqb_spec i j); congruence. Qed.

  Definition same_at (j : loc) (s s' : state W) : Prop := mem s' j = mem s j.

  Ltac mem_case :=
    repeat match goal with
           | |- context [match ?x with _ => _ end] =>
               match x with
               | context [match _ with _ => _ end] => fail 1
               | _ => destruct x eqn:?
               end
           end; cbn; try reflexivity.

  Lemma respects_local j : respects E (same_at j) (fun i => i <> j) (fun _ => True).
  Proof.
    split; unfold same_at; try (intros; reflexivity).
    - intros s1 s2 s3 H1 H2. congruence.
    - intros i v N s. unfold store_payload, bind, get_region, set_region, dead.
      mem_case. apply upd_ne, N.
    - intros i N s. unfold fm_init, bind, get_region, set_region, dead, log, ret.
      mem_case; apply upd_ne, N.
    - intros i N s. unfold fm_invalidate, bind, get_region, set_region, dead, log, ret.
      mem_case; apply upd_ne, N.
    - intros i v N s. unfold begin_payload, bind, get_region, set_region, dead, log, ret.
      mem_case; apply upd_ne, N.
    - intros i N s. unfold destroy_payload, bind, get_region, set_region, dead, log, ret, call.
      mem_case; apply upd_ne, N.
    - intros i N s. unfold alloc, set_region. mem_case; apply upd_ne, N.
    - intros i N _ s. unfold dealloc, bind, get_region, set_region, dead, log, ret.
      mem_case; apply upd_ne, N.
    - intros i v N s. unfold var_new, bind, get_region, set_region, dead, log, ret.
      mem_case; apply upd_ne, N.
    - intros i N s. unfold var_drop, load_payload, bind, get_region, set_region, dead, log, ret, call.
      mem_case; apply upd_ne, N.
  Qed.

  Lemma step_local o s j : ~ In j (touches o) -> mem (snd (step E o s)) j = mem s j.
  Proof.
    intros N. refine (step_holds E (same_at j) _ _ (respects_local j) o _ _ s).
    - intros i Hi ->. exact (N Hi).
    - intros; exact I.
  Qed.

  Lemma run_local p s j :
    (forall o, In o p -> ~ In j (touches o)) -> mem (snd (run E p s)) j = mem s j.
  Proof.
    revert s. induction p as [|o p IH]; intros s H; [reflexivity|]. cbn [run].
    pose proof (step_local o s j (H o (or_introl eq_refl))) as Hs.
    assert (Hp : forall o', In o' p -> ~ In j (touches o')) by (intros; apply H; right; assumption).
    destruct (step E o s) as [[x|e|f] s']; cbn in Hs; [| |exact Hs];
      specialize (IH s' Hp); destruct (run E p s') as [r s'']; cbn in *; congruence.
  Qed.

  (** ** Read-only operations *)

  Definition untouched (s s' : state W) : Prop := mem s' = mem s /\ trace s' = trace s.

  Lemma respects_untouched : respects E untouched (fun _ => False) (fun _ => False).
  Proof.
    split; unfold untouched; try (intros; contradiction); intuition; congruence.
  Qed.

  Lemma step_read_only o s :
    touches o = [] -> drops o = [] ->
    mem (snd (step E o s)) = mem s /\ trace (snd (step E o s)) = trace s.
  Proof.
    intros H1 H2. refine (step_holds E untouched _ _ respects_untouched o _ _ s).
    - rewrite H1. intros i [].
    - rewrite H2. intros i [].
  Qed.

  (** ** Bytes used by the flag *)

  Definition outside_flag (i : loc) (k : nat) : Prop :=
    k < d_foff (dec E i) \/ d_foff (dec E i) + d_fsize (dec E i) <= k.

  Hypothesis HE : env_ok E.

  Lemma put_outside i (f : rep -> rep) c k :
    (forall x, length x = d_fsize (dec E i) -> length (f x) = d_fsize (dec E i)) ->
    length c = d_ssize (dec E i) -> outside_flag i k ->
    nth_error (put (d_foff (dec E i)) (f (sub (d_foff (dec E i)) (d_fsize (dec E i)) c)) c) k
    = nth_error c k.
  Proof.
    intros Hf L Hk. pose proof (do_flag _ (ok_dec _ (HE (e_tid E i)))) as D.
    change (ot_dec (e_tys E (e_tid E i))) with (dec E i) in D.
    assert (length (sub (d_foff (dec E i)) (d_fsize (dec E i)) c) = d_fsize (dec E i)) as Ls
      by (apply length_sub; lia).
    pose proof (Hf _ Ls) as Lf.
    rewrite nth_put by lia. rewrite Lf.
    destruct (Nat.ltb_spec k (d_foff (dec E i))); [reflexivity|].
    destruct (Nat.ltb_spec k (d_foff (dec E i) + d_fsize (dec E i))); [|reflexivity].
    destruct Hk; lia.
  Qed.

  (** [init_empty_flag] and [invalidate_empty_flag] on the optional [i]. *)
  Lemma init_frame i s s' u :
    fm_init E i s = (Ok u, s') ->
    exists r r', mem s i = Some r /\ mem s' i = Some r' /\
      (length (cells r) = d_ssize (dec E i) ->
       forall k, outside_flag i k -> nth_error (cells r') k = nth_error (cells r) k).
  Proof.
    unfold fm_init, bind, get_region, set_region, dead.
    destruct (mem s i) as [r|] eqn:Hm; [|discriminate].
    destruct (negb (d_sep (dec E i)) && (flag_obj r || pay_obj r)); [discriminate|].
    intros H. exists r. eexists. split; [reflexivity|]. split.
    - destruct (d_sep (dec E i)); injection H as _ <-; cbn; unfold upd; rewrite Nat.eqb_refl; reflexivity.
    - cbn. intros L k Hk. apply put_outside; auto.
      intros x. apply (mo_init_len _ _ (ok_man _ (HE (e_tid E i)))).
  Qed.

  Lemma invalidate_frame i s s' u :
    fm_invalidate E i s = (Ok u, s') ->
    exists r r', mem s i = Some r /\ mem s' i = Some r' /\
      (length (cells r) = d_ssize (dec E i) ->
       forall k, outside_flag i k -> nth_error (cells r') k = nth_error (cells r) k).
  Proof.
    unfold fm_invalidate, bind, get_region, set_region, dead.
    destruct (mem s i) as [r|] eqn:Hm; [|discriminate].
    destruct (flag_obj r); [|discriminate].
    match goal with |- context [if ?b then _ else _] => destruct b end; [|discriminate].
    destruct (d_sep (dec E i)); intros H; exists r; eexists; (split; [reflexivity|]);
      (split; [injection H as _ <-; cbn; unfold upd; rewrite Nat.eqb_refl; reflexivity|]);
      cbn; intros L k Hk; (apply put_outside; auto);
      intros x; apply (mo_inval_len _ _ (ok_man _ (HE (e_tid E i)))).
  Qed.
End Frame.
