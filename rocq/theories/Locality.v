(** * Locality: properties C40, C41, C42 *)

From Coq Require Import List NArith ZArith Bool Arith Lia.
From Verif Require Import Cells CellsFacts Machine Optional Program Spec Laws Refine Contract
  Effects Frame Bits Manip Sample ExampleTac SpecTac Histories.
Import ListNotations.

Local Arguments put : simpl never.
Local Arguments sub : simpl never.

(** ** C42: operations are local *)

(** [touches o]: the variables that the call [o] names as non-const operands.  In
    every state, reachable or not, and whatever the outcome (also an exception or a
    fault), all other variables keep their storage exactly. *)
Theorem C42_call_is_local :
  forall W (E : env W) o s j, ~ In j (touches o) -> mem (snd (step E o s)) j = mem s j.
Proof. intros W E o s j. apply step_local. Qed.

Theorem C42_history_is_local :
  forall W (E : env W) p s j,
    (forall o, In o p -> ~ In j (touches o)) -> mem (snd (run E p s)) j = mem s j.
Proof. intros W E p s j. apply run_local. Qed.

(** Hence what the API shows of another optional does not change. *)
Theorem C42_contents_of_others :
  forall W (E : env W) p s j,
    (forall o, In o p -> ~ In j (touches o)) -> peek E j (snd (run E p s)) = peek E j s.
Proof.
  intros W E p s j H. pose proof (run_local E p s j H) as Hm.
  set (s' := snd (run E p s)) in *. clearbody s'.
  assert (Hh : fst (has_value E j s') = fst (has_value E j s)).
  { unfold has_value, fm_is_empty, bind, get_region, ret, dead. rewrite Hm.
    destruct (mem s j) as [r|]; [|reflexivity]. destruct (flag_obj r || _); [|reflexivity].
    destruct (m_is_empty _ _); reflexivity. }
  assert (Hl : forall u u', mem u' j = mem u j -> fst (load_payload E j u') = fst (load_payload E j u)).
  { intros u u' Hu. unfold load_payload, bind, get_region, ret, dead. rewrite Hu.
    destruct (mem u j) as [r|]; [|reflexivity]. destruct (pay_obj r); reflexivity. }
  assert (Hd : fst ((op_deref E j;; load_payload E j) s') = fst ((op_deref E j;; load_payload E j) s)).
  { unfold op_deref, assert_. destruct (e_dbg E); [|cbn; apply Hl, Hm].
    assert (Hq : forall u, has_value E j u = (fst (has_value E j u), u)).
    { intros u. unfold has_value, fm_is_empty, bind, get_region, ret, dead.
      destruct (mem u j) as [r|]; [|reflexivity]. destruct (flag_obj r || _); [|reflexivity].
      destruct (m_is_empty _ _); reflexivity. }
    unfold bind. rewrite (Hq s'), (Hq s), Hh. destruct (fst (has_value E j s)) as [[]|e|f]; cbn; try reflexivity.
    apply Hl, Hm. }
  unfold peek. destruct (has_value E j s') as [a ?], (has_value E j s) as [b ?]. cbn in Hh. subst b.
  destruct a as [[]|e|f]; try reflexivity.
  destruct ((op_deref E j;; load_payload E j) s') as [a ?], ((op_deref E j;; load_payload E j) s) as [b ?].
  cbn in Hd. subst b. reflexivity.
Qed.

(** ** C41: read-only operations *)

(** The initializer only reads its arguments. *)
Definition const_args {W} (d : ini W) : Prop :=
  (i_src d = None \/ i_const d = true) /\ forall x, In x (i_more d) -> snd x = true.

Definition read_only {W} (o : op W) : Prop :=
  match o with
  | OHasValue _ | OBool _ | OCompare _ _ _ _ _ | OThreeWay _ _ _ _ | OHash _ _ => True
  | OAccess _ _ c _ => c = true
  | OValueOrCopy _ d => const_args d
  | _ => False
  end.

(** In every state they change no byte of memory and create or destroy no object. *)
Theorem C41_read_only :
  forall W (E : env W) o s, read_only o ->
    mem (snd (step E o s)) = mem s /\ trace (snd (step E o s)) = trace s.
Proof.
  intros W E o s H. apply step_read_only.
  - destruct o; cbn in *; try contradiction; try reflexivity.
    + rewrite H. reflexivity.
    + unfold ini_touches. destruct H as (H & M).
      replace (filter (fun x : loc * bool => negb (snd x)) (i_more d)) with (@nil (loc * bool)).
      * destruct H as [-> | ->]; [reflexivity|destruct (i_src d); reflexivity].
      * induction (i_more d) as [|x l IH]; [reflexivity|]. cbn. rewrite (M x (or_introl eq_refl)). cbn.
        apply IH. intros y Hy. apply M. right. exact Hy.
  - destruct o; cbn in *; try contradiction; reflexivity.
Qed.

(** ** C40: the flag in a member *)

(** Two machine states that differ at most in the bytes of [i] outside its flag. *)
Definition same_flag {W} (E : env W) (i : loc) (s1 s2 : state W) : Prop :=
  world s1 = world s2 /\ trace s1 = trace s2 /\
  (forall j, j <> i -> mem s1 j = mem s2 j) /\
  exists r1 r2, mem s1 i = Some r1 /\ mem s2 i = Some r2 /\
    flag_obj r1 = flag_obj r2 /\ pay_obj r1 = pay_obj r2 /\
    length (cells r1) = length (cells r2) /\
    forall k, d_foff (dec E i) <= k < d_foff (dec E i) + d_fsize (dec E i) ->
      nth_error (cells r1) k = nth_error (cells r2) k.

Lemma firstn_ext {A} n (a b : list A) :
  length a = length b -> (forall k, k < n -> nth_error a k = nth_error b k) -> firstn n a = firstn n b.
Proof.
  revert a b. induction n as [|n IH]; intros [|x a] [|y b] L H; cbn in *; try lia; try reflexivity.
  f_equal.
  - specialize (H 0 ltac:(lia)). cbn in H. congruence.
  - apply IH; [lia|]. intros k Hk. exact (H (1 + k) ltac:(lia)).
Qed.
Lemma nth_skipn {A} n k (a : list A) : nth_error (skipn n a) k = nth_error a (n + k).
Proof. revert a. induction n as [|n IH]; intros [|x a]; cbn; auto. destruct k; reflexivity. Qed.
Lemma sub_ext off len a b :
  length a = length b ->
  (forall k, off <= k < off + len -> nth_error a k = nth_error b k) -> sub off len a = sub off len b.
Proof.
  intros L H. unfold sub. apply firstn_ext; [rewrite !skipn_length; lia|].
  intros k Hk. rewrite !nth_skipn. apply H. lia.
Qed.

(** Querying reads only the flag. *)
Theorem C40_query_reads_only_flag :
  forall W (E : env W) i s1 s2, same_flag E i s1 s2 ->
    fst (has_value E i s1) = fst (has_value E i s2).
Proof.
  intros W E i s1 s2 (_ & _ & _ & r1 & r2 & H1 & H2 & Hf & Hp & Hl & Hk).
  unfold has_value, fm_is_empty, bind, get_region. rewrite H1, H2, Hf, Hp, (sub_ext _ _ _ _ Hl Hk).
  destruct (flag_obj r2 || _); [|reflexivity]. destruct (m_is_empty _ _); reflexivity.
Qed.

(** Querying, resetting and destroying an empty optional depends only on the flag:
    if the other bytes are different, the outcome is the same. *)
Definition on_empty {W} (i : loc) (o : op W) : Prop :=
  match o with
  | OHasValue k | OBool k | OReset k | OAssignNull k | ODtor k => k = i
  | _ => False
  end.

Theorem C40_empty_optional_reads_only_flag :
  forall W (E : env W) i o s1 s2, same_flag E i s1 s2 -> on_empty i o ->
    fst (has_value E i s1) = Ok false ->
    fst (step E o s1) = fst (step E o s2) /\
    (forall k r r' r1, mem s1 i = Some r1 -> mem s2 i = Some r ->
       mem (snd (step E o s2)) i = Some r' -> nth_error (cells r') k = nth_error (cells r) k).
Proof.
  intros W E i o s1 s2 Hs Ho He. pose proof (C40_query_reads_only_flag _ _ _ _ _ Hs) as Hq.
  assert (Hsame : forall s, has_value E i s = (fst (has_value E i s), s)).
  { intros s. unfold has_value, fm_is_empty, bind, get_region, ret, dead.
    destruct (mem s i) as [r|]; [|reflexivity]. destruct (flag_obj r || _); [|reflexivity].
    destruct (m_is_empty _ _); reflexivity. }
  pose proof (Hsame s1) as Q1. pose proof (Hsame s2) as Q2. rewrite <- Hq in Q2. rewrite He in Q1, Q2.
  destruct Hs as (_ & _ & _ & r1 & r2 & H1 & H2 & Hf & Hp & _).
  destruct o; cbn in Ho; try contradiction; subst; cbn [step];
    unfold unit_, bool_, dtor, storage_dtor, reset, op_bool, assign_nullopt, noexcept_if, bind.
  - rewrite Q1, Q2. cbn. unfold dealloc, bind, get_region. rewrite H1, H2, Hf, Hp. cbn.
    unfold ret, log, set_region. destruct (pay_obj r2), (flag_obj r2 && negb (d_sep (dec E i))); cbn;
      (split; [reflexivity|]); unfold upd; rewrite Nat.eqb_refl; intros; discriminate.
  - unfold reset, noexcept_if, bind. rewrite Q1, Q2. cbn. split; [reflexivity|]. intros. congruence.
  - rewrite Q1, Q2. cbn. split; [reflexivity|]. intros. congruence.
  - rewrite Q1, Q2. cbn. split; [reflexivity|]. intros. congruence.
  - rewrite Q1, Q2. cbn. split; [reflexivity|]. intros. congruence.
Qed.

(** Creating an empty optional in memory with arbitrary contents [c] writes only
    the flag, and what it writes there does not depend on the other bytes. *)
Theorem C40_default_writes_only_flag :
  forall W (E : env W) i s c,
    env_ok E -> mem s i = Some (MkRegion c (d_sep (dec E i)) false) -> length c = d_ssize (dec E i) ->
    exists s' r', storage_default E i s = (Ok tt, s') /\ mem s' i = Some r' /\
      length (cells r') = length c /\
      (forall k, outside_flag E i k -> nth_error (cells r') k = nth_error c k) /\
      sub (d_foff (dec E i)) (d_fsize (dec E i)) (cells r') =
      m_init (man E i) (sub (d_foff (dec E i)) (d_fsize (dec E i)) c).
Proof.
  intros W E i s c HE Hm Hl.
  destruct (C02_default_empty_on_any_memory W E i s c HE Hm Hl) as (s' & H1 & H2).
  exists s'. unfold storage_default, noexcept_if, bind in H1.
  destruct (fm_init E i s) as [[u|e|f] s1] eqn:Hi; [|discriminate|discriminate].
  pose proof (ok_dec _ (HE (e_tid E i))) as D. pose proof (ok_man _ (HE (e_tid E i))) as F.
  change (ot_dec (e_tys E (e_tid E i))) with (dec E i) in *.
  change (ot_man (e_tys E (e_tid E i))) with (man E i) in *. pose proof (do_flag _ D) as Hf.
  assert (Ls : length (sub (d_foff (dec E i)) (d_fsize (dec E i)) c) = d_fsize (dec E i))
    by (apply length_sub; lia).
  pose proof (mo_init_len _ _ F _ Ls) as Li.
  assert (s' = s1) as ->.
  { revert H1. unfold assert_. destruct (e_dbg E); [|unfold ret; congruence].
    unfold not_, has_value, fm_is_empty, bind, get_region, ret, dead.
    destruct (mem s1 i) as [r|]; [|congruence]. destruct (flag_obj r || _); [|congruence].
    destruct (m_is_empty _ _) as [[]|]; cbn; congruence. }
  assert (Hr : exists r', mem s1 i = Some r' /\
      cells r' = put (d_foff (dec E i)) (m_init (man E i) (sub (d_foff (dec E i)) (d_fsize (dec E i)) c)) c).
  { revert Hi. unfold fm_init, bind, get_region, set_region, dead. rewrite Hm. cbn [flag_obj pay_obj cells].
    destruct (d_sep (dec E i)); cbn; intros [= _ <-]; cbn; unfold upd; rewrite Nat.eqb_refl; eauto. }
  destruct Hr as (r' & Hr & Hc). exists r'.
  split; [unfold storage_default, noexcept_if, bind; rewrite Hi; exact H1|].
  split; [exact Hr|]. rewrite Hc. split; [apply length_put; lia|]. split.
  - intros k Hk. apply put_outside; auto. apply (mo_init_len _ _ F).
  - apply sub_put_same'; auto; lia.
Qed.

(** The same for the flag functions themselves, on any memory and in any state:
    everything the library does to an empty optional goes through them. *)
Theorem C40_flag_functions_write_only_flag :
  forall W (E : env W) i s s' u,
    env_ok E -> fm_init E i s = (Ok u, s') \/ fm_invalidate E i s = (Ok u, s') ->
    exists r r', mem s i = Some r /\ mem s' i = Some r' /\
      (length (cells r) = d_ssize (dec E i) ->
       forall k, outside_flag E i k -> nth_error (cells r') k = nth_error (cells r) k).
Proof.
  intros W E i s s' u HE [H|H]; [eapply init_frame|eapply invalidate_frame]; eauto.
Qed.

(** Resetting an engaged optional: the payload's bytes become indeterminate because
    its destructor has run, and only the flag is written afterwards. *)
Theorem C40_reset_writes_only_flag :
  forall W (E : env W) w p s i v r s',
    env_ok E -> call_after E w p s (OReset i) r s' -> opt_after E w p i (Some v) ->
    exists c c', mem s i = Some c /\ mem s' i = Some c' /\
      forall k, outside_flag E i k ->
        nth_error (cells c') k =
        if Nat.ltb k (d_psize (dec E i)) then Some Indet else nth_error (cells c) k.
Proof.
  intros W E w p s i v r s' HE C Ho.
  destruct (call_spec_at E HE _ _ _ _ _ _ C) as (xs & t & t' & sr & Ht & R & Hs & R' & Hr).
  pose proof (opt_after_at E _ _ _ _ _ _ Ho Ht) as Hi.
  pose proof (has_value_true E s t i v R Hi) as Hh.
  destruct C as (_ & _ & Hst). cbn [step] in Hst. unfold unit_, reset, noexcept_if, bind in Hst.
  assert (Hh' : has_value E i s = (Ok true, s)) by exact Hh. rewrite Hh' in Hst.
  destruct (destroy_payload E i s) as [[u|e|f] s1] eqn:Hd.
  - destruct (fm_init E i s1) as [[u1|e|f] s2] eqn:Hf.
    + assert (s' = s2) as ->.
      { revert Hst. unfold assert_. destruct (e_dbg E); [|unfold ret; congruence].
        unfold not_, has_value, fm_is_empty, bind, get_region, ret, dead.
        destruct (mem s2 i) as [q|]; [|congruence]. destruct (flag_obj q || _); [|congruence].
        destruct (m_is_empty _ _) as [[]|]; cbn; congruence. }
      destruct (init_frame E HE i s1 s2 u1 Hf) as (c1 & c2 & M1 & M2 & K).
      pose proof (rel_robj E _ _ _ i R I) as Hrob. rewrite Hi in Hrob.
      destruct Hrob as (cc & Hm & Hlen & _). set (c := MkRegion cc (d_sep (dec E i)) true) in *.
      exists c, c2. split; [exact Hm|]. split; [exact M2|]. intros k Hk.
      change cc with (cells c) in Hlen.
      assert (Hc1 : cells c1 = put 0 (indets (d_psize (dec E i))) (cells c)).
      { revert Hd. unfold destroy_payload, bind, get_region, call, set_region, log, dead. rewrite Hm.
        cbn. intros [= _ <-]. cbn in M1. unfold upd in M1.
        rewrite Nat.eqb_refl in M1. injection M1 as <-. reflexivity. }
      pose proof (do_pay _ (ok_dec _ (HE (e_tid E i)))) as Dp.
      change (ot_dec (e_tys E (e_tid E i))) with (dec E i) in Dp.
      rewrite K by (auto; rewrite Hc1, length_put; rewrite ?length_indets; lia). rewrite Hc1.
      rewrite nth_put by (rewrite ?length_indets; lia). rewrite length_indets. change (0 + d_psize (dec E i)) with (d_psize (dec E i)).
      change (Nat.ltb k 0) with false. cbn iota.
      destruct (Nat.ltb_spec k (d_psize (dec E i))) as [Hlt|]; [|reflexivity].
      unfold indets. rewrite Nat.sub_0_r. rewrite nth_error_repeat by lia. reflexivity.
    + exfalso. destruct sr; [..|contradiction]; subst r; discriminate.
    + exfalso. destruct sr; [..|contradiction]; subst r; discriminate.
  - exfalso. destruct sr; [..|contradiction]; subst r; discriminate.
  - exfalso. destruct sr; [..|contradiction]; subst r; discriminate.
Qed.

(** A struct of two members whose second one holds the flag: the first member's
    byte survives the creation of an empty optional, and does not matter. *)
Example C40_example dbg :
  let s1 := MkState (upd (fun _ => None) 30 (Some (MkRegion [Atom 5; Atom 0] true false))) quiet [] in
  let s2 := MkState (upd (fun _ => None) 30 (Some (MkRegion [Indet; Atom 0] true false))) quiet [] in
  same_flag (sample dbg) 30 s1 s2 /\ fst (has_value (sample dbg) 30 s1) = Ok false /\
  outside_flag (sample dbg) 30 0 /\
  exists s s', call_after (sample dbg) quiet [OInPlace 30 (mkP 1 2)] s (OReset 30) (Ok ObUnit) s' /\
    opt_after (sample dbg) quiet [OInPlace 30 (mkP 1 2)] 30 (Some [Atom 1; Atom 2]).
Proof.
  cbv zeta. split; [|split; [|split]].
  - repeat split.
    + intros j N. cbn [mem]. rewrite !upd_other by congruence. reflexivity.
    + eexists _, _. cbn [mem]. rewrite !upd_same. repeat split.
      cbn. intros [|[|k]] Hk; try lia; reflexivity.
  - run_it.
  - left. cbn. lia.
  - eexists _, _. split; [ex_call|ex_opt].
Qed.
Example C41_example : read_only (OValueOrCopy 0 (mkP 1 2)) /\ read_only (OAccess AccValue 0 true look).
Proof. split; [split; [left; reflexivity|intros x []]|reflexivity]. Qed.
Example C42_example :
  forall o, In o [OInPlace 0 (mkP 1 2); OSwap 0 1; OMoveAssign 1 0; ODtor 0] -> ~ In 2 (touches o).
Proof. intros o H. repeat (destruct H as [<-|H]; [cbn; lia|]). contradiction. Qed.
