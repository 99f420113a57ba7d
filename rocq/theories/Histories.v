(** * Histories: properties C01, C02, C03, C16, C17, C18, C49 *)

From Coq Require Import List NArith ZArith Bool Arith Lia.
From Verif Require Import Cells CellsFacts Machine Optional Program Spec Laws Refine
  Contract Effects Lifetime Bits Manip Sample.
Import ListNotations.

Local Arguments put : simpl never.
Local Arguments sub : simpl never.

(** ** C01: behaves like std::optional over whole histories *)

(** If std::optional gives a defined result for the history [p], tiny optionals
    give the same observations (results and exceptions), the same effects on the
    user's world, and the same final contents. *)
Theorem C01_history_refines_std :
  forall W (E : env W) (w : W) (p : list (op W)) xs t,
    env_ok E -> Forall op_ok p -> std_run E w p = (Some xs, t) ->
    exists s,
      run E p (init_state w) = (inl xs, s) /\
      world s = sworld t /\
      forall i,
        match objs t i with
        | Some (SOpt o) => peek E i s = Some o
        | Some (SVar v) => load_payload E i s = (Ok v, s)
        | None => mem s i = None
        end.
Proof.
  intros W E w p xs t HE Hp H.
  pose proof (refines_run E HE p _ _ Hp (rel_init E w)) as R. unfold std_run in H. rewrite H in R.
  destruct R as (s & Hs & R). exists s. split; [exact Hs|]. split; [apply R|].
  intros i. destruct (objs t i) as [[o|v]|] eqn:Hi.
  - eapply peek_rel; eauto.
  - pose proof (refines_load E NoHole i s t R) as L. unfold agrees, sread in L. rewrite Hi in L.
    pose proof (rel_robj E _ _ _ i R I) as Hr. rewrite Hi in Hr. destruct Hr as (Hm & Hl).
    unfold load_payload, bind, get_region. rewrite Hm. cbn. rewrite <- Hl, sub_full. reflexivity.
  - eapply rel_fresh; eauto.
Qed.

(** A history with four storage strategies, two exceptions and a swap is within
    the contract. *)
Definition demo : list (op sworld_t) :=
  [ODefault 0; ONullopt 10; OInPlace 11 (mkP 3 4); OEmplace 0 (mkP 1 2); OEmplace 0 (mkP 1 2);
   OAssign 10 (argP 5 6); OSwap 10 11; OCopyCtor 1 0; OMoveAssign 10 11;
   OInPlace 20 (mkBits 8 0x3ff0000000000000); OInPlace 30 (mkP 8 9);
   OTransform 21 20 true (fun v w => ((ROk v, v), w)) true;
   OAndThen 12 0 true (fun v w => ((ROk (Some v), v), w));
   OCompare RtDirect (MkCmp _ (fun _ _ _ w => (ROk true, w)) (fun _ _ w => (ROk OLess, w))) RLt
            (OpTiny 10) (OpTiny 11);
   OValueOrMove 30 (mkP 7 7); OReset 30; ODtor 10; ODtor 20; OHasValue 21].
Definition demo_world : sworld_t := plan [None; Some 4; None; None; Some 5; None; Some 3].

Lemma demo_ok : Forall op_ok demo.
Proof. op_oks. Qed.

Lemma demo_observations :
  fst (std_run (sample true) demo_world demo) =
  Some [ObUnit; ObUnit; ObUnit; ObThrow (UserExn 4); ObUnit; ObUnit; ObThrow (UserExn 5); ObUnit;
        ObThrow (UserExn 3); ObUnit; ObUnit; ObUnit; ObUnit; ObBool true; ObVal [Atom 8; Atom 9];
        ObUnit; ObUnit; ObUnit; ObBool true].
Proof. vm_compute. reflexivity. Qed.

Example C01_example dbg : contract (sample dbg) demo_world demo.
Proof.
  eapply contract_intro; [apply demo_ok|]. destruct dbg; vm_compute; reflexivity.
Qed.

(** ** C02: default and nullopt construction, nullopt assignment *)

(** The default constructor on storage with arbitrary previous contents [c]. *)
Theorem C02_default_empty_on_any_memory :
  forall W (E : env W) i (s : state W) c,
    env_ok E ->
    mem s i = Some (MkRegion c (d_sep (dec E i)) false) -> length c = d_ssize (dec E i) ->
    exists s', storage_default E i s = (Ok tt, s') /\ has_value E i s' = (Ok false, s').
Proof.
  intros W E i s c HE Hm Hl.
  pose proof (ok_dec _ (HE (e_tid E i))) as D. pose proof (ok_man _ (HE (e_tid E i))) as F.
  change (ot_dec (e_tys E (e_tid E i))) with (dec E i) in *.
  change (ot_man (e_tys E (e_tid E i))) with (man E i) in *.
  pose proof (do_flag _ D) as Hf.
  assert (Ls : length (sub (d_foff (dec E i)) (d_fsize (dec E i)) c) = d_fsize (dec E i))
    by (apply length_sub; lia).
  pose proof (mo_init_len _ _ F _ Ls) as Li.
  assert (Hinit : exists s', fm_init E i s = (Ok tt, s') /\ has_value E i s' = (Ok false, s')).
  { unfold fm_init, bind, get_region. rewrite Hm. cbn [flag_obj pay_obj cells].
    destruct (d_sep (dec E i)) eqn:Sep; cbn [negb andb orb]; unfold set_region, log, ret;
      (eexists; split; [reflexivity|]);
      unfold has_value, fm_is_empty, bind, get_region; cbn [mem]; unfold upd;
      rewrite Nat.eqb_refl; cbn [flag_obj pay_obj cells orb];
      (rewrite sub_put_same' by (auto; lia));
      (rewrite (mo_init _ _ F _ Ls)); reflexivity. }
  destruct Hinit as (s' & H1 & H2). exists s'. split; [|exact H2].
  unfold storage_default, noexcept_if, bind. rewrite H1.
  rewrite assert_true; [reflexivity|]. apply not_eq in H2. exact H2.
Qed.

(** In every history: after the call the optional reports "empty". *)
Theorem C02_default_nullopt_empty :
  forall W (E : env W) w p s i o r s',
    env_ok E -> In o [ODefault i; ONullopt i; OAssignNull i] ->
    call_after E w p s o r s' ->
    r = Ok ObUnit /\ has_value E i s' = (Ok false, s').
Proof.
  intros W E w p s i o r s' HE Ho C.
  destruct (call_spec E HE _ _ _ _ _ _ C) as (t & t' & sr & R & Hs & R' & Hr).
  assert (sr = SOk ObUnit /\ objs t' i = Some (SOpt None)) as (-> & Hi).
  { destruct Ho as [<-|[<-|[<-|[]]]]; cbn in Hs.
    - unfold sunit, s_new, sbind, fresh in Hs. destruct (objs t i) eqn:Hi; cbn in Hs.
      + injection Hs as <- <-. contradiction.
      + injection Hs as <- <-. split; [reflexivity|]. cbn. unfold upd. rewrite Nat.eqb_refl. reflexivity.
    - unfold sunit, s_new, sbind, fresh in Hs. destruct (objs t i) eqn:Hi; cbn in Hs.
      + injection Hs as <- <-. contradiction.
      + injection Hs as <- <-. split; [reflexivity|]. cbn. unfold upd. rewrite Nat.eqb_refl. reflexivity.
    - unfold sunit, s_clear, sbind, contents in Hs.
      destruct (objs t i) as [[[v|]|v]|] eqn:Hi; cbn in Hs; injection Hs as <- <-; try contradiction.
      + split; [reflexivity|]. cbn. unfold upd. rewrite Nat.eqb_refl. reflexivity.
      + split; [reflexivity|exact Hi]. }
  split; [exact Hr|]. eapply has_value_false; eauto.
Qed.

Example C02_example dbg :
  exists s s',
    call_after (sample dbg) quiet [ODefault 10; OEmplace 10 (mkP 1 2)] s (OAssignNull 10)
               (Ok ObUnit) s'.
Proof.
  eexists _, _. split; [|split].
  - eapply contract_intro; [op_oks|]. destruct dbg; vm_compute; reflexivity.
  - eapply reaches_intro. destruct dbg; vm_compute; reflexivity.
  - destruct dbg; reflexivity.
Qed.

(** ** C03: stored values are read back bit for bit *)

(** An initializer / a right hand side that delivers the value [v], whatever the
    state of the world. *)
Definition delivers {W} (n : ini W) (v : rep) : Prop :=
  i_src n = None /\ i_more n = [] /\ forall src w, fst (fst (i_fun n src w)) = ROk v.
Definition assigns {W} (a : arg W) (v : rep) : Prop :=
  delivers (a_ini a) v /\
  forall d src w, fst (fst (a_assign a d src w)) = ROk tt /\
                  fst (snd (fst (a_assign a d src w))) = v.

Lemma delivers_sinit {W} (E : env W) n v (t : sstate W) :
  delivers n v -> exists w', sinit (storable E) (is_value E) n t = (SOk v, MkS (objs t) w').
Proof.
  intros (Hn & Hm & Hf). unfold sinit, sbind, sret, suser. rewrite Hn, Hm. cbn [sread_more].
  unfold sret. cbn [joined].
  specialize (Hf [] (sworld t)). destruct (i_fun n [] (sworld t)) as [[r x] w']. cbn in *.
  subst r. cbn. exists w'. reflexivity.
Qed.

(** Every storing call, in every prior state of the optional, succeeds; then
    has_value() is true and every accessor shows exactly [v]. *)
Theorem C03_read_back :
  forall W (E : env W) w p s i o v,
    env_ok E -> contract E w p -> reaches E w p s ->
    storable E i v = true -> op_ok o ->
    (exists n, delivers n v /\ fresh_after E w p i /\ o = OInPlace i n) \/
    (exists n x, delivers n v /\ opt_after E w p i x /\ o = OEmplace i n) \/
    (exists a x, assigns a v /\ opt_after E w p i x /\ o = OAssign i a) ->
    exists s',
      step E o s = (Ok ObUnit, s') /\
      has_value E i s' = (Ok true, s') /\
      forall k, (acc E k i ;; load_payload E i) s' = (Ok v, s').
Proof.
  intros W E w p s i o v HE C Hr Hst Hok Ho.
  destruct (contract_rel E HE w p C) as (xs & s0 & t & Ht & Hrun & R0).
  pose proof (step_from E HE w p s o xs t C Hr Hok Ht) as A.
  assert (exists t', sstep (e_tid E) (ops E) (storable E) (is_value E) o t = (SOk ObUnit, t') /\
                     objs t' i = Some (SOpt (Some v))) as (t' & Hs & Hi).
  { destruct Ho as [(n & Hn & Hf & ->)|[(n & x & Hn & Hx & ->)|(a & x & (Hn & Ha) & Hx & ->)]].
    - pose proof (fresh_after_at E _ _ _ _ _ Hf Ht) as Hi. cbn.
      unfold sunit, sbind, fresh. rewrite Hi.
      destruct (delivers_sinit E n v t Hn) as (w' & ->). unfold become. rewrite Hst. cbn.
      eexists. split; [reflexivity|]. cbn. apply upd_same.
    - pose proof (opt_after_at E _ _ _ _ _ _ Hx Ht) as Hi. cbn.
      unfold sunit, s_emplace, s_clear, sbind, contents. rewrite Hi. destruct x as [v0|].
      + cbn. unfold sdestroy, suser. cbn.
        destruct (delivers_sinit E n v (MkS (upd (objs t) i (Some (SOpt None)))
          (po_dtor (ops E i) v0 (sworld t))) Hn) as (w' & ->). unfold become. rewrite Hst. cbn.
        eexists. split; [reflexivity|]. cbn. apply upd_same.
      + cbn. destruct (delivers_sinit E n v t Hn) as (w' & ->). unfold become. rewrite Hst. cbn.
        eexists. split; [reflexivity|]. cbn. apply upd_same.
    - pose proof (opt_after_at E _ _ _ _ _ _ Hx Ht) as Hi. cbn.
      unfold sunit, s_assign, sbind, contents. rewrite Hi. destruct x as [v0|].
      + unfold s_assign_existing. rewrite (proj1 Hn). unfold sbind, sread. rewrite Hi.
        unfold suser. destruct (Ha v0 [] (sworld t)) as (H1 & H2).
        destruct (a_assign a v0 [] (sworld t)) as [[r [d' x']] w']. cbn in H1, H2. subst r d'. cbn.
        unfold swrite. cbn. rewrite Hi. unfold become. rewrite Hst. cbn.
        eexists. split; [reflexivity|]. cbn. apply upd_same.
      + destruct (delivers_sinit E (a_ini a) v t Hn) as (w' & ->). unfold become. rewrite Hst. cbn.
        eexists. split; [reflexivity|]. cbn. apply upd_same. }
  rewrite Hs in A. destruct A as (s' & Hstep & R'). exists s'. split; [exact Hstep|].
  pose proof (has_value_true E s' t' i v R' Hi) as Hh. split; [exact Hh|].
  assert (Hl : load_payload E i s' = (Ok v, s')).
  { pose proof (refines_load E NoHole i s' t' R') as L. unfold agrees, sread in L. rewrite Hi in L.
    pose proof (rel_robj E _ _ _ i R' I) as Hrr. rewrite Hi in Hrr.
    destruct Hrr as (c & Hm & Hl & Hv & _). unfold load_payload, bind, get_region. rewrite Hm. cbn.
    rewrite Hv. reflexivity. }
  intros []; cbn [acc]; unfold op_deref, op_arrow, value, bind.
  - rewrite (assert_true E _ _ Hh). exact Hl.
  - rewrite (assert_true E _ _ Hh). exact Hl.
  - rewrite Hh. cbn. exact Hl.
Qed.

Example C03_example dbg :
  storable (sample dbg) 20 (word 8 0x8000000000000000) = true /\
  delivers (mkBits 8 0x8000000000000000) (word 8 0x8000000000000000) /\
  opt_after (sample dbg) quiet [ODefault 20; OEmplace 20 (mkBits 8 5)] 20 (Some (word 8 5)) /\
  contract (sample dbg) quiet [ODefault 20; OEmplace 20 (mkBits 8 5)].
Proof.
  split; [destruct dbg; vm_compute; reflexivity|]. split; [split; [reflexivity|split; [reflexivity|intros; reflexivity]]|].
  split.
  - apply opt_after_intro. destruct dbg; vm_compute; reflexivity.
  - eapply contract_intro; [op_oks|]. destruct dbg; vm_compute; reflexivity.
Qed.

(** ** C16: every payload object is destroyed exactly once *)

(** In every history within the contract, at every location: constructions and
    destructions of payloads alternate, no storage ends under a live payload, and
    the number of constructions is the number of destructions plus the number of
    payloads alive (0 or 1; 0 once the storage is gone). *)
Theorem C16_payload_destroyed_exactly_once :
  forall W (E : env W) w p s i,
    env_ok E -> contract E w p -> reaches E w p s ->
    life_of i (trace s) <> None /\
    count (is_pay_abandoned i) (trace s) = 0 /\
    count (is_pay_begin i) (trace s) =
      count (is_pay_end i) (trace s) +
      match mem s i with Some r => if pay_obj r then 1 else 0 | None => 0 end.
Proof.
  intros W E w p s i HE C Hr. destruct (reaches_rel E HE w p s C Hr) as (xs & t & Ht & R).
  assert (A : accounted E s).
  { destruct Hr as (ys & Hr). pose proof (run_accounted E p _ (init_accounted E w)) as A.
    rewrite Hr in A. exact A. }
  destruct (A i) as (Hl & _). split; [congruence|].
  assert (Hz : count (is_pay_abandoned i) (trace s) = 0).
  { destruct R as (_ & Hn & _). unfold count, no_abandon in *.
    destruct (filter (is_pay_abandoned i) (trace s)) as [|e l] eqn:F; [reflexivity|].
    assert (In e (filter (is_pay_abandoned i) (trace s))) as He by (rewrite F; left; reflexivity).
    apply filter_In in He as (He & Hb). destruct e; try discriminate. exfalso. eapply Hn, He. }
  split; [exact Hz|]. destruct (life_balance _ _ _ Hl) as (Hb & _). rewrite Hz in Hb.
  unfold current in Hb. destruct (mem s i) as [r|]; [|cbn in Hb; lia].
  destruct (pay_obj r); [cbn in Hb; lia|].
  destruct (flag_obj r && negb (d_sep (dec E i))); cbn in Hb; lia.
Qed.

Example C16_example :
  exists s, reaches (sample true) demo_world demo s /\ contract (sample true) demo_world demo /\
            count (is_pay_begin 10) (trace s) = 1 /\ count (is_pay_end 10) (trace s) = 1 /\
            count (is_pay_begin 0) (trace s) = 1 /\ count (is_pay_end 0) (trace s) = 0.
Proof.
  eexists. split; [eapply reaches_intro; vm_compute; reflexivity|].
  split; [apply C01_example|]. vm_compute. auto.
Qed.

(** ** C18: no read of indeterminate memory or of dead objects *)

(** A history within the contract never stops with a fault.  The machine faults
    whenever an indeterminate or invalid flag is inspected ([IndetRead]) and
    whenever an object outside its lifetime is read, written or destroyed
    ([NoObject]); fresh storage has only indeterminate cells. *)
Theorem C18_no_fault :
  forall W (E : env W) w p f s,
    env_ok E -> contract E w p -> run E p (init_state w) <> (inr f, s).
Proof.
  intros W E w p f s HE C H. destruct (contract_rel E HE w p C) as (xs & s' & t & _ & Hr & _).
  congruence.
Qed.

(** In every reachable state has_value() reads an initialised flag of every
    optional, whether the payload or only the flag is alive. *)
Theorem C18_flag_always_readable :
  forall W (E : env W) w p s i o,
    env_ok E -> contract E w p -> reaches E w p s -> opt_after E w p i o ->
    has_value E i s = (Ok (match o with Some _ => true | None => false end), s).
Proof.
  intros W E w p s i o HE C Hr Ho. destruct (reaches_rel E HE w p s C Hr) as (xs & t & Ht & R).
  pose proof (opt_after_at E _ _ _ _ _ _ Ho Ht) as Hi.
  exact (has_value_eq E _ _ _ _ _ R I Hi).
Qed.

(** The machine does detect such reads: has_value() on raw storage. *)
Example C18_fault_is_detected :
  fst ((alloc (sample true) 10 ;; has_value (sample true) 10) (init_state quiet)) = Dead NoObject /\
  fst ((alloc (sample true) 0 ;; has_value (sample true) 0) (init_state quiet)) = Dead IndetRead.
Proof. split; reflexivity. Qed.
