(** * Moved: payloads that look empty once they are moved from

    C51.  With an in-place flag the moved-from state of the payload may carry the
    sentinel (a class that marks "moved from" with the very member that serves as
    flag).  std::optional stays engaged; the library stops with an assertion in the
    move constructor and the move assignment (optional.h:1190-1192, 1303-1305), but
    not in swap, value_or and not if the client moves through a reference.  Without
    assertions the source becomes empty while its payload is never destroyed. *)

From Coq Require Import List NArith ZArith Bool Arith Lia.
From Verif Require Import Cells CellsFacts Machine Optional Program Spec Laws Refine.
From Verif Require Import Bits Manip Contract Sample Histories ExampleTac IntRange Select Selection Sentinels.
Import ListNotations.

Local Arguments put : simpl never.
Local Arguments sub : simpl never.

(** [o] moves from the payload of the optional [j], in state [s] after the history
    [p], and leaves it as [v'].  The boolean: the library checks the source. *)
Inductive takes {W} (E : env W) (w : W) (p : list (op W)) (s : state W) (j : loc) (v' : rep)
  : bool -> op W -> Prop :=
| tk_ctor i v u w1 :
    e_tid E i = e_tid E j -> fresh_after E w p i -> opt_after E w p j (Some v) ->
    po_move (ops E j) v (world s) = ((ROk u, v'), w1) -> storable E j u = true ->
    takes E w p s j v' true (OMoveCtor i j)
| tk_assign_empty i v u w1 :
    e_tid E i = e_tid E j -> opt_after E w p i None -> opt_after E w p j (Some v) ->
    po_move (ops E j) v (world s) = ((ROk u, v'), w1) -> storable E j u = true ->
    takes E w p s j v' true (OMoveAssign i j)
| tk_assign_engaged i d v u w1 :
    e_tid E i = e_tid E j -> i <> j ->
    opt_after E w p i (Some d) -> opt_after E w p j (Some v) ->
    po_massign (ops E j) d v (world s) = ((ROk tt, (u, v')), w1) -> storable E j u = true ->
    takes E w p s j v' true (OMoveAssign i j)
| tk_swap_to i v u w1 :
    e_tid E i = e_tid E j -> opt_after E w p i None -> opt_after E w p j (Some v) ->
    po_move (ops E j) v (world s) = ((ROk u, v'), w1) -> storable E j u = true ->
    takes E w p s j v' false (OSwap i j)
| tk_swap_from i v u w1 :
    e_tid E i = e_tid E j -> opt_after E w p i None -> opt_after E w p j (Some v) ->
    po_move (ops E j) v (world s) = ((ROk u, v'), w1) -> storable E j u = true ->
    takes E w p s j v' false (OSwap j i)
| tk_value_or d v u w1 :
    opt_after E w p j (Some v) ->
    po_move (ops E j) v (world s) = ((ROk u, v'), w1) ->
    takes E w p s j v' false (OValueOrMove j d)
| tk_reference k f v x w1 :
    opt_after E w p j (Some v) ->
    f v (world s) = ((ROk x, v'), w1) ->
    takes E w p s j v' false (OAccess k j false f).

(** The optional [j] claims to be empty; nothing but the end of its storage happens
    to its payload any more. *)
Definition lost {W} (E : env W) (j : loc) (s : state W) : Prop :=
  has_value E j s = (Ok false, s) /\
  step E (OReset j) s = (Ok ObUnit, s) /\
  step E (OAssignNull j) s = (Ok ObUnit, s) /\
  exists s', step E (ODtor j) s = (Ok ObUnit, s') /\
             world s' = world s /\ trace s' = EvPayAbandoned j :: trace s.

Section Moved.
  Context {W : Type}.
  Variable E : env W.
  Hypothesis HE : env_ok E.

  Lemma lost_intro j v' (m : loc -> option region) (w : W) l :
    looks_empty E j v' -> m j = Some (MkRegion v' false true) -> lost E j (MkState m w l).
  Proof.
    intros HV Hm. pose proof (has_value_after E j v' HV m w l Hm) as Hh. split; [exact Hh|].
    assert (Hr : reset E j (MkState m w l) = (Ok tt, MkState m w l)).
    { unfold reset, noexcept_if, bind. rewrite Hh. reflexivity. }
    split; [cbn [step]; unfold unit_, bind; rewrite Hr; reflexivity|].
    split; [cbn [step]; unfold unit_, assign_nullopt, noexcept_if, bind; rewrite Hr; reflexivity|].
    cbn [step]. unfold unit_, dtor, storage_dtor, noexcept_if, bind. rewrite Hh. cbn.
    unfold dealloc, bind, get_region. cbn. rewrite Hm. cbn. eexists. split; [reflexivity|].
    split; reflexivity.
  Qed.

  (** An engaged optional with an in-place flag, concretely. *)
  Lemma engaged_inplace s t j v :
    rel E NoHole s t -> objs t j = Some (SOpt (Some v)) -> d_sep (dec E j) = false ->
    mem s j = Some (MkRegion v false true) /\ length v = d_psize (dec E j).
  Proof.
    intros R Hj Hs. pose proof (rel_robj E _ _ _ j R I) as Hr. rewrite Hj in Hr.
    destruct Hr as (c & Hm & Hl & Hv & _). rewrite Hs in Hm.
    assert (D : d_ssize (dec E j) = d_psize (dec E j)) by (apply do_size; [apply HE|exact Hs]).
    assert (v = c). { rewrite <- Hv, <- D, <- Hl. apply sub_full. }
    subst c. split; [exact Hm|congruence].
  Qed.

  Lemma has_engaged i u (m : loc -> option region) (w : W) l :
    storable E i u = true -> d_sep (dec E i) = false -> m i = Some (MkRegion u false true) ->
    has_value E i (MkState m w l) = (Ok true, MkState m w l).
  Proof.
    intros Hs Hd Hm. unfold storable, storable_in in Hs. rewrite Hd in Hs. cbn in Hs.
    apply andb_prop in Hs as (_ & Hs). unfold flag_cells in Hs.
    unfold has_value, fm_is_empty, bind, get_region. cbn. rewrite Hm. cbn. rewrite Hd. cbn.
    destruct (m_is_empty (man E i) _) as [[]|]; try discriminate. reflexivity.
  Qed.

  (** ConstructPayload of an empty optional from the payload of [j]. *)
  Lemma construct_from i j s c v u v' w1 :
    e_tid E i = e_tid E j -> i <> j -> d_sep (dec E j) = false ->
    mem s i = Some (MkRegion c true false) -> length c = d_ssize (dec E i) ->
    m_is_empty (man E i) (flag_cells (dec E i) c) = Some true ->
    mem s j = Some (MkRegion v false true) -> length v = d_psize (dec E j) ->
    po_move (ops E j) v (world s) = ((ROk u, v'), w1) ->
    length v' = d_psize (dec E j) -> storable E j u = true ->
    exists m l, m i = Some (MkRegion u false true) /\ m j = Some (MkRegion v' false true) /\
      construct_payload E i (move_ini E j) s = (Ok tt, MkState m w1 l).
  Proof.
    intros Ht N Hsep Hm Hc He Hj Hlv Hf Hl' Hu.
    assert (Dd : dec E i = dec E j) by (unfold dec, ty; rewrite Ht; reflexivity).
    assert (Mm : man E i = man E j) by (unfold man, ty; rewrite Ht; reflexivity).
    assert (Hdec : d_ssize (dec E j) = d_psize (dec E j)) by (apply do_size; [apply HE|exact Hsep]).
    assert (Hlu : length u = d_psize (dec E j)).
    { unfold storable, storable_in in Hu. apply andb_prop in Hu as (Hu & _). apply Nat.eqb_eq, Hu. }
    set (c1 := put (d_foff (dec E i))
                 (m_inval (man E i) (sub (d_foff (dec E i)) (d_fsize (dec E i)) c)) c).
    assert (Hlen1 : length c1 = d_ssize (dec E i)).
    { pose proof (ok_d E HE i) as D. pose proof (ok_m E HE i) as F. pose proof (do_flag _ D) as Df.
      assert (Lc : length (sub (d_foff (dec E i)) (d_fsize (dec E i)) c) = d_fsize (dec E i))
        by (apply length_sub; lia).
      pose proof (mo_inval_len _ _ F _ Lc) as Li.
      unfold c1. rewrite length_put; [exact Hc|lia]. }
    assert (Hnv : has_value E i s = (Ok false, s)).
    { unfold has_value, fm_is_empty, bind, get_region. rewrite Hm. cbn.
      unfold flag_cells in He. rewrite He. reflexivity. }
    assert (A1 : assert_ E (not_ (has_value E i)) s = (Ok tt, s)).
    { unfold assert_. destruct (e_dbg E); [|reflexivity].
      unfold not_, bind. rewrite Hnv. reflexivity. }
    set (s1 := MkState (upd (mem s) i (Some (MkRegion c1 false false))) (world s)
                              (EvFlagEnd i :: trace s)).
    assert (A2 : fm_invalidate E i s = (Ok tt, s1)).
    { unfold fm_invalidate, bind, get_region. rewrite Hm. cbn [flag_obj cells pay_obj].
      unfold flag_cells in He. rewrite He, Dd, Hsep. unfold s1, c1. rewrite Dd. reflexivity. }
    set (m2 := upd (mem s1) j (Some (MkRegion v' false true))).
    assert (Hi : run_ini E (move_ini E j) s1 = (Ok u, MkState m2 w1 (trace s1))).
    { unfold run_ini, load_payload, bind, get_region, call, ret, lift_res. cbn.
      rewrite upd_other by exact N. rewrite Hj. cbn. rewrite <- Hlv at 1. rewrite sub_full, Hf. cbn.
      unfold store_payload, bind, get_region. cbn. rewrite upd_other by exact N. rewrite Hj. cbn.
      rewrite (proj2 (Nat.eqb_eq _ _) Hl'). unfold set_region. cbn.
      rewrite put_full by congruence. reflexivity. }
    set (m3 := upd m2 i (Some (MkRegion u false true))).
    assert (A3 : placement_new E i (move_ini E j) s1 =
              (Ok tt, MkState m3 w1 (EvPayBegin i :: trace s1))).
    { unfold placement_new. rewrite (bind_ok _ _ _ _ _ Hi). unfold bind at 1, get_region. cbn [mem].
      unfold m2. rewrite upd_other by congruence. unfold s1 at 1. cbn [mem]. rewrite upd_same.
      cbn [pay_obj flag_obj orb andb cells]. rewrite Dd, (proj2 (Nat.eqb_eq _ _) Hlu).
      unfold bind, set_region, log. cbn. rewrite put_full by congruence. reflexivity. }
    assert (A4 : forall b : bool, (if b then placement_new E i (move_ini E j)
                  else on_throw (placement_new E i (move_ini E j)) (fm_init E i)) s1
                 = (Ok tt, MkState m3 w1 (EvPayBegin i :: trace s1))).
    { intros []; [exact A3|]. unfold on_throw. rewrite A3. reflexivity. }
    exists m3, (EvPayBegin i :: trace s1).
    assert (H3 : m3 i = Some (MkRegion u false true)) by apply upd_same.
    split; [exact H3|]. split; [unfold m3; rewrite upd_other by exact N; apply upd_same|].
    unfold construct_payload, noexcept_if, bind. rewrite A1, A2, A4. unfold assert_.
    destruct (e_dbg E); [|reflexivity]. unfold bind. rewrite (has_engaged i u); try assumption.
    - reflexivity.
    - unfold storable in *. rewrite Dd, Mm. exact Hu.
    - rewrite Dd. exact Hsep.
  Qed.

  (** The state after the move constructor, the two moves into an empty optional,
      and so on. *)
  Lemma same_has_false i j u v' m (w : W) l :
    e_tid E i = e_tid E j -> storable E j u = true -> looks_empty E j v' ->
    m i = Some (MkRegion u false true) -> m j = Some (MkRegion v' false true) ->
    assert_ E (same_has E i j) (MkState m w l) =
      (if e_dbg E then Dead AssertFailed else Ok tt, MkState m w l).
  Proof.
    intros Ht Hu HV Hi Hj. unfold assert_. destruct (e_dbg E); [|reflexivity].
    assert (Dd : dec E i = dec E j) by (unfold dec, ty; rewrite Ht; reflexivity).
    assert (Mm : man E i = man E j) by (unfold man, ty; rewrite Ht; reflexivity).
    destruct HV as (Hl & Hs & He) eqn:HV'. clear HV'.
    unfold same_has, bind. rewrite (has_engaged i u);
      [|unfold storable in *; rewrite Dd, Mm; exact Hu|rewrite Dd; exact Hs|exact Hi].
    rewrite (has_value_after E j v' HV m w l Hj). reflexivity.
  Qed.

  Lemma takes_outcome w p s j v' ck o :
    contract E w p -> reaches E w p s -> looks_empty E j v' -> takes E w p s j v' ck o ->
    exists r m w' l, m j = Some (MkRegion v' false true) /\
      step E o s = (if ck && e_dbg E then Dead AssertFailed else Ok r, MkState m w' l).
  Proof.
    intros C R HV T. destruct (reaches_rel E HE _ _ _ C R) as (xs & t & Ht & Rl).
    pose proof (proj1 HV) as Hl'. pose proof (proj1 (proj2 HV)) as Hsep.
    assert (K : forall i v u w1, e_tid E i = e_tid E j -> objs t i = Some (SOpt None) ->
              objs t j = Some (SOpt (Some v)) ->
              po_move (ops E j) v (world s) = ((ROk u, v'), w1) -> storable E j u = true ->
              exists m l, m i = Some (MkRegion u false true) /\ m j = Some (MkRegion v' false true) /\
                construct_payload E i (move_ini E j) s = (Ok tt, MkState m w1 l)).
    { intros i v u w1 He Hi Hj Hf Hu. assert (N : i <> j) by congruence.
      pose proof (rel_robj E _ _ _ i Rl I) as Hr. rewrite Hi in Hr. destruct Hr as (c & Hm & Hl & Hc).
      destruct (engaged_inplace _ _ _ _ Rl Hj Hsep) as (Hmj & Hlv).
      eapply construct_from; eassumption. }
    destruct T as [i v u w1 He Hf Hx Hmv Hu|i v u w1 He Hy Hx Hmv Hu|i d v u w1 He N Hy Hx Hmv Hu
                  |i v u w1 He Hy Hx Hmv Hu|i v u w1 He Hy Hx Hmv Hu|d v u w1 Hx Hmv|k f v x w1 Hx Hf];
      pose proof (opt_after_at E _ _ _ _ _ _ Hx Ht) as Hj;
      pose proof (has_value_true E s t j v Rl Hj) as Hh;
      destruct (engaged_inplace _ _ _ _ Rl Hj Hsep) as (Hmj & Hlv);
      cbn [step andb]; unfold unit_, val_.
    - pose proof (fresh_after_at E _ _ _ _ _ Hf Ht) as Hi. assert (N : i <> j) by congruence.
      destruct (alloc_ok E _ _ _ Rl Hi) as (s1 & H1 & R1).
      assert (Hw : world s1 = world s).
      { unfold alloc, set_region in H1. destruct (mem s i); [discriminate|]. injection H1 as <-. reflexivity. }
      assert (Hm1 : mem s1 j = mem s j).
      { unfold alloc, set_region in H1. destruct (mem s i); [discriminate|]. injection H1 as <-. cbn.
        apply upd_other. exact N. }
      destruct (init_ok E HE _ _ _ R1) as (s2 & H2 & R2).
      assert (Hw2 : world s2 = world s1 /\ mem s2 j = mem s1 j).
      { revert H2. unfold fm_init, bind, get_region, set_region, log, ret, dead.
        destruct (mem s1 i); [|discriminate]. destruct (negb _ && _); [discriminate|].
        destruct (d_sep (dec E i)); cbn; intros H2; injection H2 as <-; cbn; (split; [reflexivity|]);
          apply upd_other; exact N. }
      destruct Hw2 as (Hw2 & Hm2).
      destruct (hole_inv E _ _ _ _ R2) as ((c & Hm & Hl & Hc) & _).
      destruct (construct_from i j s2 c v u v' w1) as (m & l & Hmi & Hmj' & HC); try assumption;
        try congruence.
      exists ObUnit, m, w1, l. split; [exact Hmj'|].
      unfold ctor_move, same_type. rewrite (proj2 (Nat.eqb_eq _ _) He).
      assert (Hd : storage_default E i s1 = (Ok tt, s2)).
      { unfold storage_default. apply noexcept_ok. rewrite (bind_ok _ _ _ _ _ H2).
        apply assert_true. apply (not_eq s2 _ false).
        unfold has_value, fm_is_empty, bind, get_region. rewrite Hm. cbn.
        unfold flag_cells in Hc. rewrite Hc. reflexivity. }
      assert (Hh2 : has_value E j s2 = (Ok true, s2)).
      { revert Hh. unfold has_value, fm_is_empty, bind, get_region, ret, dead.
        rewrite Hm2, Hm1, Hmj. cbn. rewrite Hsep. cbn.
        destruct (m_is_empty (man E j) _) as [[]|]; cbn; intros Hh; try discriminate. reflexivity. }
      unfold bind at 1. rewrite (bind_ok _ _ _ _ _ H1). unfold noexcept_if.
      rewrite (bind_ok _ _ _ _ _ Hd). unfold on_throw.
      rewrite (bind_ok _ _ _ _ _ Hh2), (bind_ok _ _ _ _ _ HC).
      rewrite (same_has_false i j u v') by assumption. destruct (e_dbg E); reflexivity.
    - pose proof (opt_after_at E _ _ _ _ _ _ Hy Ht) as Hi.
      destruct (K i v u w1 He Hi Hj Hmv Hu) as (m & l & Hmi & Hmj' & HC).
      exists ObUnit, m, w1, l. split; [exact Hmj'|].
      unfold assign_move, same_type, noexcept_if. rewrite (proj2 (Nat.eqb_eq _ _) He).
      unfold bind at 1. rewrite (bind_ok _ _ _ _ _ Hh).
      assert (Ha : assign_value E i (move_arg E j) s = (Ok tt, MkState m w1 l)).
      { unfold assign_value. rewrite (bind_ok _ _ _ _ _ (has_value_false E s t i Rl Hi)).
        cbn [move_arg a_ini]. rewrite (bind_ok _ _ _ _ _ HC). apply assert_true.
        apply (has_engaged i u); [|unfold dec, ty; rewrite He; exact Hsep|exact Hmi].
        unfold storable, dec, man, ty in *. rewrite He. exact Hu. }
      rewrite (bind_ok _ _ _ _ _ Ha). rewrite (same_has_false i j u v') by assumption.
      destruct (e_dbg E); reflexivity.
    - pose proof (opt_after_at E _ _ _ _ _ _ Hy Ht) as Hi.
      assert (Dd : dec E i = dec E j) by (unfold dec, ty; rewrite He; reflexivity).
      assert (Hlu : length u = d_psize (dec E j)).
      { unfold storable, storable_in in Hu. apply andb_prop in Hu as (Hu & _). apply Nat.eqb_eq, Hu. }
      assert (Hsi : d_sep (dec E i) = false) by (rewrite Dd; exact Hsep).
      destruct (engaged_inplace _ _ _ _ Rl Hi Hsi) as (Hmi & Hld).
      set (m1 := upd (mem s) i (Some (MkRegion u false true))).
      set (m2 := upd m1 j (Some (MkRegion v' false true))).
      exists ObUnit, m2, w1, (trace s). split; [apply upd_same|].
      unfold assign_move, same_type, noexcept_if. rewrite (proj2 (Nat.eqb_eq _ _) He).
      unfold bind at 1. rewrite (bind_ok _ _ _ _ _ Hh).
      assert (Hm2 : m2 i = Some (MkRegion u false true)).
      { unfold m2. rewrite upd_other by congruence. apply upd_same. }
      assert (Ha : assign_value E i (move_arg E j) s = (Ok tt, MkState m2 w1 (trace s))).
      { unfold assign_value. rewrite (bind_ok _ _ _ _ _ (has_value_true E s t i d Rl Hi)).
        assert (Hp : assign_payload E i (move_arg E j) s = (Ok tt, MkState m2 w1 (trace s))).
        { unfold assign_payload. cbn [move_arg move_ini a_ini i_src a_assign i_const].
          rewrite (proj2 (Nat.eqb_neq _ _) N).
          unfold load_payload, store_payload, bind, get_region, call, ret. rewrite Hmi. cbn.
          rewrite Hmj. cbn. rewrite <- Hlv at 1. rewrite <- Hld at 1. rewrite !sub_full, Hmv. cbn.
          rewrite Hmi. cbn. rewrite Dd, (proj2 (Nat.eqb_eq _ _) Hlu). unfold set_region. cbn.
          rewrite upd_other by exact N. rewrite Hmj. cbn. rewrite (proj2 (Nat.eqb_eq _ _) Hl'). cbn.
          rewrite !put_full by congruence. reflexivity. }
        rewrite (bind_ok _ _ _ _ _ Hp). apply assert_true.
        apply (has_engaged i u); [|exact Hsi|exact Hm2].
        unfold storable, dec, man, ty in *. rewrite He. exact Hu. }
      rewrite (bind_ok _ _ _ _ _ Ha).
      rewrite (same_has_false i j u v'); try assumption; [|apply upd_same].
      destruct (e_dbg E); reflexivity.
    - pose proof (opt_after_at E _ _ _ _ _ _ Hy Ht) as Hi.
      destruct (K i v u w1 He Hi Hj Hmv Hu) as (m & l & Hmi & Hmj' & HC).
      exists ObUnit, m, w1, l. split; [exact Hmj'|].
      unfold swap, same_type, noexcept_if. rewrite (proj2 (Nat.eqb_eq _ _) He).
      unfold bind at 1. rewrite (bind_ok _ _ _ _ _ (has_value_false E s t i Rl Hi)).
      rewrite (bind_ok _ _ _ _ _ Hh). cbn [Bool.eqb]. rewrite (bind_ok _ _ _ _ _ HC).
      unfold reset, noexcept_if, bind. rewrite (has_value_after E j v' HV _ _ _ Hmj'). reflexivity.
    - pose proof (opt_after_at E _ _ _ _ _ _ Hy Ht) as Hi.
      destruct (K i v u w1 He Hi Hj Hmv Hu) as (m & l & Hmi & Hmj' & HC).
      exists ObUnit, m, w1, l. split; [exact Hmj'|].
      unfold swap, same_type, noexcept_if. rewrite (proj2 (Nat.eqb_eq _ _) (eq_sym He)).
      unfold bind at 1. rewrite (bind_ok _ _ _ _ _ Hh).
      rewrite (bind_ok _ _ _ _ _ (has_value_false E s t i Rl Hi)). cbn [Bool.eqb].
      rewrite (bind_ok _ _ _ _ _ HC).
      unfold reset, noexcept_if, bind. rewrite (has_value_after E j v' HV _ _ _ Hmj'). reflexivity.
    - exists (ObVal u), (upd (mem s) j (Some (MkRegion v' false true))), w1, (trace s).
      split; [apply upd_same|]. unfold value_or_move. unfold bind at 1.
      rewrite (bind_ok _ _ _ _ _ Hh).
      unfold run_ini, load_payload, store_payload, bind, get_region, call, ret. cbn. rewrite Hmj. cbn.
      rewrite <- Hlv at 1. rewrite sub_full, Hmv. cbn. rewrite Hmj. cbn.
      rewrite (proj2 (Nat.eqb_eq _ _) Hl'). cbn. rewrite put_full by congruence. reflexivity.
    - exists (ObVal x), (upd (mem s) j (Some (MkRegion v' false true))), w1, (trace s).
      split; [apply upd_same|].
      assert (Ha : acc E k j s = (Ok tt, s)).
      { destruct k; cbn [acc]; unfold op_deref, op_arrow, value;
          try (apply assert_true; exact Hh). rewrite (bind_ok _ _ _ _ _ Hh). reflexivity. }
      unfold bind at 1. rewrite (bind_ok _ _ _ _ _ Ha).
      unfold use_payload, load_payload, store_payload, bind, get_region, call, ret. cbn. rewrite Hmj. cbn.
      rewrite <- Hlv at 1. rewrite sub_full, Hf. cbn. rewrite Hmj. cbn.
      rewrite (proj2 (Nat.eqb_eq _ _) Hl'). cbn. rewrite put_full by congruence. reflexivity.
  Qed.
End Moved.

(** ** C51 *)

(** Assertions stop move construction and move assignment. *)
Theorem C51_assertion_on_move :
  forall W (E : env W) w p s j v' o,
    env_ok E -> e_dbg E = true -> contract E w p -> reaches E w p s ->
    looks_empty E j v' -> takes E w p s j v' true o ->
    fst (step E o s) = Dead AssertFailed.
Proof.
  intros W E w p s j v' o HE Hd C R HV T.
  destruct (takes_outcome E HE w p s j v' true o C R HV T) as (r & m & w' & l & _ & H).
  rewrite H, Hd. reflexivity.
Qed.

(** Without assertions every move, and with assertions every other way of moving
    the payload out, succeeds and leaves an optional that is empty to its users and
    never destroys its payload. *)
Theorem C51_source_lost :
  forall W (E : env W) w p s j v' ck o,
    env_ok E -> contract E w p -> reaches E w p s ->
    looks_empty E j v' -> takes E w p s j v' ck o -> ck && e_dbg E = false ->
    exists r s', step E o s = (Ok r, s') /\ lost E j s'.
Proof.
  intros W E w p s j v' ck o HE C R HV T Hck.
  destruct (takes_outcome E HE w p s j v' ck o C R HV T) as (r & m & w' & l & Hm & H).
  rewrite Hck in H. exists r, (MkState m w' l). split; [exact H|]. eapply lost_intro; eassumption.
Qed.

(** Only in-place flags are affected: with a separate flag every value of the right
    size is storable, so [C15_source_keeps_engagement] covers every moved-from
    state. *)
Theorem C51_separate_flag_not_affected :
  forall W (E : env W) j, d_sep (dec E j) = true ->
    (forall v, ~ looks_empty E j v) /\
    forall v, length v = d_psize (dec E j) -> storable E j v = true.
Proof.
  intros W E j Hs. split.
  - intros v (_ & H & _). congruence.
  - intros v Hl. unfold storable, storable_in. rewrite Hs, Hl, Nat.eqb_refl. reflexivity.
Qed.

(** A handle class: its first cell is the handle, moving sets it to 0, and the
    sentinel is a 0 handle. *)
Definition h_ops : payops sworld_t :=
  let out v := match v with _ :: l => Atom 0 :: l | [] => [] end in
  MkPayOps _
    (fun v w => (ROk v, w))
    (fun v w => ((ROk v, out v), w))
    (fun _ v w => ((ROk tt, v), w))
    (fun _ v w => ((ROk tt, (v, out v)), w))
    (fun v w => ((ROk tt, v), w))
    (fun v w => ((ROk tt, v), w))
    (fun a b w => ((ROk tt, (b, a)), w))
    (fun v w => ((ROk tt, v), w))
    (fun _ w => MkSW (sched w) (1 + calls w))
    true true true true.
Definition handle (dbg : bool) : env sworld_t :=
  MkEnv _ (fun _ => MkOptTy _ (dec_inplace 2) (man_assign [Atom 0; Atom 0] p_is0) h_ops)
        (fun _ => 0) dbg.

Lemma handle_ok dbg : env_ok (handle dbg).
Proof.
  intros t. split; [apply dec_inplace_ok|apply man_assign_ok; reflexivity|].
  split; cbn; intros; exact I.
Qed.

(** The hypotheses are met by each kind of move. *)
Example C51_example dbg :
  let p := [ODefault 0; OInPlace 1 (mkP 5 6); OInPlace 2 (mkP 7 8)] in
  let s := snd (run (handle dbg) p (init_state quiet)) in
  contract (handle dbg) quiet p /\ reaches (handle dbg) quiet p s /\
  looks_empty (handle dbg) 1 [Atom 0; Atom 6] /\
  takes (handle dbg) quiet p s 1 [Atom 0; Atom 6] true (OMoveCtor 3 1) /\
  takes (handle dbg) quiet p s 1 [Atom 0; Atom 6] true (OMoveAssign 0 1) /\
  takes (handle dbg) quiet p s 1 [Atom 0; Atom 6] true (OMoveAssign 2 1) /\
  takes (handle dbg) quiet p s 1 [Atom 0; Atom 6] false (OSwap 0 1) /\
  takes (handle dbg) quiet p s 1 [Atom 0; Atom 6] false (OSwap 1 0) /\
  takes (handle dbg) quiet p s 1 [Atom 0; Atom 6] false (OValueOrMove 1 (mkP 0 0)).
Proof.
  cbv zeta. split; [eapply contract_intro; [op_oks|destruct dbg; vm_compute; reflexivity]|].
  split; [eapply reaches_intro; destruct dbg; vm_compute; reflexivity|].
  split; [repeat split|].
  assert (O : forall i x, match std_run (handle dbg) quiet
                 [ODefault 0; OInPlace 1 (mkP 5 6); OInPlace 2 (mkP 7 8)] with
               (Some _, t) => objs t i | _ => None end = Some (SOpt x) ->
              opt_after (handle dbg) quiet [ODefault 0; OInPlace 1 (mkP 5 6); OInPlace 2 (mkP 7 8)] i x)
    by (intros i x; apply opt_after_intro).
  assert (O0 := O 0 None). assert (O1 := O 1 (Some [Atom 5; Atom 6])).
  assert (O2 := O 2 (Some [Atom 7; Atom 8])). clear O.
  specialize (O0 ltac:(destruct dbg; vm_compute; reflexivity)).
  specialize (O1 ltac:(destruct dbg; vm_compute; reflexivity)).
  specialize (O2 ltac:(destruct dbg; vm_compute; reflexivity)).
  repeat split.
  - eapply tk_ctor; [reflexivity| |exact O1| |]; [apply fresh_after_intro; destruct dbg; vm_compute; reflexivity| |];
      destruct dbg; vm_compute; reflexivity.
  - eapply tk_assign_empty; [reflexivity|exact O0|exact O1| |]; destruct dbg; vm_compute; reflexivity.
  - eapply tk_assign_engaged; [reflexivity|discriminate|exact O2|exact O1| |];
      destruct dbg; vm_compute; reflexivity.
  - eapply tk_swap_to; [reflexivity|exact O0|exact O1| |]; destruct dbg; vm_compute; reflexivity.
  - eapply tk_swap_from; [reflexivity|exact O0|exact O1| |]; destruct dbg; vm_compute; reflexivity.
  - eapply tk_value_or; [exact O1|]; destruct dbg; vm_compute; reflexivity.
Qed.

(** Two constructions, one destruction: a whole program with assertions in which
    swap loses a payload. *)
Example C51_swap_leaks :
  exists s, run (handle true) [ODefault 0; OInPlace 1 (mkP 5 6); OSwap 0 1; OHasValue 1; ODtor 1; ODtor 0]
                (init_state quiet)
            = (inl [ObUnit; ObUnit; ObUnit; ObBool false; ObUnit; ObUnit], s) /\
            In (EvPayAbandoned 1) (trace s).
Proof. eexists. split; [vm_compute; reflexivity|]. cbn. auto 20. Qed.
