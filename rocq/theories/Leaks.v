(** * Leaks: flag objects of in-place optionals (properties C17, C49)

    The README (lines 399-472) says that the destructor of an empty optional calls
    [invalidate_empty_flag]; optional.h:978-983 does not.  The theorems count exactly
    which flag objects are never destroyed.  Apart from the refuting histories,
    everything holds for all machine states, not only for those within the contract. *)

From Coq Require Import List NArith ZArith Bool Arith Lia.
From Verif Require Import Cells CellsFacts Machine Optional Program Spec Laws Refine
  Contract Effects Lifetime Bits Manip Sample.
Import ListNotations.

Local Arguments put : simpl never.
Local Arguments sub : simpl never.

Section Leaks.
  Context {W : Type}.
  Variable E : env W.

  (** ** Code without effect on memory *)

  Lemma has_value_same i s r s' : has_value E i s = (r, s') -> s' = s.
  Proof.
    unfold has_value, fm_is_empty, bind, get_region, dead, ret.
    destruct (mem s i) as [x|]; [|congruence].
    destruct (_ || _); [|congruence]. destruct (m_is_empty _ _); congruence.
  Qed.
  Lemma has_value_never_throws i s e s' : has_value E i s <> (Throw e, s').
  Proof.
    unfold has_value, fm_is_empty, bind, get_region, dead, ret.
    destruct (mem s i) as [x|]; [|congruence].
    destruct (_ || _); [|congruence]. destruct (m_is_empty _ _); congruence.
  Qed.
  (** An assertion whose condition has no effect. *)
  Definition pure (c : M W bool) : Prop :=
    forall s r s', c s = (r, s') -> s' = s /\ forall e, r <> Throw e.
  Lemma pure_has i : pure (has_value E i).
  Proof.
    intros s r s' H. split; [eapply has_value_same; eauto|]. intros e ->.
    eapply has_value_never_throws; eauto.
  Qed.
  Lemma pure_bind (c : M W bool) k : pure c -> (forall b, pure (k b)) -> pure (bind c k).
  Proof.
    intros Hc Hk s r s' H. unfold bind in H. destruct (c s) as [[b|e|f] s1] eqn:H1;
      destruct (Hc _ _ _ H1) as (-> & N).
    - apply Hk in H. exact H.
    - destruct (N e eq_refl).
    - injection H as <- <-. split; [reflexivity|congruence].
  Qed.
  Lemma pure_ret b : pure (ret b).
  Proof. intros s r s' [= <- <-]. split; [reflexivity|congruence]. Qed.
  Lemma pure_not c : pure c -> pure (not_ c).
  Proof. intros H. apply pure_bind; [exact H|]. intros. apply pure_ret. Qed.
  Lemma pure_same_has i j : pure (same_has E i j).
  Proof. repeat (apply pure_bind; [apply pure_has|intros ?]). apply pure_ret. Qed.
  Lemma assert_same c s r s' :
    pure c -> assert_ E c s = (r, s') -> s' = s /\ forall e, r <> Throw e.
  Proof.
    intros Hc. unfold assert_, bind. destruct (e_dbg E).
    - destruct (c s) as [[[]|e|f] s1] eqn:H1; destruct (Hc _ _ _ H1) as (-> & N);
        intros [= <- <-]; split; try reflexivity; congruence.
    - intros [= <- <-]. split; [reflexivity|congruence].
  Qed.

  (** Evaluating arguments creates and destroys no payload or flag object. *)
  Lemma run_ini_trace n s r s' : run_ini E n s = (r, s') -> trace s' = trace s.
  Proof.
    intros H. pose (R := fun a b : state W => trace b = trace a).
    assert (Hld : forall i q x y, load_payload E i q = (x, y) -> trace y = trace q).
    { intros i q x y. unfold load_payload, bind, get_region, ret, dead.
      destruct (mem q i) as [z|]; [|congruence]. destruct (pay_obj z); congruence. }
    assert (Hst : forall i v q x y, store_payload E i v q = (x, y) -> trace y = trace q).
    { intros i v q x y. unfold store_payload, bind, get_region, set_region, dead.
      destruct (mem q i) as [z|]; [|congruence]. destruct (pay_obj z); [|congruence].
      destruct (Nat.eqb _ _); [|congruence]. intros [= <- <-]. reflexivity. }
    assert (B : forall A B (m : M W A) (k : A -> M W B),
              (forall q x y, m q = (x, y) -> trace y = trace q) ->
              (forall a q x y, k a q = (x, y) -> trace y = trace q) ->
              forall q x y, bind m k q = (x, y) -> trace y = trace q).
    { intros A B m k Hm Hk q x y. unfold bind. destruct (m q) as [[a|e|f] q1] eqn:H1; intros H2;
        try (injection H2 as <- <-); rewrite <- (Hm _ _ _ H1); eauto. }
    assert (U : forall A (a : A) q x y, @ret W A a q = (x, y) -> trace y = trace q).
    { intros A a q x y [= <- <-]. reflexivity. }
    assert (LM : forall l q x y, load_more E l q = (x, y) -> trace y = trace q).
    { induction l as [|[j c] l IH]; cbn [load_more]; [apply U|].
      apply B; [apply Hld|intros v]. apply B; [exact IH|intros vs; apply U]. }
    assert (SM : forall l vs q x y, store_more E l vs q = (x, y) -> trace y = trace q).
    { induction l as [|[j c] l IH]; intros [|v vs]; cbn [store_more]; try apply U.
      apply B; [destruct c; [apply U|apply Hst]|intros _; apply IH]. }
    revert s r s' H. unfold run_ini.
    apply B; [destruct (i_src n); [apply Hld|apply U]|intros src].
    apply B; [apply LM|intros more]. apply B.
    { intros q x y. unfold call. destruct (i_fun n _ (world q)). intros [= <- <-]. reflexivity. }
    intros p. apply B; [destruct (i_src n); [destruct (i_const n); [apply U|apply Hst]|apply U]|intros _].
    apply B; [apply SM|intros _]. intros q x y. destruct (fst p); intros [= <- <-]; reflexivity.
  Qed.

  (** ** Events of the building blocks *)

  Definition flag_events (i : loc) (l : list event) : list event :=
    if d_sep (dec E i) then [] else l.

  Lemma fm_init_events i s s' :
    fm_init E i s = (Ok tt, s') ->
    trace s' = flag_events i [EvFlagBegin i] ++ trace s /\
    exists r, mem s' i = Some r /\ flag_obj r = true /\
              (d_sep (dec E i) = false -> pay_obj r = false).
  Proof.
    unfold fm_init, flag_events, bind, get_region, set_region, dead, log, ret.
    destruct (mem s i) as [r|]; [|discriminate].
    destruct (d_sep (dec E i)); cbn.
    - intros [= <-]. split; [reflexivity|]. eexists. cbn. rewrite upd_same.
      split; [reflexivity|]. split; [reflexivity|discriminate].
    - destruct (flag_obj r || pay_obj r) eqn:B; [discriminate|]. intros [= <-].
      apply orb_false_iff in B as (_ & B).
      split; [reflexivity|]. eexists. cbn. rewrite upd_same. auto.
  Qed.
  Lemma fm_init_not_throw i s e s' : fm_init E i s <> (Throw e, s').
  Proof.
    unfold fm_init, bind, get_region, set_region, dead, log, ret.
    destruct (mem s i) as [r|]; [|discriminate].
    destruct (_ && _); [discriminate|]. destruct (d_sep _); discriminate.
  Qed.
  Lemma fm_invalidate_events i s s' :
    fm_invalidate E i s = (Ok tt, s') -> trace s' = flag_events i [EvFlagEnd i] ++ trace s.
  Proof.
    unfold fm_invalidate, flag_events, bind, get_region, set_region, dead, log, ret.
    destruct (mem s i) as [r|]; [|discriminate]. destruct (flag_obj r); [|discriminate].
    destruct (_ || _); [|discriminate]. destruct (d_sep (dec E i)); intros [= <-]; reflexivity.
  Qed.
  Lemma fm_invalidate_not_throw i s e s' : fm_invalidate E i s <> (Throw e, s').
  Proof.
    unfold fm_invalidate, bind, get_region, set_region, dead, log, ret.
    destruct (mem s i) as [r|]; [|discriminate]. destruct (flag_obj r); [|discriminate].
    destruct (_ || _); [|discriminate]. destruct (d_sep (dec E i)); discriminate.
  Qed.

  Lemma placement_events i n s r s' :
    placement_new E i n s = (r, s') ->
    match r with
    | Ok _ => trace s' = EvPayBegin i :: trace s
    | Throw _ => trace s' = trace s
    | Dead _ => True
    end.
  Proof.
    unfold placement_new, bind. destruct (run_ini E n s) as [[v|e|f] s1] eqn:H1;
      pose proof (run_ini_trace _ _ _ _ H1) as T.
    - unfold get_region, set_region, dead, log. destruct (mem s1 i) as [x|]; [|intros [= <- <-]; exact I].
      destruct (_ || _); [intros [= <- <-]; exact I|].
      destruct (Nat.eqb _ _); intros [= <- <-]; [|exact I]. cbn. congruence.
    - intros [= <- <-]. exact T.
    - intros [= <- <-]. exact I.
  Qed.

  Lemma construct_events i n s r s' :
    construct_payload E i n s = (r, s') ->
    match r with
    | Ok _ => trace s' = EvPayBegin i :: flag_events i [EvFlagEnd i] ++ trace s
    | Throw _ =>
        trace s' = flag_events i [EvFlagBegin i; EvFlagEnd i] ++ trace s /\
        exists x, mem s' i = Some x /\ flag_obj x = true /\
                  (d_sep (dec E i) = false -> pay_obj x = false)
    | Dead _ => True
    end.
  Proof.
    unfold construct_payload, noexcept_if. unfold bind at 1.
    destruct (assert_ E (not_ (has_value E i)) s) as [[u|e|f] s1] eqn:H1;
      destruct (assert_same _ _ _ _ (pure_not _ (pure_has i)) H1) as (-> & N1).
    2:{ destruct (N1 e eq_refl). }
    2:{ intros [= <- <-]. exact I. }
    unfold bind at 1. destruct (fm_invalidate E i s) as [[[]|e|f] s2] eqn:H2.
    2:{ destruct (fm_invalidate_not_throw _ _ _ _ H2). }
    2:{ intros [= <- <-]. exact I. }
    apply fm_invalidate_events in H2. unfold bind.
    set (m := if i_nothrow n then placement_new E i n
              else on_throw (placement_new E i n) (fm_init E i)).
    destruct (m s2) as [[u3|e|f] s3] eqn:H3.
    - assert (trace s3 = EvPayBegin i :: trace s2) as T3.
      { unfold m in H3. destruct (i_nothrow n); [apply placement_events in H3; exact H3|].
        unfold on_throw in H3. destruct (placement_new E i n s2) as [[a|e|f] s4] eqn:H4.
        - injection H3 as _ <-. apply placement_events in H4. exact H4.
        - destruct (fm_init E i s4) as [[|e'|f] s5]; discriminate.
        - discriminate. }
      destruct (assert_ E (has_value E i) s3) as [[u4|e|f] s4] eqn:H4;
        destruct (assert_same _ _ _ _ (pure_has i) H4) as (-> & N4).
      + intros [= <- <-]. rewrite T3, H2. reflexivity.
      + destruct (N4 e eq_refl).
      + intros [= <- <-]. exact I.
    - unfold m in H3. destruct (i_nothrow n); [intros [= <- <-]; exact I|].
      intros [= <- <-]. unfold on_throw in H3.
      destruct (placement_new E i n s2) as [[a|e2|f] s4] eqn:H4; [discriminate| |discriminate].
      apply placement_events in H4.
      destruct (fm_init E i s4) as [[[]|e'|f] s5] eqn:H5; [|discriminate|discriminate].
      injection H3 as -> <-. apply fm_init_events in H5 as (T5 & x & Hx).
      split; [|eauto]. rewrite T5, H4, H2. unfold flag_events. destruct (d_sep _); reflexivity.
    - intros [= <- <-]. exact I.
  Qed.

  (** ** Counting *)

  Definition lost (i : loc) (s : state W) : nat := count (is_flag_abandoned i) (trace s).
  Definition in_place (i : loc) : nat := if d_sep (dec E i) then 0 else 1.

  Lemma dealloc_events i s s' x :
    dealloc E i s = (Ok tt, s') -> mem s i = Some x -> flag_obj x = true ->
    (d_sep (dec E i) = false -> pay_obj x = false) ->
    lost i s' = lost i s + in_place i.
  Proof.
    unfold dealloc, lost, in_place, count, bind, get_region, set_region, log, ret. intros H Hm Hf Hp.
    rewrite Hm in H. rewrite Hf in H. destruct (d_sep (dec E i)).
    - cbn in H. destruct (pay_obj x); injection H as <-; cbn; lia.
    - rewrite (Hp eq_refl) in H. injection H as <-. cbn. rewrite Nat.eqb_refl. cbn. lia.
  Qed.
  Lemma dealloc_not_throw i s e s' : dealloc E i s <> (Throw e, s').
  Proof.
    unfold dealloc, bind, get_region, set_region, log, ret, dead.
    destruct (mem s i) as [r|]; [|discriminate].
    destruct (pay_obj r); destruct (flag_obj r && _); discriminate.
  Qed.

  Lemma lost_flag i s s' l :
    trace s' = flag_events i l ++ trace s -> ~ In (EvFlagAbandoned i) l -> lost i s' = lost i s.
  Proof.
    unfold lost, count, flag_events. intros -> N. rewrite filter_app, app_length.
    destruct (d_sep (dec E i)); [reflexivity|].
    replace (filter (is_flag_abandoned i) l) with (@nil event); [reflexivity|].
    symmetry. induction l as [|e l IH]; [reflexivity|]. cbn.
    rewrite IH by (intros H; apply N; right; exact H).
    destruct e; try reflexivity. cbn. destruct (Nat.eqb_spec i i0); [|reflexivity].
    subst. destruct N. left. reflexivity.
  Qed.

  (** What a failed or successful constructor leaves behind. *)
  Definition ctor_loss (i : loc) (r : out unit) : nat :=
    match r with Throw _ => in_place i | _ => 0 end.

  Lemma alloc_trace i s r s' : alloc E i s = (r, s') -> trace s' = trace s /\ forall e, r <> Throw e.
  Proof.
    unfold alloc, set_region. destruct (mem s i); intros [= <- <-]; split; try reflexivity; congruence.
  Qed.

  Lemma in_place_loss i n s r s' :
    ctor_in_place E i n s = (r, s') -> (forall f, r <> Dead f) ->
    lost i s' = lost i s + ctor_loss i r.
  Proof.
    unfold ctor_in_place. unfold bind at 1. intros H ND.
    destruct (alloc E i s) as [[u|e|f] s1] eqn:H1; destruct (alloc_trace _ _ _ _ H1) as (T1 & N1).
    2:{ destruct (N1 e eq_refl). }
    2:{ injection H as <- <-. destruct (ND f eq_refl). }
    assert (lost i s1 = lost i s) as L1 by (unfold lost; rewrite T1; reflexivity).
    unfold on_throw, bind in H.
    destruct (fm_init E i s1) as [[[]|e|f] s2] eqn:H2.
    2:{ destruct (fm_init_not_throw _ _ _ _ H2). }
    2:{ injection H as <- <-. destruct (ND f eq_refl). }
    apply fm_init_events in H2 as (T2 & _).
    apply lost_flag in T2; [|intros [?|[]]; discriminate].
    destruct (construct_payload E i n s2) as [[u3|e|f] s3] eqn:H3; apply construct_events in H3.
    - injection H as <- <-. cbn. rewrite <- L1, <- T2.
      change (EvPayBegin i :: flag_events i [EvFlagEnd i] ++ trace s2)
        with ([EvPayBegin i] ++ flag_events i [EvFlagEnd i] ++ trace s2) in H3.
      unfold lost, count. rewrite H3, filter_app. cbn.
      pose proof (lost_flag i s2 (MkState (mem s3) (world s3) (flag_events i [EvFlagEnd i] ++ trace s2))
                    [EvFlagEnd i] eq_refl) as L.
      unfold lost, count in L. cbn in L. rewrite L; [lia|]. intros [?|[]]; discriminate.
    - destruct H3 as (T3 & x & Hx & Hf & Hp).
      apply lost_flag in T3; [|intros [?|[?|[]]]; discriminate].
      destruct (dealloc E i s3) as [[[]|e4|f] s4] eqn:H4.
      + injection H as <- <-. cbn. rewrite (dealloc_events _ _ _ _ H4 Hx Hf Hp). lia.
      + destruct (dealloc_not_throw _ _ _ _ H4).
      + injection H as <- <-. destruct (ND f eq_refl).
    - injection H as <- <-. destruct (ND f eq_refl).
  Qed.

  Lemma storage_default_events i s r s' :
    storage_default E i s = (r, s') -> (forall f, r <> Dead f) ->
    r = Ok tt /\ lost i s' = lost i s /\
    exists x, mem s' i = Some x /\ flag_obj x = true /\ (d_sep (dec E i) = false -> pay_obj x = false).
  Proof.
    unfold storage_default, noexcept_if, bind. intros H ND.
    destruct (fm_init E i s) as [[[]|e|f] s1] eqn:H1.
    2:{ destruct (fm_init_not_throw _ _ _ _ H1). }
    2:{ injection H as <- <-. destruct (ND f eq_refl). }
    apply fm_init_events in H1 as (T1 & Hx).
    apply lost_flag in T1; [|intros [?|[]]; discriminate].
    destruct (assert_ E (not_ (has_value E i)) s1) as [[[]|e|f] s2] eqn:H2;
      destruct (assert_same _ _ _ _ (pure_not _ (pure_has i)) H2) as (-> & N2).
    - injection H as <- <-. auto.
    - destruct (N2 e eq_refl).
    - injection H as <- <-. destruct (ND f eq_refl).
  Qed.

  (** Destruction of an optional. *)
  Lemma storage_dtor_loss i s r s' :
    storage_dtor E i s = (r, s') -> (forall f, r <> Dead f) ->
    r = Ok tt /\
    lost i s' = lost i s +
      match mem s i with Some x => if flag_obj x then in_place i else 0 | None => 0 end.
  Proof.
    unfold storage_dtor, noexcept_if. intros H ND. unfold bind at 1 in H.
    destruct (has_value E i s) as [[b|e|f] s1] eqn:H1; pose proof (has_value_same _ _ _ _ H1) as ->.
    2:{ destruct (has_value_never_throws _ _ _ _ H1). }
    2:{ injection H as <- <-. destruct (ND f eq_refl). }
    assert (D : forall q q' u, dealloc E i q = (Ok u, q') ->
              lost i q' = lost i q + match mem q i with
                                     | Some x => if flag_obj x then in_place i else 0
                                     | None => 0 end).
    { intros q q' u. unfold dealloc, lost, in_place, count, bind, get_region, set_region, log, ret, dead.
      destruct (mem q i) as [x|]; [|discriminate].
      destruct (pay_obj x), (flag_obj x), (d_sep (dec E i)); cbn; intros [= _ <-]; cbn;
        rewrite ?Nat.eqb_refl; cbn; lia. }
    destruct b.
    - unfold bind at 1 in H. unfold destroy_payload in H. unfold bind at 1 in H.
      unfold get_region at 1 in H. destruct (mem s i) as [x|] eqn:Hm;
        [|injection H as <- <-; destruct (ND NoStorage eq_refl)].
      destruct (pay_obj x); [|injection H as <- <-; destruct (ND NoObject eq_refl)].
      unfold bind, call, set_region, log in H. cbn in H.
      match type of H with match ?d with _ => _ end = _ => destruct d as [[u|e|f] s2] eqn:H2 end.
      + injection H as <- <-. destruct u. split; [reflexivity|].
        change (dealloc E i (MkState
                  (upd (mem s) i (Some (MkRegion (put 0 (indets (d_psize (dec E i))) (cells x))
                                                 (flag_obj x) false)))
                  (po_dtor (ops E i) (sub 0 (d_psize (dec E i)) (cells x)) (world s))
                  (EvPayEnd i :: trace s)) = (Ok tt, s2)) in H2.
        apply D in H2. cbn in H2. rewrite upd_same in H2. cbn in H2. exact H2.
      + exfalso. eapply dealloc_not_throw. exact H2.
      + injection H as <- <-. destruct (ND f eq_refl).
    - unfold bind, ret at 1 in H. destruct (dealloc E i s) as [[[]|e|f] s2] eqn:H2.
      + injection H as <- <-. split; [reflexivity|].
        apply D in H2. exact H2.
      + destruct (dealloc_not_throw _ _ _ _ H2).
      + injection H as <- <-. destruct (ND f eq_refl).
  Qed.

  (** Body of the copy and move constructors, with the destruction of the base. *)
  Lemma ctor_body_loss i j n s r s' x :
    mem s i = Some x -> flag_obj x = true ->
    on_throw (b <- has_value E j ;;
              (if b then construct_payload E i n else assert_ E (not_ (has_value E i))) ;;
              assert_ E (same_has E i j)) (storage_dtor E i) s = (r, s') ->
    (forall f, r <> Dead f) ->
    lost i s' = lost i s + ctor_loss i r.
  Proof.
    intros Hm Hf H ND. unfold on_throw in H. unfold bind at 1 in H.
    destruct (has_value E j s) as [[b|e|f] s1] eqn:H1; pose proof (has_value_same _ _ _ _ H1) as ->.
    2:{ destruct (has_value_never_throws _ _ _ _ H1). }
    2:{ injection H as <- <-. destruct (ND f eq_refl). }
    unfold bind in H. destruct b.
    - destruct (construct_payload E i n s) as [[u|e|f] s2] eqn:H2; apply construct_events in H2.
      + assert (lost i s2 = lost i s) as L2.
        { pose proof (lost_flag i s (MkState (mem s2) (world s2) (flag_events i [EvFlagEnd i] ++ trace s))
                        [EvFlagEnd i] eq_refl) as L.
          unfold lost, count in *. rewrite H2. cbn in *. rewrite L; [reflexivity|].
          intros [?|[]]; discriminate. }
        destruct (assert_ E (same_has E i j) s2) as [[u3|e|f] s3] eqn:H3;
          destruct (assert_same _ _ _ _ (pure_same_has i j) H3) as (-> & N3).
        * injection H as <- <-. cbn. lia.
        * destruct (N3 e eq_refl).
        * injection H as <- <-. destruct (ND f eq_refl).
      + destruct H2 as (T2 & y & Hy & Hyf & _).
        apply lost_flag in T2; [|intros [?|[?|[]]]; discriminate].
        destruct (storage_dtor E i s2) as [[u3|e3|f] s3] eqn:H3.
        * injection H as <- <-. cbn.
          destruct (storage_dtor_loss _ _ _ _ H3 ltac:(congruence)) as (_ & L3).
          rewrite Hy, Hyf in L3. lia.
        * injection H as <- <-. destruct (ND Terminated eq_refl).
        * injection H as <- <-. destruct (ND f eq_refl).
      + injection H as <- <-. destruct (ND f eq_refl).
    - destruct (assert_ E (not_ (has_value E i)) s) as [[u|e|f] s2] eqn:H2;
        destruct (assert_same _ _ _ _ (pure_not _ (pure_has i)) H2) as (-> & N2).
      + destruct (assert_ E (same_has E i j) s) as [[u3|e|f] s3] eqn:H3;
          destruct (assert_same _ _ _ _ (pure_same_has i j) H3) as (-> & N3).
        * injection H as <- <-. cbn. lia.
        * destruct (N3 e eq_refl).
        * injection H as <- <-. destruct (ND f eq_refl).
      + destruct (N2 e eq_refl).
      + injection H as <- <-. destruct (ND f eq_refl).
  Qed.

  Lemma default_then_body_loss i j n s r s' :
    (alloc E i ;;
     storage_default E i ;;
     on_throw (b <- has_value E j ;;
               (if b then construct_payload E i n else assert_ E (not_ (has_value E i))) ;;
               assert_ E (same_has E i j)) (storage_dtor E i)) s = (r, s') ->
    (forall f, r <> Dead f) ->
    lost i s' = lost i s + ctor_loss i r.
  Proof.
    intros H ND. unfold bind at 1 in H.
    destruct (alloc E i s) as [[u|e|f] s1] eqn:H1; destruct (alloc_trace _ _ _ _ H1) as (T1 & N1).
    2:{ destruct (N1 e eq_refl). }
    2:{ injection H as <- <-. destruct (ND f eq_refl). }
    assert (lost i s1 = lost i s) as L1 by (unfold lost; rewrite T1; reflexivity).
    unfold bind at 1 in H. destruct (storage_default E i s1) as [[u2|e|f] s2] eqn:H2.
    - destruct (storage_default_events _ _ _ _ H2 ltac:(congruence)) as (_ & L2 & x & Hx & Hf & _).
      rewrite (ctor_body_loss i j n s2 r s' x Hx Hf H ND). lia.
    - destruct (storage_default_events _ _ _ _ H2 ltac:(congruence)) as (? & _). discriminate.
    - injection H as <- <-. destruct (ND f eq_refl).
  Qed.

  Lemma copy_loss i j s r s' :
    ctor_copy E i j s = (r, s') -> (forall f, r <> Dead f) -> lost i s' = lost i s + ctor_loss i r.
  Proof.
    unfold ctor_copy, same_type, dead. destruct (Nat.eqb _ _).
    - apply default_then_body_loss.
    - intros [= <- <-] ND. destruct (ND IllTyped eq_refl).
  Qed.
  Lemma move_loss i j s r s' :
    ctor_move E i j s = (r, s') -> (forall f, r <> Dead f) -> lost i s' = lost i s + ctor_loss i r.
  Proof.
    unfold ctor_move, same_type, dead. destruct (Nat.eqb _ _).
    2:{ intros [= <- <-] ND. destruct (ND IllTyped eq_refl). }
    intros H ND. apply (default_then_body_loss i j (move_ini E j)); [|exact ND].
    unfold bind at 1. unfold bind at 1 in H.
    destruct (alloc E i s) as [[u|e|f] s1]; [|exact H|exact H].
    unfold noexcept_if in H. revert H.
    match goal with |- match ?m with _ => _ end = _ -> _ => destruct m as [[u2|e|f] s2] end;
      try (intros H; exact H).
    destruct (po_nt_move (ops E i)); [|intros H; exact H].
    intros [= <- <-]. destruct (ND Terminated eq_refl).
  Qed.

  (** ** Exact loss of a call *)

  (** The flags that a call loses at [i]: the flag of an in-place optional [i]
      that is destroyed while its flag object is alive, or whose construction
      fails. *)
  Definition expected_loss (i : loc) (o : op W) (s : state W) (r : out obs) : nat :=
    let failed := match r with Throw _ => in_place i | _ => 0 end in
    match o with
    | ODtor j =>
        if Nat.eqb i j
        then match mem s i with Some x => if flag_obj x then in_place i else 0 | None => 0 end
        else 0
    | OInPlace k _ | OCopyCtor k _ | OMoveCtor k _ => if Nat.eqb i k then failed else 0
    | OTransform k _ _ _ _ => if Nat.eqb i k then failed else 0
    | OOrElse k j _ _ =>
        if Nat.eqb i k
        then match has_value E j s with (Ok true, _) => failed | _ => 0 end
        else 0
    | OStdSwap a b k =>
        if Nat.eqb i k
        then match ctor_move E k a s with
             | (Ok _, s1) =>
                 match mem (snd ((assign_move E a b ;; assign_move E b k) s1)) k with
                 | Some x => if flag_obj x then in_place i else 0
                 | None => 0
                 end
             | _ => failed
             end
        else 0
    | _ => 0
    end.

  Lemma unit_out (m : M W unit) s r s' :
    unit_ m s = (r, s') ->
    exists r0, m s = (r0, s') /\
      match r0 with Ok _ => r = Ok ObUnit | Throw e => r = Throw e | Dead f => r = Dead f end.
  Proof.
    unfold unit_, bind, ret. destruct (m s) as [[u|e|f] s1]; intros [= <- <-]; eexists; (split; [reflexivity|]); reflexivity.
  Qed.

  Lemma abandon_same i s o : ~ In i (drops o) -> lost i (snd (step E o s)) = lost i s.
  Proof. intros N. apply (step_abandons E o s i N). Qed.

  Lemma build_loss k o s r s' :
    build_result E k o s = (r, s') -> (forall f, r <> Dead f) -> lost k s' = lost k s.
  Proof.
    destruct o as [v|]; cbn [build_result]; intros H ND.
    - rewrite (in_place_loss _ _ _ _ _ H ND). destruct r as [u|e|f]; cbn; try lia.
      exfalso. unfold ctor_in_place in H. unfold bind at 1 in H.
      destruct (alloc E k s) as [[u|e1|f] s1] eqn:H1; destruct (alloc_trace _ _ _ _ H1) as (T1 & N1).
      2:{ destruct (N1 e1 eq_refl). }
      2:{ discriminate. }
      unfold on_throw in H. unfold bind at 1 in H.
      destruct (fm_init E k s1) as [[u2|e2|f] s2] eqn:H2;
        [|destruct (fm_init_not_throw _ _ _ _ H2)|discriminate].
      unfold construct_payload, noexcept_if in H. cbn [i_nothrow const_ini] in H.
      match type of H with
      | context [match ?m with _ => _ end] =>
          match m with (_ ;; _) _ => destruct m as [[u3|e3|f] s3] end
      end; discriminate.
    - unfold ctor_default, bind in H.
      destruct (alloc E k s) as [[u|e1|f] s1] eqn:H1; destruct (alloc_trace _ _ _ _ H1) as (T1 & N1).
      2:{ destruct (N1 e1 eq_refl). }
      2:{ injection H as <- <-. destruct (ND f eq_refl). }
      destruct (storage_default_events _ _ _ _ H ND) as (_ & L & _). unfold lost in *. congruence.
  Qed.

  (** Assignments lose no flag. *)
  Lemma assigns_loss a b k s :
    lost k (snd ((assign_move E a b ;; assign_move E b k) s)) = lost k s.
  Proof.
    assert (K : forall x y q, lost k (snd (assign_move E x y q)) = lost k q).
    { intros x y q. pose proof (abandon_same k q (OMoveAssign x y) (fun H => H)) as L.
      cbn [step] in L. unfold unit_, bind, ret in L. destruct (assign_move E x y q) as [[?|?|?] ?]; exact L. }
    unfold bind. pose proof (K a b s) as K1. destruct (assign_move E a b s) as [[?|?|?] s1]; cbn in *; auto.
    rewrite K. exact K1.
  Qed.

  Lemma lost_call {A} (f : W -> A * W) (s : state W) r s' i :
    call f s = (r, s') -> lost i s' = lost i s.
  Proof. unfold call. destruct (f (world s)). intros [= <- <-]. reflexivity. Qed.

  Lemma step_loss i o s r s' :
    step E o s = (r, s') -> (forall f, r <> Dead f) ->
    lost i s' = lost i s + expected_loss i o s r.
  Proof.
    intros H ND.
    destruct (in_dec Nat.eq_dec i (drops o)) as [Hi|Hi].
    2:{ pose proof (abandon_same i s o Hi) as L. rewrite H in L. cbn in L. rewrite L.
        replace (expected_loss i o s r) with 0; [lia|].
        destruct o; cbn in *; try reflexivity;
          match goal with |- context [Nat.eqb i ?x] => destruct (Nat.eqb_spec i x) as [Eix|] end;
          try reflexivity; destruct Hi; left; congruence. }
    destruct o; cbn in Hi; try contradiction; destruct Hi as [->|[]]; cbn [step] in H;
      apply unit_out in H as (r0 & H & Hr0); cbn; rewrite ?Nat.eqb_refl;
      assert (ND0 : forall q, r0 <> Dead q) by (intros q ->; subst r; apply (ND q eq_refl));
      assert (Hc : ctor_loss i r0 = match r with Throw _ => in_place i | _ => 0 end)
        by (destruct r0; subst r; reflexivity);
      rewrite <- ?Hc.
    - eapply in_place_loss; eauto.
    - eapply copy_loss; eauto.
    - eapply move_loss; eauto.
    - apply storage_dtor_loss in H as (_ & L); [|exact ND0]. exact L.
    - (* std::swap *)
      unfold std_swap, same_type, dead in H. destruct (Nat.eqb _ _).
      2:{ injection H as <- <-. destruct (ND0 IllTyped eq_refl). }
      unfold noexcept_if in H. unfold bind at 1 in H.
      destruct (ctor_move E i i0 s) as [[u|e|f] s1] eqn:H1.
      + pose proof (move_loss _ _ _ _ _ H1 ltac:(congruence)) as L1. cbn [ctor_loss] in L1.
        pose proof (assigns_loss i0 j i s1) as L2. unfold bind at 1, on_throw in H.
        destruct ((assign_move E i0 j;; assign_move E j i) s1) as [[u2|e2|f2] s2] eqn:H2; cbn [snd] in *.
        * destruct (dtor E i s2) as [[u3|e3|f3] s3] eqn:H3.
          -- injection H as <- <-. apply storage_dtor_loss in H3 as (_ & L3); [|congruence]. lia.
          -- apply storage_dtor_loss in H3 as (H3 & _); [discriminate|congruence].
          -- injection H as <- <-. destruct (ND0 f3 eq_refl).
        * destruct (dtor E i s2) as [[u3|e3|f3] s3] eqn:H3.
          -- destruct (_ && _); injection H as <- <-; [destruct (ND0 Terminated eq_refl)|].
             apply storage_dtor_loss in H3 as (_ & L3); [|congruence]. lia.
          -- injection H as <- <-. destruct (ND0 Terminated eq_refl).
          -- injection H as <- <-. destruct (ND0 f3 eq_refl).
        * injection H as <- <-. destruct (ND0 f2 eq_refl).
      + pose proof (move_loss _ _ _ _ _ H1 ltac:(congruence)) as L1.
        destruct (_ && _); injection H as <- <-; [destruct (ND0 Terminated eq_refl)|]. subst r. exact L1.
      + injection H as <- <-. destruct (ND0 f eq_refl).
    - (* and_then *)
      rewrite Nat.add_0_r. unfold and_then in H. unfold bind at 1 in H.
      destruct (has_value E i0 s) as [[b|e|f1] s1] eqn:H1; pose proof (has_value_same _ _ _ _ H1) as ->.
      2:{ destruct (has_value_never_throws _ _ _ _ H1). }
      2:{ injection H as <- <-. destruct (ND0 f1 eq_refl). }
      destruct b.
      2:{ exact (build_loss i None s r0 s' H ND0). }
      unfold bind at 1 in H. destruct (op_deref E i0 s) as [[u|e|fa] s2] eqn:H2;
        destruct (assert_same _ _ _ _ (pure_has i0) H2) as (-> & N2).
      2:{ destruct (N2 e eq_refl). }
      2:{ injection H as <- <-. destruct (ND0 fa eq_refl). }
      unfold bind at 1 in H. destruct (load_payload E i0 s) as [[v|e|f2] s3] eqn:H3;
        pose proof (run_ini_trace (MkIni (Some i0) true (fun v w => ((ROk v, v), w)) true) s) as T3;
        unfold run_ini in T3; cbn [i_src i_const i_fun] in T3; unfold bind at 1 in T3; rewrite H3 in T3.
      2:{ injection H as <- <-. unfold lost. rewrite (T3 _ _ eq_refl). reflexivity. }
      2:{ injection H as <- <-. destruct (ND0 f2 eq_refl). }
      assert (lost i s3 = lost i s) as L3.
      { unfold lost. unfold bind, call, ret, lift_res in T3. cbn in T3.
        specialize (T3 _ _ eq_refl). cbn in T3. rewrite T3. reflexivity. }
      unfold bind at 1 in H. destruct (call (f v) s3) as [[p|e|f4] s4] eqn:H4;
        pose proof (lost_call _ _ _ _ i H4) as L4.
      2:{ unfold call in H4. destruct (f v (world s3)). discriminate. }
      2:{ unfold call in H4. destruct (f v (world s3)). discriminate. }
      unfold bind at 1 in H.
      assert (forall q x y, (if cst then ret tt else store_payload E i0 (snd p)) q = (x, y) ->
                            lost i y = lost i q /\ forall e, x <> Throw e) as HS.
      { intros q x y. destruct cst; [intros [= <- <-]; split; [reflexivity|congruence]|].
        unfold store_payload, bind, get_region, set_region, dead.
        destruct (mem q i0) as [z|]; [|intros [= <- <-]; split; [reflexivity|congruence]].
        destruct (pay_obj z); [|intros [= <- <-]; split; [reflexivity|congruence]].
        destruct (Nat.eqb _ _); intros [= <- <-]; split; try reflexivity; congruence. }
      match type of H with context [match ?m with _ => _ end] => destruct m as [[u5|e5|f5] s5] eqn:H5 end;
        destruct (HS _ _ _ H5) as (L5 & N5).
      2:{ destruct (N5 e5 eq_refl). }
      2:{ injection H as <- <-. destruct (ND0 f5 eq_refl). }
      unfold bind in H. destruct (fst p) as [o|e]; cbn [lift_res ret throw] in H.
      + unfold ret in H. rewrite (build_loss _ _ _ _ _ H ND0). lia.
      + unfold throw in H. injection H as <- <-. lia.
    - (* transform *)
      unfold transform in H. unfold bind at 1 in H.
      destruct (has_value E i0 s) as [[b|e|f1] s1] eqn:H1; pose proof (has_value_same _ _ _ _ H1) as ->.
      2:{ destruct (has_value_never_throws _ _ _ _ H1). }
      2:{ injection H as <- <-. destruct (ND0 f1 eq_refl). }
      destruct b.
      + unfold bind at 1 in H. destruct (op_deref E i0 s) as [[u|e|f2] s2] eqn:H2;
          destruct (assert_same _ _ _ _ (pure_has i0) H2) as (-> & N2).
        * exact (in_place_loss i (MkIni (Some i0) cst f nt) s r0 s' H ND0).
        * destruct (N2 e eq_refl).
        * injection H as <- <-. destruct (ND0 f2 eq_refl).
      + rewrite (build_loss i None s r0 s' H ND0).
        destruct r0 as [u|e|f2]; cbn; try lia.
        exfalso. unfold ctor_default, bind in H.
        destruct (alloc E i s) as [[u|e1|f1] s1] eqn:H2; destruct (alloc_trace _ _ _ _ H2) as (T1 & N1).
        * destruct (storage_default_events _ _ _ _ H ltac:(congruence)) as (? & _). discriminate.
        * destruct (N1 e1 eq_refl).
        * discriminate.
    - (* or_else *)
      unfold or_else, same_type, dead in H. destruct (Nat.eqb _ _).
      2:{ injection H as <- <-. destruct (ND0 IllTyped eq_refl). }
      unfold bind at 1 in H.
      destruct (has_value E i0 s) as [[b|e|f1] s1] eqn:H1; pose proof (has_value_same _ _ _ _ H1) as ->.
      2:{ destruct (has_value_never_throws _ _ _ _ H1). }
      2:{ injection H as <- <-. destruct (ND0 f1 eq_refl). }
      destruct b.
      + destruct mv; [eapply move_loss|eapply copy_loss]; eauto.
      + rewrite Nat.add_0_r. unfold bind at 1 in H.
        destruct (call f s) as [[x|e|f4] s4] eqn:H4; pose proof (lost_call _ _ _ _ i H4) as L4.
        2:{ unfold call in H4. destruct (f (world s)). discriminate. }
        2:{ unfold call in H4. destruct (f (world s)). discriminate. }
        unfold bind in H. destruct x as [o|e]; cbn [lift_res] in H.
        * unfold ret in H. rewrite (build_loss _ _ _ _ _ H ND0). lia.
        * unfold throw in H. injection H as <- <-. lia.
  Qed.
End Leaks.

(** ** C17: the flag objects that are never destroyed *)

(** The property as documented is false: constructing and destroying an empty
    in-place optional leaves its flag object undestroyed. *)
Theorem C17_flag_of_empty_optional_refuted :
  exists (W : Type) (E : env W) w p s i,
    env_ok E /\ contract E w p /\ reaches E w p s /\ mem s i = None /\
    count (is_flag_begin i) (trace s) = 1 /\ count (is_flag_end i) (trace s) = 0.
Proof.
  exists sworld_t, (sample false), quiet, [ODefault 10; ODtor 10]. eexists. exists 10.
  split; [apply sample_ok|]. split; [eapply contract_intro; [op_oks|vm_compute; reflexivity]|].
  split; [eapply reaches_intro; vm_compute; reflexivity|]. vm_compute. auto.
Qed.

(** So does a construction that throws. *)
Theorem C17_flag_of_failed_construction_refuted :
  exists (W : Type) (E : env W) w p s i,
    env_ok E /\ contract E w p /\ reaches E w p s /\ mem s i = None /\
    count (is_flag_begin i) (trace s) = 2 /\ count (is_flag_end i) (trace s) = 1.
Proof.
  exists sworld_t, (sample false), (plan [Some 3]), [OInPlace 10 (mkP 1 2)]. eexists. exists 10.
  split; [apply sample_ok|]. split; [eapply contract_intro; [op_oks|vm_compute; reflexivity]|].
  split; [eapply reaches_intro; vm_compute; reflexivity|]. vm_compute. auto.
Qed.

(** What holds instead.  In every run, at every location: flags created = flags
    destroyed + flags lost + flags alive. *)
Theorem C17_flag_balance :
  forall W (E : env W) w p s i,
    reaches E w p s ->
    count (is_flag_begin i) (trace s) =
      count (is_flag_end i) (trace s) + count (is_flag_abandoned i) (trace s) +
      match mem s i with
      | Some r => if negb (pay_obj r) && flag_obj r && negb (d_sep (dec E i)) then 1 else 0
      | None => 0
      end.
Proof.
  intros W E w p s i (xs & Hr). pose proof (run_accounted E p _ (init_accounted E w)) as A.
  rewrite Hr in A. cbn in A. destruct (A i) as (Hl & Hx). destruct (life_balance _ _ _ Hl) as (_ & Hb).
  rewrite Hb. f_equal. unfold current. destruct (mem s i) as [r|]; [|reflexivity].
  destruct (pay_obj r), (flag_obj r), (d_sep (dec E i)); reflexivity.
Qed.

(** Exactly these calls lose a flag, one each: destroying an in-place optional
    whose flag object is alive (also the local variable of std::swap), and a constructor
    (in_place, copy, move, the result of transform, the copy made by or_else) of an
    in-place optional that throws. *)
Theorem C17_exact_loss :
  forall W (E : env W) i o (s : state W) r s',
    step E o s = (r, s') -> (forall f, r <> Dead f) ->
    count (is_flag_abandoned i) (trace s') =
      count (is_flag_abandoned i) (trace s) + expected_loss E i o s r.
Proof. intros W E i o s r s'. exact (step_loss E i o s r s'). Qed.

(** Destruction within the contract: one flag is lost iff the optional is in place
    and empty. *)
Theorem C17_destructor :
  forall W (E : env W) w p s i o r s',
    env_ok E -> call_after E w p s (ODtor i) r s' -> opt_after E w p i o ->
    r = Ok ObUnit /\
    count (is_flag_abandoned i) (trace s') =
      count (is_flag_abandoned i) (trace s) +
      (if d_sep (dec E i) then 0 else match o with None => 1 | Some _ => 0 end).
Proof.
  intros W E w p s i o r s' HE C Ho.
  destruct (call_spec_at E HE _ _ _ _ _ _ C) as (xs & t & t' & sr & Ht & R & Hs & R' & Hr).
  pose proof (opt_after_at E _ _ _ _ _ _ Ho Ht) as Hi. pose proof C as (_ & _ & Hst).
  cbn in Hs. unfold sunit, s_dtor, sbind, contents in Hs. rewrite Hi in Hs.
  assert (sr = SOk ObUnit) as -> by (destruct o; cbn in Hs; unfold sdestroy, suser in Hs; cbn in Hs; injection Hs as <- <-; reflexivity).
  split; [exact Hr|]. subst r. rewrite (C17_exact_loss _ E i _ _ _ _ Hst) by congruence.
  f_equal. cbn. rewrite Nat.eqb_refl.
  pose proof (rel_robj E _ _ _ i R I) as Hrr. rewrite Hi in Hrr. unfold in_place.
  destruct o as [v|]; cbn in Hrr.
  - destruct Hrr as (c & -> & _). cbn. destruct (d_sep (dec E i)); reflexivity.
  - destruct Hrr as (c & -> & _). cbn. reflexivity.
Qed.

Example C17_example :
  exists s s', call_after (sample true) quiet [ODefault 10] s (ODtor 10) (Ok ObUnit) s' /\
               opt_after (sample true) quiet [ODefault 10] 10 None.
Proof.
  eexists _, _. split; [split; [|split]|].
  - eapply contract_intro; [op_oks|vm_compute; reflexivity].
  - eapply reaches_intro; vm_compute; reflexivity.
  - reflexivity.
  - apply opt_after_intro. vm_compute. reflexivity.
Qed.

(** ** C49: documented preconditions of flag manipulators *)

(** Whenever one of the three manipulator functions returns, its documented
    precondition held (in place: the memory contains no flag and no payload / a
    flag that says "empty" / a flag or payload). *)
Theorem C49_calls_checked :
  forall W (E : env W) i (s s' : state W) u,
    d_sep (dec E i) = false ->
    (fm_init E i s = (Ok u, s') ->
       exists r, mem s i = Some r /\ flag_obj r = false /\ pay_obj r = false) /\
    (fm_invalidate E i s = (Ok u, s') ->
       exists r, mem s i = Some r /\ flag_obj r = true /\
                 m_is_empty (man E i) (flag_cells (dec E i) (cells r)) = Some true) /\
    (forall b, fm_is_empty E i s = (Ok b, s') ->
       exists r, mem s i = Some r /\ flag_obj r || pay_obj r = true).
Proof.
  intros W E i s s' u Sep.
  unfold fm_init, fm_invalidate, fm_is_empty, bind, get_region, dead, flag_cells. rewrite Sep.
  destruct (mem s i) as [r|]; [|split; [|split]; intros; discriminate]. cbn [negb andb orb].
  split; [|split].
  - destruct (flag_obj r || pay_obj r) eqn:B; [discriminate|]. intros _.
    apply orb_false_iff in B. exists r. tauto.
  - destruct (flag_obj r) eqn:B; [|discriminate].
    destruct (m_is_empty (man E i) _) as [[|]|] eqn:Q; try discriminate. intros _. exists r. auto.
  - intros b. rewrite andb_true_r. destruct (flag_obj r || pay_obj r) eqn:B; [|discriminate].
    intros _. exists r. auto.
Qed.

(** A violated precondition stops the run; within the contract no history stops. *)
Theorem C49_preconditions_never_violated :
  forall W (E : env W) w p s,
    env_ok E -> contract E w p ->
    run E p (init_state w) <> (inr Precondition, s) /\
    run E p (init_state w) <> (inr LifetimeError, s) /\
    run E p (init_state w) <> (inr NoObject, s) /\
    run E p (init_state w) <> (inr IndetRead, s).
Proof.
  intros W E w p s HE C. destruct (contract_rel E HE w p C) as (xs & s' & t & _ & Hr & _).
  repeat split; congruence.
Qed.

(** Calls to init_empty_flag and invalidate_empty_flag on one storage: the n-th
    invalidate follows the n-th init.  [flag_calls i tr]: the calls at [i], oldest
    first ([true]: init), where the end of the storage starts a new round. *)
Fixpoint flag_calls (i : loc) (tr : list event) : list bool :=
  match tr with
  | [] => []
  | EvFlagBegin j :: tr' => if Nat.eqb i j then flag_calls i tr' ++ [true] else flag_calls i tr'
  | EvFlagEnd j :: tr' => if Nat.eqb i j then flag_calls i tr' ++ [false] else flag_calls i tr'
  | EvFlagAbandoned j :: tr' => if Nat.eqb i j then [] else flag_calls i tr'
  | _ :: tr' => flag_calls i tr'
  end.
Fixpoint alternating (next : bool) (l : list bool) : Prop :=
  match l with
  | [] => True
  | b :: l' => b = next /\ alternating (negb next) l'
  end.

Lemma alternating_app next l b :
  alternating next (l ++ [b]) <->
  alternating next l /\ b = (if Nat.even (length l) then next else negb next).
Proof.
  revert next. induction l as [|x l IH]; intros next; cbn [app alternating length].
  - cbn. tauto.
  - rewrite IH. rewrite Nat.even_succ, <- Nat.negb_even. destruct (Nat.even (length l)); cbn;
      rewrite ?negb_involutive; tauto.
Qed.

Theorem C49_init_and_invalidate_alternate :
  forall W (E : env W) w p i,
    alternating true (flag_calls i (trace (snd (run E p (init_state w))))).
Proof.
  intros W E w p i. pose proof (run_accounted E p _ (init_accounted E w)) as A.
  destruct (A i) as (Hl & _). revert Hl.
  generalize (current E (snd (run E p (init_state w))) i) as l.
  generalize (trace (snd (run E p (init_state w)))) as tr. clear.
  assert (G : forall tr l, life_of i tr = Some l ->
    alternating true (flag_calls i tr) /\
    Nat.even (length (flag_calls i tr)) = match l with LFlag => false | _ => true end).
  { induction tr as [|e tr IH]; intros l H; [injection H as <-; cbn; auto|].
    cbn [life_of] in H. destruct (life_of i tr) as [l0|]; [|discriminate].
    destruct (IH l0 eq_refl) as (H1 & H2). clear IH.
    destruct e as [j|j|j|j|j|j], l0; cbn in H |- *; destruct (Nat.eqb i j); try discriminate;
      injection H as <-; cbn in *; rewrite ?app_length; cbn;
      rewrite ?Nat.add_1_r, ?Nat.even_succ, <- ?Nat.negb_even, ?alternating_app, ?H2; cbn; auto. }
  intros tr l H. apply (G tr l H).
Qed.

Example C49_example :
  flag_calls 10 (trace (snd (run (sample true)
     [ODefault 10; OEmplace 10 (mkP 1 2); OReset 10; OEmplace 10 (mkP 3 4)]
     (init_state (plan [None; Some 1]))))) = [true; false; true; false; true].
Proof. reflexivity. Qed.
