(** * Exceptions: properties C11, C12, C13, C26 *)

From Coq Require Import List NArith ZArith Bool Arith Lia.
From Verif Require Import Cells CellsFacts Machine Optional Program Spec Laws Refine
  Contract SpecTac Effects Frame Bits Manip Sample ExampleTac Histories.
Import ListNotations.

Local Arguments put : simpl never.
Local Arguments sub : simpl never.

(** ** What an exception leaves behind, for every call *)

Section Throwing.
  Context {W : Type}.
  Variable E : env W.
  Hypothesis HE : env_ok E.

  Notation stor := (storable E).
  Notation isv := (is_value E).
  Notation pops := (ops E).
  Notation sstep' := (sstep (e_tid E) (ops E) (storable E) (is_value E)).

  (** If the abstract code throws, engagement is as before; it cannot throw. *)
  Definition tkeeps {A} (sm : @S W A) : Prop :=
    forall t e t', sm t = (SThrow e, t') -> forall j, shape (objs t' j) = shape (objs t j).
  Definition nothrow {A} (sm : @S W A) : Prop := forall t e t', sm t <> (SThrow e, t').

  Lemma keeps_tkeeps {A} (sm : @S W A) : keeps sm -> tkeeps sm.
  Proof. intros H t e t'. apply H. Qed.
  Lemma nothrow_tkeeps {A} (sm : @S W A) : nothrow sm -> tkeeps sm.
  Proof. intros H t e t' Ht. destruct (H _ _ _ Ht). Qed.
  Lemma tkeeps_bind {A B} (m : @S W A) (k : A -> @S W B) :
    keeps m -> (forall a, tkeeps (k a)) -> tkeeps (sbind m k).
  Proof.
    intros Hm Hk t e t' H j. unfold sbind in H. destruct (m t) as [[a|e0|] t1] eqn:H1.
    - rewrite (Hk _ _ _ _ H). eapply Hm, H1.
    - injection H as -> ->. eapply Hm, H1.
    - discriminate.
  Qed.
  Lemma tkeeps_then {A B} (m : @S W A) (k : A -> @S W B) :
    tkeeps m -> (forall a, nothrow (k a)) -> tkeeps (sbind m k).
  Proof.
    intros Hm Hk t e t' H j. unfold sbind in H. destruct (m t) as [[a|e0|] t1] eqn:H1.
    - destruct (Hk _ _ _ _ H).
    - injection H as -> ->. eapply Hm, H1.
    - discriminate.
  Qed.
  Lemma nothrow_bind {A B} (m : @S W A) (k : A -> @S W B) :
    nothrow m -> (forall a, nothrow (k a)) -> nothrow (sbind m k).
  Proof.
    intros Hm Hk t e t' H. unfold sbind in H. destruct (m t) as [[a|e0|] t1] eqn:H1.
    - destruct (Hk _ _ _ _ H).
    - destruct (Hm _ _ _ H1).
    - discriminate.
  Qed.
  Lemma nothrow_ret {A} (a : A) : nothrow (sret a).
  Proof. intros t e t'. discriminate. Qed.
  Lemma nothrow_undef {A} : nothrow (@sundef W A).
  Proof. intros t e t'. discriminate. Qed.
  Lemma nothrow_user {A} (f : W -> A * W) : nothrow (suser f).
  Proof. intros t e t'. unfold suser. destruct (f (sworld t)). discriminate. Qed.
  Lemma nothrow_set i x : nothrow (@sset W i x).
  Proof. intros t e t'. discriminate. Qed.
  Lemma nothrow_become i o : nothrow (become stor i o).
  Proof. intros t e t'. apply become_not_throw. Qed.
  Lemma nothrow_clear i : nothrow (s_clear pops stor i).
  Proof. intros t e t'. apply s_clear_not_throw. Qed.
  Lemma nothrow_contents i : nothrow (@contents W i).
  Proof. intros t e t'. unfold contents. destruct (objs t i) as [[o|v]|]; discriminate. Qed.
  Lemma nothrow_fresh i : nothrow (@fresh W i).
  Proof. intros t e t'. unfold fresh. destruct (objs t i); discriminate. Qed.
  Lemma nothrow_sdestroy i v : nothrow (sdestroy pops i v).
  Proof. apply nothrow_user. Qed.
  Lemma nothrow_new k o : nothrow (s_new stor k o).
  Proof. apply nothrow_bind; [apply nothrow_fresh|intros _; apply nothrow_become]. Qed.
  Lemma keeps_contents i : keeps (@contents W i).
  Proof. intros t r t' H j. unfold contents in H. destruct (objs t i) as [[o|v]|]; congruence. Qed.
  Lemma keeps_fresh i : keeps (@fresh W i).
  Proof. intros t r t' H j. unfold fresh in H. destruct (objs t i); congruence. Qed.
  Lemma keeps_undef {A} : keeps (@sundef W A).
  Proof. intros t r t' H j. unfold sundef in H. congruence. Qed.
  Lemma keeps_throw {A} e : keeps (@sthrow W A e).
  Proof. intros t r t' H j. unfold sthrow in H. congruence. Qed.
  Lemma keeps_operand L : keeps (@s_operand W L).
  Proof. destruct L; cbn; [apply keeps_contents| | |]; apply keeps_ret. Qed.

  Ltac tk :=
    repeat first
      [ apply keeps_init | apply keeps_bind; [|intros ?]
      | apply keeps_ret | apply keeps_user | apply keeps_sres | apply keeps_read
      | apply keeps_write | apply keeps_init | apply keeps_contents | apply keeps_fresh
      | apply keeps_undef | apply keeps_throw | apply keeps_operand | apply keeps_assign_existing
      | match goal with |- keeps (match ?b with _ => _ end) => destruct b end
      | apply nothrow_bind; [|intros ?]
      | apply nothrow_ret | apply nothrow_undef | apply nothrow_user | apply nothrow_set
      | apply nothrow_become | apply nothrow_clear | apply nothrow_contents | apply nothrow_fresh
      | apply nothrow_sdestroy | apply nothrow_new
      | match goal with |- nothrow (match ?b with _ => _ end) => destruct b end
      | match goal with |- tkeeps (match ?b with _ => _ end) => destruct b end
      | (apply nothrow_tkeeps; tk; fail)
      | (apply keeps_tkeeps; tk; fail)
      | (apply tkeeps_then; [|intros ?; tk; fail])
      | (apply tkeeps_bind; [tk; fail|intros ?]) ].

  Lemma step_tkeeps o :
    (forall i n, o <> OEmplace i n) -> (forall i j k, o <> OStdSwap i j k) -> tkeeps (sstep' o).
  Proof.
    intros N N2. destruct o as [i|i|i n|i j|i j|i|i|i a|i j|i j|i n|i|i j|i j k|i|i|k i c f|i d|i d|k i c f
                            |k i c f nt|k i mv f|m c r L R|g c L R|h i|i v|i]; cbn [sstep];
      try (destruct (N i n eq_refl)); try (destruct (N2 i j k eq_refl));
      unfold sunit, sbool, sval, s_ctor_from, s_dtor, s_assign, s_copy_assign, s_move_assign,
        s_swap, s_access, s_value_or, s_and_then, s_transform, s_or_else, s_compare, s_three,
        s_relate, s_relate3, s_hash, s_has, same, scopy, smove; try (tk; fail).
    apply tkeeps_then; [|intros; tk]. intros t e t' H. exfalso.
    destruct (objs t i) as [[o|v]|]; discriminate.
  Qed.

  Lemma emplace_tkeeps i n t e t' :
    sstep' (OEmplace i n) t = (SThrow e, t') ->
    objs t' i = Some (SOpt None) /\
    forall j, j <> i -> shape (objs t' j) = shape (objs t j).
  Proof.
    cbn [sstep]. unfold sunit, s_emplace. intros H. unfold sbind at 1 in H.
    destruct ((s_clear pops stor i;;; v <-- sinit stor isv n;;; become stor i (Some v)) t)
      as [[a|e0|] t1] eqn:H1; try discriminate. injection H as -> ->.
    unfold sbind at 1 in H1. destruct (s_clear pops stor i t) as [[a|e0|] t2] eqn:H2; try discriminate.
    2:{ destruct (nothrow_clear _ _ _ _ H2). }
    unfold sbind in H1. destruct (sinit stor isv n t2) as [[v|e0|] t3] eqn:H3; try discriminate.
    { destruct (nothrow_become _ _ _ _ _ H1). }
    injection H1 as -> ->.
    assert (Hi : objs t2 i = Some (SOpt None) /\ forall j, j <> i -> objs t2 j = objs t j).
    { revert H2. unfold s_clear, sbind, contents, sdestroy, suser, sret, become, sset.
      destruct (objs t i) as [[[v|]|v]|] eqn:Ho; try discriminate; cbn; intros [= <- <-]; cbn.
      - split; [apply upd_same|intros j N; apply upd_other; congruence].
      - auto. }
    destruct Hi as (Hi & Hj). pose proof (keeps_init E n t2 _ _ H3) as K. split.
    - specialize (K i). rewrite Hi in K. destruct (objs t' i) as [[[v|]|v]|]; try discriminate. reflexivity.
    - intros j N. rewrite K. rewrite Hj by exact N. reflexivity.
  Qed.
End Throwing.

Lemma shape_opt x o : shape x = shape (Some (SOpt o)) -> exists o', x = Some (SOpt o') /\ is_some o' = is_some o.
Proof. destruct x as [[[v|]|v]|], o; try discriminate; intros _; eexists; (split; [reflexivity|reflexivity]). Qed.
Lemma shape_none x : shape x = shape None -> x = None.
Proof. destruct x as [[[v|]|v]|]; try discriminate; reflexivity. Qed.

(** The generic std::swap, whatever its outcome: the same optionals exist before and
    after; only the two optionals have changed. *)
Section StdSwapKeeps.
  Context {W : Type}.
  Variable E : env W.
  Notation tid := (e_tid E).
  Notation pops := (ops E).
  Notation stor := (storable E).
  Notation isv := (is_value E).
  Definition is_opt (x : option sobj) : bool := match x with Some (SOpt _) => true | _ => false end.

  Lemma move_assign_keeps i j t r t' :
    s_move_assign tid pops stor isv i j t = (r, t') -> r <> SUndef ->
    is_opt (objs t i) = true /\ is_opt (objs t j) = true /\
    is_opt (objs t' i) = true /\ is_opt (objs t' j) = true /\
    forall l, l <> i -> l <> j -> objs t' l = objs t l.
  Proof.
    intros H ND. unfold s_move_assign, same in H. destruct (Nat.eqb (tid i) (tid j)); [|sdone H ND].
    destruct (objs t j) as [[y|?]|] eqn:Hj;
      [|unfold sbind, contents in H; rewrite Hj in H; congruence..].
    rewrite (sbind_ok _ _ _ _ _ (contents_eq _ _ _ Hj)) in H.
    destruct (objs t i) as [[x|?]|] eqn:Hi;
      [|unfold sbind, contents in H; rewrite Hi in H; congruence..].
    rewrite (sbind_ok _ _ _ _ _ (contents_eq _ _ _ Hi)) in H.
    assert (B : forall k o (u : sstate W) r' u', become stor k o u = (r', u') -> r' <> SUndef ->
                r' = SOk tt /\ objs u' k = Some (SOpt o) /\ forall l, l <> k -> objs u' l = objs u l).
    { intros k o u r' u' Hb Nb. unfold become, sset, sundef in Hb. destruct o as [v|].
      - destruct (stor k v); [|congruence]. injection Hb as <- <-. cbn. split; [reflexivity|].
        split; [apply upd_same|intros l Nl; apply upd_other; congruence].
      - injection Hb as <- <-. cbn. split; [reflexivity|].
        split; [apply upd_same|intros l Nl; apply upd_other; congruence]. }
    assert (Wr : forall k v (u : sstate W) r' u', swrite stor isv k v u = (r', u') -> r' <> SUndef ->
                is_opt (objs u k) = true ->
                r' = SOk tt /\ is_opt (objs u' k) = true /\ forall l, l <> k -> objs u' l = objs u l).
    { intros k v u r' u' Hb Nb Ho. unfold swrite in Hb. destruct (objs u k) as [[[?|]|?]|] eqn:Hk; try discriminate.
      - destruct (B _ _ _ _ _ Hb Nb) as (-> & H1 & H2). rewrite H1. auto.
      - congruence. }
    assert (X : forall k, is_opt (objs t k) = is_opt (objs t k)) by reflexivity.
    assert (Oi : is_opt (objs t i) = true) by (rewrite Hi; reflexivity).
    assert (Oj : is_opt (objs t j) = true) by (rewrite Hj; reflexivity).
    rewrite <- Hi, <- Hj. split; [exact Oi|]. split; [exact Oj|].
    assert (Upd : forall k (u u' : sstate W), is_opt (objs u k) = true -> is_opt (objs u i) = true ->
                  (forall l, l <> k -> objs u' l = objs u l) -> is_opt (objs u' k) = true ->
                  forall l, is_opt (objs u l) = true -> is_opt (objs u' l) = true).
    { intros k u u' _ _ Hl Hk l Ho. destruct (Nat.eq_dec l k) as [->|N]; [exact Hk|]. rewrite Hl by exact N. exact Ho. }
    destruct x as [d|], y as [v|].
    - destruct (Nat.eqb_spec i j) as [<-|N].
      + unfold sbind at 1, suser in H. destruct (po_self_massign (pops i) v (sworld t)) as [p w'].
        unfold sbind in H. destruct (swrite stor isv i (snd p) (MkS (objs t) w')) as [r1 t1] eqn:Hw.
        destruct r1 as [[]|e1|]; [| |congruence].
        * destruct (Wr _ _ _ _ _ Hw ltac:(congruence) Oi) as (_ & K1 & K2).
          assert (t' = t1) as -> by (destruct (fst p); unfold sres, sret, sthrow in H; congruence).
          repeat split; auto. intros l Nl _. apply K2, Nl.
        * destruct (Wr _ _ _ _ _ Hw ltac:(congruence) Oi) as (? & _). discriminate.
      + rewrite (sbind_ok _ _ _ _ _ (sread_eq _ _ _ Hi)) in H.
        unfold sbind at 1, suser in H. destruct (po_massign (pops j) d v (sworld t)) as [p w'].
        unfold sbind at 1 in H.
        destruct (swrite stor isv i (fst (snd p)) (MkS (objs t) w')) as [r1 t1] eqn:Hw.
        destruct r1 as [[]|e1|]; [| |congruence].
        2:{ destruct (Wr _ _ _ _ _ Hw ltac:(congruence) Oi) as (? & _). discriminate. }
        destruct (Wr _ _ _ _ _ Hw ltac:(congruence) Oi) as (_ & K1 & K2).
        unfold sbind in H. destruct (swrite stor isv j (snd (snd p)) t1) as [r2 t2] eqn:Hw2.
        assert (Oj1 : is_opt (objs t1 j) = true) by (rewrite K2 by congruence; exact Oj).
        destruct r2 as [[]|e1|]; [| |congruence].
        2:{ destruct (Wr _ _ _ _ _ Hw2 ltac:(congruence) Oj1) as (? & _). discriminate. }
        destruct (Wr _ _ _ _ _ Hw2 ltac:(congruence) Oj1) as (_ & K3 & K4).
        assert (t' = t2) as -> by (destruct (fst p); unfold sres, sret, sthrow in H; congruence).
        repeat split; auto.
        * rewrite K4 by congruence. exact K1.
        * intros l Nl Nl2. rewrite K4, K2 by assumption. reflexivity.
    - unfold sbind at 1, sdestroy, suser in H.
      destruct (B _ _ _ _ _ H ND) as (-> & K1 & K2). cbn in K2.
      assert (is_opt (objs t' i) = true) by (rewrite K1; reflexivity).
      repeat split; auto.
      destruct (Nat.eq_dec j i) as [->|N]; [assumption|]. rewrite K2 by exact N. exact Oj.
    - unfold sbind at 1, smove in H. rewrite (sbind_ok _ _ _ _ _ (sread_eq _ _ _ Hj)) in H.
      unfold sbind at 1, suser in H. destruct (po_move (pops j) v (sworld t)) as [p w'].
      unfold sbind at 1 in H.
      destruct (swrite stor isv j (snd p) (MkS (objs t) w')) as [r1 t1] eqn:Hw.
      destruct r1 as [[]|e1|]; [| |congruence].
      2:{ destruct (Wr _ _ _ _ _ Hw ltac:(congruence) Oj) as (? & _). discriminate. }
      destruct (Wr _ _ _ _ _ Hw ltac:(congruence) Oj) as (_ & K1 & K2).
      assert (Oi1 : is_opt (objs t1 i) = true).
      { destruct (Nat.eq_dec i j) as [->|N]; [assumption|]. rewrite K2 by exact N. exact Oi. }
      destruct (fst p) as [z|e]; unfold sres, sret, sthrow in H.
      + destruct (B _ _ _ _ _ H ND) as (-> & K3 & K4).
        assert (is_opt (objs t' i) = true) by (rewrite K3; reflexivity).
        repeat split; auto.
        * destruct (Nat.eq_dec j i) as [->|N]; [assumption|]. rewrite K4 by exact N. exact K1.
        * intros l Nl Nl2. rewrite K4, K2 by assumption. reflexivity.
      + injection H as <- <-. repeat split; auto. intros l Nl Nl2. apply K2, Nl2.
    - unfold sret in H. injection H as <- <-. repeat split; auto.
  Qed.

  Lemma move_ctor_keeps i j t r t' :
    s_ctor_from tid stor (smove pops stor isv j) i j t = (r, t') -> r <> SUndef ->
    objs t i = None /\ is_opt (objs t j) = true /\
    (match r with SOk _ => is_opt (objs t' i) = true | _ => objs t' i = None end) /\
    is_opt (objs t' j) = true /\
    forall l, l <> i -> l <> j -> objs t' l = objs t l.
  Proof.
    intros H ND. unfold s_ctor_from, same in H. destruct (Nat.eqb (tid i) (tid j)); [|sdone H ND].
    unfold sbind at 1, fresh in H. destruct (objs t i) eqn:Hi; [congruence|].
    destruct (objs t j) as [[y|?]|] eqn:Hj;
      [|unfold sbind, contents in H; rewrite Hj in H; congruence..].
    rewrite (sbind_ok _ _ _ _ _ (contents_eq _ _ _ Hj)) in H.
    assert (N : j <> i) by congruence.
    split; [reflexivity|]. split; [reflexivity|]. destruct y as [v|].
    - unfold sbind at 1, smove in H. rewrite (sbind_ok _ _ _ _ _ (sread_eq _ _ _ Hj)) in H.
      unfold sbind at 1, suser in H. destruct (po_move (pops j) v (sworld t)) as [p w'].
      unfold sbind at 1, swrite, become in H. cbn [objs] in H. rewrite Hj in H.
      destruct (stor j (snd p)); [|unfold sundef in H; congruence]. unfold sset in H. cbn [objs sworld] in H.
      destruct (fst p) as [z|e]; unfold sres, sret, sthrow in H.
      + destruct (stor i z); [|unfold sundef in H; congruence]. unfold sset in H. injection H as <- <-. cbn.
        split; [rewrite upd_same; reflexivity|].
        split; [rewrite upd_other, upd_same by congruence; reflexivity|].
        intros l N1 N2. rewrite !upd_other by congruence. reflexivity.
      + injection H as <- <-. cbn. split; [rewrite upd_other by congruence; exact Hi|].
        split; [rewrite upd_same; reflexivity|].
        intros l N1 N2. rewrite !upd_other by congruence. reflexivity.
    - unfold become, sset in H. injection H as <- <-. cbn.
      split; [rewrite upd_same; reflexivity|].
      split; [rewrite upd_other, Hj by congruence; reflexivity|].
      intros l N1 N2. rewrite !upd_other by congruence. reflexivity.
  Qed.

  Lemma dtor_keeps i t r t' :
    s_dtor pops i t = (r, t') -> r <> SUndef ->
    r = SOk tt /\ objs t' i = None /\ forall l, l <> i -> objs t' l = objs t l.
  Proof.
    intros H ND. unfold s_dtor, sbind, contents in H.
    destruct (objs t i) as [[[v|]|?]|] eqn:Hi; try congruence;
      unfold sdestroy, suser, sset in H; injection H as <- <-; cbn;
      (split; [reflexivity|]); (split; [apply upd_same|]); intros l N; apply upd_other; congruence.
  Qed.

  Lemma std_swap_keeps i j k t r t' :
    s_std_swap tid pops stor isv i j k t = (r, t') -> r <> SUndef ->
    objs t k = None /\ objs t' k = None /\
    is_opt (objs t i) = true /\ is_opt (objs t j) = true /\
    is_opt (objs t' i) = true /\ is_opt (objs t' j) = true /\
    forall l, l <> i -> l <> j -> objs t' l = objs t l.
  Proof.
    intros H ND. unfold s_std_swap, same in H. destruct (Nat.eqb (tid i) (tid j)); [|sdone H ND].
    assert (K0 : is_opt (objs t j) = true).
    { unfold sbind at 1, contents in H. destruct (objs t j) as [[?|?]|]; congruence || reflexivity. }
    assert (Hj : exists y, objs t j = Some (SOpt y))
      by (destruct (objs t j) as [[y|?]|]; try discriminate; eauto).
    destruct Hj as (y & Hj). rewrite (sbind_ok _ _ _ _ _ (contents_eq _ _ _ Hj)) in H.
    unfold sbind at 1 in H.
    destruct (s_ctor_from tid stor (smove pops stor isv i) k i t) as [r1 t1] eqn:H1.
    assert (N1 : r1 <> SUndef) by (intros ->; congruence).
    destruct (move_ctor_keeps _ _ _ _ _ H1 N1) as (K1 & K2 & K3 & K4 & K5).
    assert (Nik : i <> k) by (intros ->; rewrite K1 in K2; discriminate).
    assert (Njk : j <> k) by congruence.
    destruct r1 as [[]|e1|]; [|injection H as <- <-|congruence].
    - unfold sbind at 1, s_on_throw in H.
      destruct ((s_move_assign tid pops stor isv i j;;; s_move_assign tid pops stor isv j k) t1)
        as [r2 t2] eqn:H2.
      assert (N2 : r2 <> SUndef) by (intros ->; congruence).
      assert (M : is_opt (objs t1 j) = true /\
                  is_opt (objs t2 i) = true /\ is_opt (objs t2 j) = true /\ is_opt (objs t2 k) = true /\
                  forall l, l <> i -> l <> j -> l <> k -> objs t2 l = objs t1 l).
      { unfold sbind in H2. destruct (s_move_assign tid pops stor isv i j t1) as [r3 t3] eqn:H3.
        assert (N3 : r3 <> SUndef) by (intros ->; congruence).
        destruct (move_assign_keeps _ _ _ _ _ H3 N3) as (A1 & A2 & A3 & A4 & A5).
        assert (Ak : is_opt (objs t3 k) = true).
        { destruct (Nat.eq_dec k j) as [->|Nkj]; [exact A4|]. rewrite A5 by congruence. exact K3. }
        destruct r3 as [[]|e3|]; [|injection H2 as <- <-|congruence].
        - destruct (move_assign_keeps _ _ _ _ _ H2 N2) as (B1 & B2 & B3 & B4 & B5).
          split; [exact A2|]. split.
          + destruct (Nat.eq_dec i j) as [->|Nij]; [exact B3|]. rewrite B5 by congruence. exact A3.
          + split; [exact B3|]. split; [exact B4|].
            intros l L1 L2 L3. rewrite B5, A5 by assumption. reflexivity.
        - repeat split; auto. }
      destruct M as (M1 & M2 & M3 & M4 & M5).
      assert (D : exists r4 t4, s_dtor pops k t2 = (r4, t4) /\ r4 <> SUndef /\ t' = t4).
      { destruct r2 as [[]|e2|]; [| |congruence].
        - exists r, t'. auto.
        - destruct (s_dtor pops k t2) as [[[]|?|] t4] eqn:H4; injection H as <- <-; try congruence.
          eexists _, _. split; [reflexivity|]. split; [discriminate|reflexivity]. }
      destruct D as (r4 & t4 & H4 & N4 & ->).
      destruct (dtor_keeps _ _ _ _ H4 N4) as (_ & D1 & D2).
      split; [exact K1|]. split; [exact D1|]. split; [exact K2|].
      split; [exact K0|].
      split; [rewrite D2 by congruence; exact M2|]. split; [rewrite D2 by congruence; exact M3|].
      intros l L1 L2. destruct (Nat.eq_dec l k) as [->|L3]; [congruence|].
      rewrite D2, M5, K5 by congruence. reflexivity.
    - split; [exact K1|]. split; [exact K3|]. split; [exact K2|]. split; [exact K0|].
      split; [exact K4|]. split.
      + destruct (Nat.eq_dec j i) as [->|N]; [exact K4|]. rewrite K5 by congruence. exact K0.
      + intros l L1 L2. destruct (Nat.eq_dec l k) as [->|L3]; [congruence|]. apply K5; assumption.
  Qed.

  Lemma std_swap_step i j k t r t' :
    sstep tid pops stor isv (OStdSwap i j k) t = (r, t') -> r <> SUndef ->
    objs t k = None /\ objs t' k = None /\
    is_opt (objs t i) = true /\ is_opt (objs t j) = true /\
    is_opt (objs t' i) = true /\ is_opt (objs t' j) = true /\
    forall l, l <> i -> l <> j -> objs t' l = objs t l.
  Proof.
    cbn [sstep]. unfold sunit, sbind, sret. intros H ND.
    destruct (s_std_swap tid pops stor isv i j k t) as [r1 t1] eqn:H1.
    assert (r1 <> SUndef) by (intros ->; congruence).
    replace t' with t1 by (destruct r1; congruence). eapply std_swap_keeps; eassumption.
  Qed.
End StdSwapKeeps.

(** Whatever call throws: no optional has come into existence or disappeared, and
    every optional is engaged iff it was, except that an optional whose emplace
    threw is empty, and that the generic std::swap may lose a value
    ([SwapCall.C54_std_swap_outcome]). *)
Theorem throw_keeps_engagement :
  forall W (E : env W) w p s o e s',
    env_ok E -> call_after E w p s o (Throw e) s' ->
    (forall j, fresh_after E w p j -> mem s' j = None) /\
    (forall j x, opt_after E w p j x -> (forall a b k, o = OStdSwap a b k -> j <> a /\ j <> b) ->
       has_value E j s' =
       (Ok (match o with
            | OEmplace i _ => if Nat.eqb i j then false else is_some x
            | _ => is_some x
            end), s')).
Proof.
  intros W E w p s o e s' HE C.
  destruct (call_spec_at E HE _ _ _ _ _ _ C) as (xs & t & t' & sr & Ht & R & Hs & R' & Hr).
  destruct sr as [a|e0|]; try contradiction; try discriminate. injection Hr as <-.
  assert (K : forall j, match o with
                        | OEmplace i _ => if Nat.eqb i j then objs t' j = Some (SOpt None)
                                          else shape (objs t' j) = shape (objs t j)
                        | OStdSwap a b k => j <> a -> j <> b -> objs t' j = objs t j
                        | _ => shape (objs t' j) = shape (objs t j)
                        end).
  { intros j. destruct o; try (eapply step_tkeeps; [| |exact Hs]; discriminate).
    - destruct (emplace_tkeeps E _ _ _ _ _ Hs) as (H1 & H2).
      destruct (Nat.eqb_spec i j) as [<-|N]; [exact H1|]. apply H2. congruence.
    - destruct (std_swap_step E _ _ _ _ _ _ Hs ltac:(discriminate)) as (_ & _ & _ & _ & _ & _ & H2). apply H2. }
  split.
  - intros j Hf. pose proof (fresh_after_at E _ _ _ _ _ Hf Ht) as Hj. specialize (K j).
    apply (rel_fresh E _ _ _ R'). destruct o; rewrite ?Hj in K; try (apply shape_none, K).
    2:{ destruct (std_swap_step E _ _ _ _ _ _ Hs ltac:(discriminate)) as (_ & _ & H1 & H2 & _).
        apply K; intros ->; rewrite Hj in *; discriminate. }
    revert K. destruct (Nat.eqb_spec i j) as [Eij|N]; intros K; [|apply shape_none, K].
    exfalso. subst j. cbn in Hs. unfold sunit, s_emplace, s_clear, sbind, contents in Hs. rewrite Hj in Hs. discriminate.
  - intros j x Hx Hsw. pose proof (opt_after_at E _ _ _ _ _ _ Hx Ht) as Hj. specialize (K j).
    assert (G : shape (objs t' j) = shape (objs t j) -> has_value E j s' = (Ok (is_some x), s')).
    { intros Hsh. rewrite Hj in Hsh. apply shape_opt in Hsh as (x' & Ho & <-).
      exact (has_value_eq E _ _ _ _ _ R' I Ho). }
    destruct o; try (apply G, K).
    2:{ destruct (Hsw _ _ _ eq_refl). apply G. rewrite K by assumption. reflexivity. }
    revert K. destruct (Nat.eqb_spec i j) as [Eij|N]; intros K; [|apply G, K].
    exact (has_value_eq E _ _ _ _ _ R' I K).
Qed.

(** ** C11: a throwing construction *)

(** The value that the (first) argument of an initializer refers to; the values that all
    its arguments refer to. *)
Definition val_at {W} (E : env W) (j : loc) (s : state W) : rep :=
  match load_payload E j s with (Ok v, _) => v | _ => [] end.
Definition src_val {W} (E : env W) (n : ini W) (s : state W) : rep :=
  match i_src n with None => [] | Some j => val_at E j s end.
Definition src_vals {W} (E : env W) (n : ini W) (s : state W) : rep :=
  joined (src_val E n s) (map (fun x => val_at E (fst x) s) (i_more n)).
(** Outcome of a call whose user function had this outcome. *)
Definition outcome {A} (r : res A) : out obs :=
  match r with ROk _ => Ok ObUnit | RThrow e => Throw e end.
Definition after {A} (r : res A) (x y : option rep) : option rep :=
  match r with ROk _ => x | RThrow _ => y end.

Section Construct.
  Context {W : Type}.
  Variable E : env W.
  Hypothesis HE : env_ok E.
  Notation sstep' := (sstep (e_tid E) (ops E) (storable E) (is_value E)).

  Lemma load_rel s t j v :
    rel E NoHole s t -> sread j t = (SOk v, t) -> load_payload E j s = (Ok v, s).
  Proof.
    intros R H. pose proof (refines_load E NoHole j s t R) as L. unfold agrees in L. rewrite H in L.
    destruct L as (s' & L & _). rewrite L. f_equal.
    revert L. unfold load_payload, bind, get_region, ret, dead. destruct (mem s j) as [r|]; [|congruence].
    destruct (pay_obj r); congruence.
  Qed.

  Lemma load_more_rel s t l : rel E NoHole s t ->
    forall vs t1, sread_more l t = (SOk vs, t1) -> vs = map (fun x => val_at E (fst x) s) l.
  Proof.
    intros R. induction l as [|[j c] l IH]; intros vs t1; cbn; unfold sbind, sret; [congruence|].
    destruct (sread j t) as [[v|e|] t2] eqn:H1; try discriminate.
    pose proof (sread_state _ _ _ _ H1) as ->.
    destruct (sread_more l t) as [[us|e|] t3] eqn:H2; try discriminate. intros [= <- <-].
    rewrite (IH _ _ eq_refl). unfold val_at at 2. rewrite (load_rel _ _ _ _ R H1). reflexivity.
  Qed.
  Lemma swrite_world j v (t : sstate W) u t' :
    swrite (storable E) (is_value E) j v t = (SOk u, t') -> sworld t' = sworld t.
  Proof.
    unfold swrite, become, sset, sundef. destruct (objs t j) as [[[]|]|]; try discriminate.
    - destruct (storable E j v); [|discriminate]. intros [= <- <-]. reflexivity.
    - destruct (is_value E j v); [|discriminate]. intros [= <- <-]. reflexivity.
  Qed.
  Lemma swrite_more_world l : forall vs (t : sstate W) u t',
    swrite_more (storable E) (is_value E) l vs t = (SOk u, t') -> sworld t' = sworld t.
  Proof.
    induction l as [|[j c] l IH]; intros [|v vs] t u t'; cbn; unfold sbind, sret; try congruence.
    destruct c; [apply IH|].
    destruct (swrite (storable E) (is_value E) j v t) as [[x|e|] t1] eqn:H1; try discriminate.
    intros H. rewrite <- (swrite_world _ _ _ _ _ H1). eauto.
  Qed.

  (** What the initializer computes, if the abstract run is defined. *)
  Lemma sinit_outcome n s t r t' :
    rel E NoHole s t -> sinit (storable E) (is_value E) n t = (r, t') -> r <> SUndef ->
    r = match fst (fst (i_fun n (src_vals E n s) (world s))) with
        | ROk v => SOk v
        | RThrow e => SThrow e
        end /\
    sworld t' = snd (i_fun n (src_vals E n s) (world s)).
  Proof.
    intros R H ND. unfold sinit, sbind in H. unfold src_vals.
    assert (HW : world s = sworld t) by (eapply rel_world; eauto). rewrite HW.
    assert (G : forall src t1, match i_src n with None => sret [] | Some j => sread j end t = (SOk src, t1) ->
                t1 = t /\ src_val E n s = src).
    { intros src t1. unfold src_val, val_at. destruct (i_src n) as [j|].
      - intros Hr. pose proof (sread_state _ _ _ _ Hr) as ->. rewrite (load_rel _ _ _ _ R Hr). auto.
      - intros [= <- <-]. auto. }
    destruct (match i_src n with None => sret [] | Some j => sread j end t) as [[src|e|] t1] eqn:H1.
    - destruct (G _ _ eq_refl) as (-> & ->).
      destruct (sread_more (i_more n) t) as [[more|e|] t1] eqn:H3.
      2:{ destruct (sread_more_throws _ _ _ _ H3). }
      2:{ congruence. }
      pose proof (sread_more_state _ _ _ _ H3) as ->. rewrite <- (load_more_rel _ _ _ R _ _ H3).
      unfold suser in H.
      destruct (i_fun n (joined src more) (sworld t)) as [[x y] w']. cbn [fst snd] in *.
      destruct (match i_src n with
                | Some j => if i_const n then sret tt
                            else swrite (storable E) (is_value E) j (fst (parted src more y))
                | None => sret tt end (MkS (objs t) w')) as [[u|e|] t2] eqn:H2.
      + assert (W2 : sworld t2 = w').
        { destruct (i_src n) as [j|]; [destruct (i_const n)|]; try (injection H2 as <- <-; reflexivity).
          apply swrite_world in H2. exact H2. }
        destruct (swrite_more (storable E) (is_value E) (i_more n) (snd (parted src more y)) t2)
          as [[u'|e|] t4] eqn:H4.
        2:{ destruct (swrite_more_throws E _ _ _ _ _ H4). }
        2:{ congruence. }
        apply swrite_more_world in H4.
        destruct x; unfold sres, sret, sthrow in H; injection H as <- <-; split; congruence.
      + destruct (i_src n) as [j|]; [destruct (i_const n)|]; try discriminate.
        destruct (swrite_not_throw E _ _ _ _ _ H2).
      + congruence.
    - exfalso. destruct (i_src n) as [j|]; [|discriminate]. unfold sread in H1.
      destruct (objs t j) as [[[]|]|]; discriminate.
    - congruence.
  Qed.
  Lemma sinit_result n s t r t' :
    rel E NoHole s t -> sinit (storable E) (is_value E) n t = (r, t') -> r <> SUndef ->
    r = match fst (fst (i_fun n (src_vals E n s) (world s))) with
        | ROk v => SOk v
        | RThrow e => SThrow e
        end.
  Proof. intros R H ND. apply (sinit_outcome n s t r t' R H ND). Qed.
End Construct.

(** emplace, in every state of the optional: [s0] is the state after the old
    payload is gone.  The call throws iff the constructor does; then the optional is
    empty. *)
Theorem C11_emplace :
  forall W (E : env W) w p s i n r s',
    env_ok E -> call_after E w p s (OEmplace i n) r s' ->
    let s0 := snd (reset E i s) in
    match fst (fst (i_fun n (src_vals E n s0) (world s0))) with
    | ROk v => r = Ok ObUnit /\ peek E i s' = Some (Some v)
    | RThrow e => r = Throw e /\ peek E i s' = Some None
    end.
Proof.
  intros W E w p s i n r s' HE C s0.
  destruct (call_spec_at E HE _ _ _ _ _ _ C) as (xs & t & t' & sr & Ht & R & Hs & R' & Hr).
  cbn [sstep] in Hs. unfold sunit, s_emplace in Hs. unfold sbind at 1 in Hs.
  destruct ((s_clear (ops E) (storable E) i;;; v <-- sinit (storable E) (is_value E) n;;;
             become (storable E) i (Some v)) t) as [a t1] eqn:H1.
  unfold sbind at 1 in H1.
  pose proof (refines_reset E HE i s t R) as RR. unfold agrees in RR.
  destruct (s_clear (ops E) (storable E) i t) as [[u|e0|] t2] eqn:H2.
  2:{ destruct (nothrow_clear E _ _ _ _ H2). }
  2:{ injection H1 as <- <-. injection Hs as <- <-. contradiction. }
  destruct RR as (s2 & Hreset & R2). subst s0. rewrite Hreset. cbn [snd].
  unfold sbind in H1. destruct (sinit (storable E) (is_value E) n t2) as [x t3] eqn:H3.
  pose proof (sinit_result E n s2 t2 x t3 R2 H3) as Hx.
  destruct x as [v|e0|].
  - specialize (Hx ltac:(discriminate)).
    destruct (fst (fst (i_fun n (src_vals E n s2) (world s2)))) as [v'|e']; [|discriminate].
    injection Hx as <-. unfold become in H1.
    destruct (storable E i v) eqn:St; injection H1 as <- <-; cbn in Hs; injection Hs as <- <-.
    + split; [exact Hr|]. eapply peek_rel; [exact R'|]. cbn. apply upd_same.
    + contradiction.
  - specialize (Hx ltac:(discriminate)).
    destruct (fst (fst (i_fun n (src_vals E n s2) (world s2)))) as [v'|e']; [discriminate|].
    injection Hx as <-. injection H1 as <- <-. cbn in Hs. injection Hs as <- <-.
    split; [exact Hr|].
    destruct (emplace_tkeeps E i n t e0 t3) as (Hi & _).
    { cbn [sstep]. unfold sunit, s_emplace, sbind. rewrite H2, H3. reflexivity. }
    eapply peek_rel; eauto.
  - injection H1 as <- <-. cbn in Hs. injection Hs as <- <-. contradiction.
Qed.

(** Assigning a value to an empty optional. *)
Theorem C11_assign_to_empty :
  forall W (E : env W) w p s i a r s',
    env_ok E -> call_after E w p s (OAssign i a) r s' -> opt_after E w p i None ->
    match fst (fst (i_fun (a_ini a) (src_vals E (a_ini a) s) (world s))) with
    | ROk v => r = Ok ObUnit /\ peek E i s' = Some (Some v)
    | RThrow e => r = Throw e /\ peek E i s' = Some None
    end.
Proof.
  intros W E w p s i a r s' HE C Ho.
  destruct (call_spec_at E HE _ _ _ _ _ _ C) as (xs & t & t' & sr & Ht & R & Hs & R' & Hr).
  pose proof (opt_after_at E _ _ _ _ _ _ Ho Ht) as Hi.
  cbn [sstep] in Hs. unfold sunit, s_assign, contents, sbind in Hs. rewrite Hi in Hs.
  destruct (sinit (storable E) (is_value E) (a_ini a) t) as [x t3] eqn:H3.
  pose proof (sinit_result E _ s t x t3 R H3) as Hx.
  destruct x as [v|e0|].
  - specialize (Hx ltac:(discriminate)).
    destruct (fst (fst (i_fun (a_ini a) _ (world s)))) as [v'|e']; [|discriminate].
    injection Hx as <-. unfold become in Hs.
    destruct (storable E i v) eqn:St; cbn in Hs; injection Hs as <- <-.
    + split; [exact Hr|]. eapply peek_rel; [exact R'|]. cbn. apply upd_same.
    + contradiction.
  - specialize (Hx ltac:(discriminate)).
    destruct (fst (fst (i_fun (a_ini a) _ (world s)))) as [v'|e']; [discriminate|].
    injection Hx as <-. injection Hs as <- <-. split; [exact Hr|].
    pose proof (keeps_init E (a_ini a) t _ _ H3 i) as K. rewrite Hi in K.
    apply shape_opt in K as (o' & Ho' & K). destruct o'; [discriminate|]. eapply peek_rel; eauto.
  - injection Hs as <- <-. contradiction.
Qed.

(** Copy and move assignment from an engaged to an empty optional. *)
Theorem C11_copy_assign_to_empty :
  forall W (E : env W) w p s i j v r s',
    env_ok E -> call_after E w p s (OCopyAssign i j) r s' ->
    opt_after E w p i None -> opt_after E w p j (Some v) ->
    match fst (po_copy (ops E j) v (world s)) with
    | ROk v' => r = Ok ObUnit /\ peek E i s' = Some (Some v')
    | RThrow e => r = Throw e /\ peek E i s' = Some None
    end /\ peek E j s' = Some (Some v).
Proof.
  intros W E w p s i j v r s' HE C Ho Hv.
  destruct (call_spec_at E HE _ _ _ _ _ _ C) as (xs & t & t' & sr & Ht & R & Hs & R' & Hr).
  pose proof (opt_after_at E _ _ _ _ _ _ Ho Ht) as Hi.
  pose proof (opt_after_at E _ _ _ _ _ _ Hv Ht) as Hj.
  assert (N : i <> j) by congruence. rewrite (rel_world E _ _ R).
  cbn [sstep] in Hs. sunfold Hs. destruct (Nat.eqb (e_tid E i) (e_tid E j)).
  2:{ injection Hs as <- <-. contradiction. }
  seval Hs. destruct (po_copy (ops E j) v (sworld t)) as [[v'|e] w']; cbn in Hs |- *.
  - destruct (storable E i v'); seval Hs; injection Hs as <- <-; [|contradiction].
    split; [split; [exact Hr|]|]; (eapply peek_rel; [exact R'|]); cbn;
      [apply upd_same|rewrite upd_other by exact N; exact Hj].
  - injection Hs as <- <-. split; [split; [exact Hr|]|]; (eapply peek_rel; [exact R'|]); cbn; assumption.
Qed.

Theorem C11_move_assign_to_empty :
  forall W (E : env W) w p s i j v r s',
    env_ok E -> call_after E w p s (OMoveAssign i j) r s' ->
    opt_after E w p i None -> opt_after E w p j (Some v) ->
    let (res, src') := fst (po_move (ops E j) v (world s)) in
    match res with
    | ROk v' => r = Ok ObUnit /\ peek E i s' = Some (Some v')
    | RThrow e => r = Throw e /\ peek E i s' = Some None
    end /\ peek E j s' = Some (Some src').
Proof.
  intros W E w p s i j v r s' HE C Ho Hv.
  destruct (call_spec_at E HE _ _ _ _ _ _ C) as (xs & t & t' & sr & Ht & R & Hs & R' & Hr).
  pose proof (opt_after_at E _ _ _ _ _ _ Ho Ht) as Hi.
  pose proof (opt_after_at E _ _ _ _ _ _ Hv Ht) as Hj.
  assert (N : i <> j) by congruence. assert (N' : j <> i) by congruence. rewrite (rel_world E _ _ R).
  cbn [sstep] in Hs. sunfold Hs. destruct (Nat.eqb (e_tid E i) (e_tid E j)).
  2:{ injection Hs as <- <-. contradiction. }
  seval Hs. destruct (po_move (ops E j) v (sworld t)) as [[res src'] w']; seval Hs. cbn.
  destruct (storable E j src'); [|injection Hs as <- <-; contradiction]. seval Hs.
  destruct res as [v'|e]; seval Hs.
  - destruct (storable E i v'); seval Hs; injection Hs as <- <-; [|contradiction].
    split; [split; [exact Hr|]|]; (eapply peek_rel; [exact R'|]); cbn;
      [apply upd_same|rewrite upd_other by exact N; apply upd_same].
  - injection Hs as <- <-. split; [split; [exact Hr|]|]; (eapply peek_rel; [exact R'|]); cbn;
      [rewrite upd_other by exact N'; exact Hi|apply upd_same].
Qed.

(** In short: if one of these calls throws, the optional is empty. *)
Theorem C11_throwing_construction_leaves_empty :
  forall W (E : env W) w p s i o e s',
    env_ok E -> call_after E w p s o (Throw e) s' ->
    (exists n x, o = OEmplace i n /\ opt_after E w p i x) \/
    (opt_after E w p i None /\
     ((exists a, o = OAssign i a) \/ (exists j, o = OCopyAssign i j) \/
      (exists j, o = OMoveAssign i j))) ->
    has_value E i s' = (Ok false, s').
Proof.
  intros W E w p s i o e s' HE C H.
  destruct (throw_keeps_engagement W E w p s o e s' HE C) as (_ & K).
  destruct H as [(n & x & -> & Hx)|(Hx & Ho)]; specialize (K i _ Hx).
  - rewrite Nat.eqb_refl in K. apply K. discriminate.
  - destruct Ho as [(a & ->)|[(j & ->)|(j & ->)]]; apply K; discriminate.
Qed.

(** After any call that threw, every optional that existed can be given a value
    again. *)
Theorem C11_usable_afterwards :
  forall W (E : env W) w p s i x o e s' n v,
    env_ok E -> call_after E w p s o (Throw e) s' -> opt_after E w p i x ->
    ini_ok n -> delivers n v -> storable E i v = true ->
    exists s'', step E (OEmplace i n) s' = (Ok ObUnit, s'') /\ peek E i s'' = Some (Some v).
Proof.
  intros W E w p s i x o e s' n v HE C Hx Hn Hd Hst.
  assert (exists y, opt_after E w (p ++ [o]) i y) as (y & Hy).
  { destruct (call_spec_at E HE _ _ _ _ _ _ C) as (xs & t & t' & sr & Ht & R & Hs & R' & Hr).
    destruct sr as [a|e0|]; try contradiction; try discriminate.
    pose proof (opt_after_at E _ _ _ _ _ _ Hx Ht) as Hi.
    assert (exists y, objs t' i = Some (SOpt y)) as (y & Hy).
    { assert (Hd' : (exists i0 n0, o = OEmplace i0 n0) \/ (exists a b k, o = OStdSwap a b k) \/
                    ((forall i0 n0, o <> OEmplace i0 n0) /\ (forall a b k, o <> OStdSwap a b k)))
        by (destruct o; (left; eexists _, _; reflexivity) || (right; left; eexists _, _, _; reflexivity)
                        || (right; right; split; discriminate)).
      destruct Hd' as [(i0 & n0 & ->)|[(a & b & k & ->)|(Hne & Hns)]].
      - destruct (emplace_tkeeps E _ _ _ _ _ Hs) as (H1 & H2).
        destruct (Nat.eq_dec i i0) as [->|N]; [eauto|]. specialize (H2 i N). rewrite Hi in H2.
        apply shape_opt in H2 as (y & Hy & _). eauto.
      - destruct (std_swap_step E _ _ _ _ _ _ Hs ltac:(discriminate)) as (_ & _ & _ & _ & H1 & H2 & H3).
        assert (is_opt (objs t' i) = true) as Ho.
        { destruct (Nat.eq_dec i a) as [->|Na]; [exact H1|]. destruct (Nat.eq_dec i b) as [->|Nb]; [exact H2|].
          rewrite H3, Hi by assumption. reflexivity. }
        destruct (objs t' i) as [[y|?]|]; try discriminate. eauto.
      - pose proof (step_tkeeps E o Hne Hns _ _ _ Hs i) as H2. rewrite Hi in H2.
        apply shape_opt in H2 as (y & Hy & _). eauto. }
    exists y. unfold opt_after, std_run. rewrite srun_app. unfold std_run in Ht. rewrite Ht.
    cbn [srun]. rewrite Hs. cbn. eexists _, t'. split; [reflexivity|exact Hy]. }
  pose proof C as (Cc & _ & _). pose proof (call_reaches E HE _ _ _ _ _ _ C) as Hre.
  destruct (C03_read_back W E w (p ++ [o]) s' i (OEmplace i n) v HE Cc Hre Hst Hn) as (s2 & H1 & H2 & H3).
  { right. left. exists n, y. auto. }
  exists s2. split; [exact H1|]. unfold peek. rewrite H2. specialize (H3 AccDeref). cbn [acc] in H3.
  rewrite H3. reflexivity.
Qed.

Example C11_example dbg :
  exists s s' s2 s2',
    call_after (sample dbg) (plan [None; Some 7]) [ODefault 10; OEmplace 10 (mkP 1 2)] s
               (OEmplace 10 (mkP 3 4)) (Throw (UserExn 7)) s' /\
    opt_after (sample dbg) (plan [None; Some 7]) [ODefault 10; OEmplace 10 (mkP 1 2)] 10
              (Some [Atom 1; Atom 2]) /\
    call_after (sample dbg) (plan [None; Some 8]) [ODefault 30; OInPlace 31 (mkP 1 2)] s2
               (OCopyAssign 30 31) (Throw (UserExn 8)) s2'.
Proof. eexists _, _, _, _. split; [ex_call|split; [ex_opt|ex_call]]. Qed.

(** ** C12: a throwing payload assignment *)

(** Assigning a value to an engaged optional applies the payload's assignment
    operator; the exception, if any, reaches the caller and the optional contains
    what the operator left behind. *)
Theorem C12_assign_engaged :
  forall W (E : env W) w p s i a d r s',
    env_ok E -> call_after E w p s (OAssign i a) r s' -> opt_after E w p i (Some d) ->
    i_src (a_ini a) <> Some i ->
    let '((res, (d', _)), _) := a_assign a d (src_val E (a_ini a) s) (world s) in
    r = outcome res /\ peek E i s' = Some (Some d').
Proof.
  intros W E w p s i a d r s' HE C Ho N.
  destruct (call_spec_at E HE _ _ _ _ _ _ C) as (xs & t & t' & sr & Ht & R & Hs & R' & Hr).
  pose proof (opt_after_at E _ _ _ _ _ _ Ho Ht) as Hi. unfold src_val, val_at.
  rewrite (rel_world E _ _ R). cbn [sstep] in Hs.
  unfold sunit, s_assign in Hs. unfold sbind at 1 2 in Hs. unfold contents in Hs. rewrite Hi in Hs.
  unfold s_assign_existing in Hs. destruct (i_src (a_ini a)) as [j|].
  - assert (Nij : i <> j) by congruence. assert (Nji : j <> i) by congruence.
    rewrite (proj2 (Nat.eqb_neq _ _) Nij) in Hs.
    destruct (sread j t) as [rj tj] eqn:Hj. pose proof (sread_state _ _ _ _ Hj) as ->.
    unfold sbind in Hs. rewrite (sread_eq t i d Hi) in Hs. rewrite Hj in Hs.
    destruct rj as [v|e|]; [| |injection Hs as <- <-; contradiction].
    2:{ exfalso. unfold sread in Hj. destruct (objs t j) as [[[]|]|]; discriminate. }
    rewrite (load_rel E _ _ _ _ R Hj). unfold suser in Hs.
    destruct (a_assign a d v (sworld t)) as [[res [d' v']] w']. cbn [fst snd] in Hs.
    unfold swrite at 1 in Hs. cbn [objs] in Hs. rewrite Hi in Hs. unfold become, sset in Hs.
    destruct (storable E i d'); [|sdone Hs Hr]. cbn [objs sworld] in Hs.
    assert (G : forall t2, objs t2 i = Some (SOpt (Some d')) ->
      (match sres res t2 with
       | (SOk _, s'0) => sret ObUnit s'0
       | (SThrow e, s'0) => (SThrow e, s'0)
       | (SUndef, s'0) => (SUndef, s'0)
       end) = (sr, t') -> r = outcome res /\ peek E i s' = Some (Some d')).
    { intros t2 Hi2 Hx. destruct res; cbn in Hx; injection Hx as <- <-;
        (split; [exact Hr|]); (eapply peek_rel; [exact R'|exact Hi2]). }
    destruct (i_const (a_ini a)); cbn in Hs.
    + eapply G; [|exact Hs]. cbn. apply upd_same.
    + destruct (swrite (storable E) (is_value E) j v' _) as [r2 t2] eqn:H2.
      assert (objs t2 i = Some (SOpt (Some d'))) as Hi2.
      { revert H2. unfold swrite. cbn. rewrite upd_other by exact Nij.
        destruct (objs t j) as [[[]|]|]; try (intros [= <- <-]; cbn; apply upd_same).
        - unfold become, sset. destruct (storable E j v'); intros [= <- <-]; cbn;
            rewrite ?(upd_other _ j _ i) by exact Nji; apply upd_same.
        - unfold sset. destruct (is_value E j v'); intros [= <- <-]; cbn;
            rewrite ?(upd_other _ j _ i) by exact Nji; apply upd_same. }
      destruct r2; [apply (G _ Hi2 Hs)| |sdone Hs Hr].
      exfalso. eapply swrite_not_throw, H2.
  - unfold sbind in Hs. rewrite (sread_eq t i d Hi) in Hs. unfold suser in Hs.
    destruct (a_assign a d [] (sworld t)) as [[res [d' v']] w']. cbn [fst snd] in Hs.
    unfold swrite at 1 in Hs. cbn [objs] in Hs. rewrite Hi in Hs. unfold become, sset in Hs.
    destruct (storable E i d'); [|sdone Hs Hr].
    destruct res; cbn in Hs; injection Hs as <- <-; (split; [exact Hr|]);
      (eapply peek_rel; [exact R'|cbn; apply upd_same]).
Qed.

Theorem C12_copy_assign_engaged :
  forall W (E : env W) w p s i j d v r s',
    env_ok E -> call_after E w p s (OCopyAssign i j) r s' -> i <> j ->
    opt_after E w p i (Some d) -> opt_after E w p j (Some v) ->
    let '((res, d'), _) := po_cassign (ops E j) d v (world s) in
    r = outcome res /\ peek E i s' = Some (Some d') /\ peek E j s' = Some (Some v).
Proof.
  intros W E w p s i j d v r s' HE C N Ho Hv.
  destruct (call_spec_at E HE _ _ _ _ _ _ C) as (xs & t & t' & sr & Ht & R & Hs & R' & Hr).
  pose proof (opt_after_at E _ _ _ _ _ _ Ho Ht) as Hi.
  pose proof (opt_after_at E _ _ _ _ _ _ Hv Ht) as Hj.
  assert (N' : j <> i) by congruence. rewrite (rel_world E _ _ R).
  cbn [sstep] in Hs. sunfold Hs. destruct (Nat.eqb (e_tid E i) (e_tid E j)); [|sdone Hs Hr].
  seval Hs. destruct (po_cassign (ops E j) d v (sworld t)) as [[res d'] w']; seval Hs.
  destruct (storable E i d'); [|sdone Hs Hr]. seval Hs.
  destruct res; seval Hs; injection Hs as <- <-; (split; [exact Hr|]);
    (split; (eapply peek_rel; [exact R'|]); cbn; [apply upd_same|rewrite upd_other by exact N; exact Hj]).
Qed.

Theorem C12_move_assign_engaged :
  forall W (E : env W) w p s i j d v r s',
    env_ok E -> call_after E w p s (OMoveAssign i j) r s' -> i <> j ->
    opt_after E w p i (Some d) -> opt_after E w p j (Some v) ->
    let '((res, (d', v')), _) := po_massign (ops E j) d v (world s) in
    r = outcome res /\ peek E i s' = Some (Some d') /\ peek E j s' = Some (Some v').
Proof.
  intros W E w p s i j d v r s' HE C N Ho Hv.
  destruct (call_spec_at E HE _ _ _ _ _ _ C) as (xs & t & t' & sr & Ht & R & Hs & R' & Hr).
  pose proof (opt_after_at E _ _ _ _ _ _ Ho Ht) as Hi.
  pose proof (opt_after_at E _ _ _ _ _ _ Hv Ht) as Hj.
  assert (N' : j <> i) by congruence. rewrite (rel_world E _ _ R).
  cbn [sstep] in Hs. sunfold Hs. destruct (Nat.eqb (e_tid E i) (e_tid E j)); [|sdone Hs Hr].
  seval Hs. destruct (po_massign (ops E j) d v (sworld t)) as [[res [d' v']] w']; seval Hs.
  destruct (storable E i d'); [|sdone Hs Hr]. seval Hs.
  destruct (storable E j v'); [|sdone Hs Hr]. seval Hs.
  destruct res; seval Hs; injection Hs as <- <-; (split; [exact Hr|]);
    (split; (eapply peek_rel; [exact R'|]); cbn;
     [rewrite upd_other by exact N'; apply upd_same|apply upd_same]).
Qed.

Example C12_example dbg :
  exists s s',
    call_after (sample dbg) (plan [None; None; Some 7]) [OInPlace 10 (mkP 1 2); OInPlace 11 (mkP 3 4)] s
               (OMoveAssign 10 11) (Throw (UserExn 7)) s' /\
    opt_after (sample dbg) (plan [None; None; Some 7]) [OInPlace 10 (mkP 1 2); OInPlace 11 (mkP 3 4)]
              10 (Some [Atom 1; Atom 2]) /\
    peek (sample dbg) 10 s' = Some (Some [Atom 1; Atom 2]).
Proof. eexists _, _. split; [ex_call|split; [ex_opt|run_it]]. Qed.

(** ** C13: a throwing swap *)

Theorem C13_throwing_swap :
  forall W (E : env W) w p s i j x y e s',
    env_ok E -> call_after E w p s (OSwap i j) (Throw e) s' ->
    opt_after E w p i x -> opt_after E w p j y ->
    has_value E i s' = (Ok (is_some x), s') /\ has_value E j s' = (Ok (is_some y), s').
Proof.
  intros W E w p s i j x y e s' HE C Hx Hy.
  destruct (throw_keeps_engagement W E w p s _ e s' HE C) as (_ & K).
  split; [apply (K i _ Hx)|apply (K j _ Hy)]; discriminate.
Qed.

(** When it throws: with both engaged iff the payloads' swap does, with one engaged
    iff the move constructor does, otherwise never; and the values left behind. *)
Theorem C13_swap_outcome :
  forall W (E : env W) w p s i j x y r s',
    env_ok E -> call_after E w p s (OSwap i j) r s' -> i <> j ->
    opt_after E w p i x -> opt_after E w p j y ->
    match x, y with
    | Some a, Some b =>
        let '((res, (a', b')), _) := po_swap (ops E i) a b (world s) in
        r = outcome res /\ peek E i s' = Some (Some a') /\ peek E j s' = Some (Some b')
    | Some a, None =>
        let '((res, a'), _) := po_move (ops E i) a (world s) in
        match res with
        | ROk b => r = Ok ObUnit /\ peek E i s' = Some None /\ peek E j s' = Some (Some b)
        | RThrow e => r = Throw e /\ peek E i s' = Some (Some a') /\ peek E j s' = Some None
        end
    | None, Some b =>
        let '((res, b'), _) := po_move (ops E j) b (world s) in
        match res with
        | ROk a => r = Ok ObUnit /\ peek E i s' = Some (Some a) /\ peek E j s' = Some None
        | RThrow e => r = Throw e /\ peek E i s' = Some None /\ peek E j s' = Some (Some b')
        end
    | None, None => r = Ok ObUnit /\ peek E i s' = Some None /\ peek E j s' = Some None
    end.
Proof.
  intros W E w p s i j x y r s' HE C N Ho Hv.
  destruct (call_spec_at E HE _ _ _ _ _ _ C) as (xs & t & t' & sr & Ht & R & Hs & R' & Hr).
  pose proof (opt_after_at E _ _ _ _ _ _ Ho Ht) as Hi.
  pose proof (opt_after_at E _ _ _ _ _ _ Hv Ht) as Hj.
  assert (N' : j <> i) by congruence. rewrite (rel_world E _ _ R).
  cbn [sstep] in Hs. sunfold Hs. destruct (Nat.eqb (e_tid E i) (e_tid E j)); [|sdone Hs Hr].
  seval Hs. destruct x as [a|], y as [b|]; seval Hs.
  - destruct (po_swap (ops E i) a b (sworld t)) as [[res [a' b']] w']; seval Hs.
    destruct (storable E i a'); [|sdone Hs Hr]. seval Hs.
    destruct (storable E j b'); [|sdone Hs Hr]. seval Hs.
    destruct res; seval Hs; injection Hs as <- <-; (split; [exact Hr|]);
      (split; (eapply peek_rel; [exact R'|]); cbn;
       [rewrite upd_other by exact N'; apply upd_same|apply upd_same]).
  - destruct (po_move (ops E i) a (sworld t)) as [[res a'] w']; seval Hs.
    destruct (storable E i a'); [|sdone Hs Hr]. seval Hs.
    destruct res as [b|e]; seval Hs.
    + destruct (storable E j b); [|sdone Hs Hr]. seval Hs. injection Hs as <- <-. split; [exact Hr|].
      split; (eapply peek_rel; [exact R'|]); cbn; [apply upd_same|rewrite upd_other by exact N; apply upd_same].
    + injection Hs as <- <-. split; [exact Hr|].
      split; (eapply peek_rel; [exact R'|]); cbn; [apply upd_same|rewrite upd_other by exact N; exact Hj].
  - destruct (po_move (ops E j) b (sworld t)) as [[res b'] w']; seval Hs.
    destruct (storable E j b'); [|sdone Hs Hr]. seval Hs.
    destruct res as [a|e]; seval Hs.
    + destruct (storable E i a); [|sdone Hs Hr]. seval Hs. injection Hs as <- <-. split; [exact Hr|].
      split; (eapply peek_rel; [exact R'|]); cbn; [rewrite upd_other by exact N'; apply upd_same|apply upd_same].
    + injection Hs as <- <-. split; [exact Hr|].
      split; (eapply peek_rel; [exact R'|]); cbn; [rewrite upd_other by exact N'; exact Hi|apply upd_same].
  - injection Hs as <- <-. split; [exact Hr|].
    split; (eapply peek_rel; [exact R'|]); cbn; assumption.
Qed.

Example C13_example dbg :
  exists s s' s2 s2',
    call_after (sample dbg) (plan [None; Some 7]) [OInPlace 10 (mkP 1 2); ODefault 11] s
               (OSwap 11 10) (Throw (UserExn 7)) s' /\
    opt_after (sample dbg) (plan [None; Some 7]) [OInPlace 10 (mkP 1 2); ODefault 11] 11 None /\
    call_after (sample dbg) (plan [None; None; Some 7]) [OInPlace 0 (mkP 1 2); OInPlace 1 (mkP 3 4)] s2
               (OSwap 0 1) (Throw (UserExn 7)) s2'.
Proof. eexists _, _, _, _. split; [ex_call|split; [ex_opt|ex_call]]. Qed.

(** ** C26: exceptions of transform's callable *)

(** If constructing the result may throw, the callable's exception reaches the
    caller, the source stays engaged and no result optional exists. *)
Theorem C26_transform_propagates :
  forall W (E : env W) w p s k i c f v r s',
    env_ok E -> call_after E w p s (OTransform k i c f false) r s' -> opt_after E w p i (Some v) ->
    let '((res, v'), _) := f v (world s) in
    r = outcome res /\
    peek E i s' = Some (Some (if c then v else v')) /\
    match res with
    | ROk x => peek E k s' = Some (Some x)
    | RThrow _ => mem s' k = None
    end.
Proof.
  intros W E w p s k i c f v r s' HE C Ho.
  destruct (call_spec_at E HE _ _ _ _ _ _ C) as (xs & t & t' & sr & Ht & R & Hs & R' & Hr).
  pose proof (opt_after_at E _ _ _ _ _ _ Ho Ht) as Hi. rewrite (rel_world E _ _ R).
  cbn [sstep] in Hs. sunfold Hs. seval Hs. destruct (objs t k) eqn:Hk; [sdone Hs Hr|].
  assert (N : i <> k) by congruence. assert (N' : k <> i) by congruence. cbn in Hs.
  destruct (f v (sworld t)) as [[res v'] w']; seval Hs.
  destruct c; seval Hs.
  - destruct res as [x|e]; seval Hs.
    + destruct (storable E k x); [|sdone Hs Hr]. seval Hs. injection Hs as <- <-.
      split; [exact Hr|]. split; (eapply peek_rel; [exact R'|]); cbn;
        [rewrite upd_other by exact N'; exact Hi|apply upd_same].
    + injection Hs as <- <-. split; [exact Hr|]. split; [eapply peek_rel; [exact R'|exact Hi]|].
      eapply rel_fresh; [exact R'|exact Hk].
  - destruct (storable E i v'); [|sdone Hs Hr]. seval Hs. destruct res as [x|e]; seval Hs.
    + destruct (storable E k x); [|sdone Hs Hr]. seval Hs. injection Hs as <- <-.
      split; [exact Hr|]. split; (eapply peek_rel; [exact R'|]); cbn;
        [rewrite upd_other by exact N'; apply upd_same|apply upd_same].
    + injection Hs as <- <-. split; [exact Hr|].
      split; [eapply peek_rel; [exact R'|cbn; apply upd_same]|].
      eapply rel_fresh; [exact R'|cbn; rewrite upd_other by exact N; exact Hk].
Qed.

(** But if constructing the result from the callable's return value cannot throw
    (the last argument [true]), an exception of the callable itself terminates the
    program: in every state, for every such callable. *)
Theorem transform_throw_terminates :
  forall W (E : env W) w p s k i c f v e v' w',
    env_ok E -> contract E w p -> reaches E w p s ->
    opt_after E w p i (Some v) -> fresh_after E w p k ->
    f v (world s) = ((RThrow e, v'), w') -> (c = true \/ storable E i v' = true) ->
    fst (step E (OTransform k i c f true) s) = Dead Terminated.
Proof.
  intros W E w p s k i c f v e v' w' HE C Hr Hi Hk Hf Hc.
  destruct (reaches_rel E HE w p s C Hr) as (xs & t & Ht & R).
  pose proof (opt_after_at E _ _ _ _ _ _ Hi Ht) as Ho.
  pose proof (fresh_after_at E _ _ _ _ _ Hk Ht) as Hn.
  cbn [step]. unfold unit_, transform.
  assert (H : bind (has_value E i) (fun b => if b then op_deref E i;; ctor_from_function E k (MkIni (Some i) c f true)
                                   else ctor_default E k) s
              = ctor_from_function E k (MkIni (Some i) c f true) s).
  { rewrite (bind_ok _ _ _ _ _ (has_value_true E s t i v R Ho)).
    rewrite (bind_ok _ _ _ _ _ (deref_eq E _ _ _ _ R Ho)). reflexivity. }
  unfold bind at 1. rewrite H. clear H.
  destruct (alloc_ok E _ _ _ R Hn) as (s1 & H1 & R1).
  destruct (init_ok E HE _ _ _ R1) as (s2 & H2 & R2).
  destruct (invalidate_ok E HE _ _ _ R2) as (s3 & H3 & R3).
  pose proof (placement_agrees E HE _ (MkIni (Some i) c f true) _ _ R3) as HP.
  assert (HS : exists t', sbind (sinit (storable E) (is_value E) (MkIni (Some i) c f true))
                 (fun x => become (storable E) k (Some x)) t = (SThrow e, t')).
  { unfold sinit. cbn [i_src i_fun i_const i_more sread_more swrite_more]. unfold sbind. rewrite (sread_eq _ _ _ Ho).
    unfold sret at 1. cbn [joined parted]. unfold suser. rewrite (rel_world E _ _ R) in Hf. rewrite Hf. cbn [fst snd].
    destruct c; cbn; [eauto|]. destruct Hc as [Hc|Hc]; [discriminate|].
    unfold swrite. cbn. rewrite Ho. unfold become. rewrite Hc. cbn. eauto. }
  destruct HS as (t' & HS). rewrite HS in HP. destruct HP as (s4 & HP & _).
  unfold ctor_from_function. rewrite (bind_ok _ _ _ _ _ H1). unfold on_throw.
  rewrite (bind_ok _ _ _ _ _ H2). unfold construct_payload_from_function, noexcept_if. cbn [i_nothrow].
  rewrite (bind_ok _ _ _ _ _ (assert_true E s2 (not_ (has_value E k))
        (not_eq s2 _ false (hole_has_value E _ _ _ R2)))).
  rewrite (bind_ok _ _ _ _ _ H3). rewrite (bind_throw _ _ _ _ _ HP). reflexivity.
Qed.

(** So the property does not hold: std::optional throws, the library terminates. *)
Theorem C26_refuted :
  exists (W : Type) (E : env W) w p k i f v e,
    env_ok E /\ contract E w p /\ opt_after E w p i (Some v) /\ fresh_after E w p k /\
    fst (std_run E w (p ++ [OTransform k i true f true])) = Some [ObUnit; ObThrow e] /\
    fst (run E (p ++ [OTransform k i true f true]) (init_state w)) = inr Terminated.
Proof.
  exists sworld_t, (sample true), quiet, [OInPlace 20 (mkBits 8 1)], 21, 20,
    (fun v w => ((RThrow (UserExn 3), v), w)), (word 8 1), (UserExn 3).
  split; [apply sample_ok|]. split; [ex_contract|]. split; [ex_opt|]. split; [ex_fresh|].
  split; run_it.
Qed.

Example C26_example dbg :
  exists s s',
    call_after (sample dbg) (plan [None; Some 6]) [OInPlace 0 (mkP 1 2)] s
               (OTransform 10 0 true (fun v w => let (r, w') := user v w in ((r, v), w')) false)
               (Throw (UserExn 6)) s' /\
    opt_after (sample dbg) (plan [None; Some 6]) [OInPlace 0 (mkP 1 2)] 0 (Some [Atom 1; Atom 2]).
Proof. eexists _, _. split; [ex_call|ex_opt]. Qed.
