(** * Provenance: optionals never invent values

    If all values that user code puts into the optionals and variables of a type
    satisfy some predicate, and the type's own operations preserve it, then so does
    everything that is ever found in an optional.  For [optional<bool>] this means that
    the empty state (an invalid bool) never leaks out as a value (C06). *)

From Coq Require Import List NArith ZArith Bool Arith Lia.
From Verif Require Import Cells CellsFacts Machine Optional Program Spec Laws Refine.
From Verif Require Import Bits Manip IntRange Select Selection Contract Sample Histories ExampleTac.
From Verif Require Import Sentinels Scalars.
Import ListNotations.

(** ** What is required of user code *)

Section Deals.
  Context {W : Type}.
  Variable E : env W.
  (** The predicate, by type. *)
  Variable V : nat -> rep -> Prop.
  Local Notation tid := (e_tid E).

  (** An initializer for an object of type [t]. *)
  Definition ini_deals (t : nat) (n : ini W) : Prop :=
    forall src more w,
      match i_src n with Some j => V (tid j) src | None => src = [] end ->
      Forall2 (fun x v => V (tid (fst x)) v) (i_more n) more ->
      let r := fst (i_fun n (joined src more) w) in
      (forall v, fst r = ROk v -> V t v) /\
      match i_src n with
      | Some j => i_const n = false -> V (tid j) (fst (parted src more (snd r)))
      | None => True
      end /\
      Forall2 (fun x v => snd x = false -> V (tid (fst x)) v) (i_more n)
              (snd (parted src more (snd r))).
  (** An argument of an assignment to an object of type [t]. *)
  Definition arg_deals (t : nat) (a : arg W) : Prop :=
    ini_deals t (a_ini a) /\
    (forall d src w,
       V t d -> match i_src (a_ini a) with Some j => V (tid j) src | None => True end ->
       V t (fst (snd (fst (a_assign a d src w)))) /\
       match i_src (a_ini a) with
       | Some j => i_const (a_ini a) = false -> V (tid j) (snd (snd (fst (a_assign a d src w))))
       | None => True
       end) /\
    (forall v w, V t v -> V t (snd (fst (a_self a v w)))).
  (** The operations of the payload type [t]. *)
  Record pops_deal (t : nat) (p : payops W) : Prop := {
    pd_copy : forall v w x, V t v -> fst (po_copy p v w) = ROk x -> V t x;
    pd_move : forall v w x, V t v -> fst (fst (po_move p v w)) = ROk x -> V t x;
    pd_moved : forall v w, V t v -> V t (snd (fst (po_move p v w)));
    pd_cassign : forall d v w, V t d -> V t v -> V t (snd (fst (po_cassign p d v w)));
    pd_massign : forall d v w, V t d -> V t v ->
      V t (fst (snd (fst (po_massign p d v w)))) /\ V t (snd (snd (fst (po_massign p d v w))));
    pd_self_cassign : forall v w, V t v -> V t (snd (fst (po_self_cassign p v w)));
    pd_self_massign : forall v w, V t v -> V t (snd (fst (po_self_massign p v w)));
    pd_swap : forall a b w, V t a -> V t b ->
      V t (fst (snd (fst (po_swap p a b w)))) /\ V t (snd (snd (fst (po_swap p a b w))));
    pd_self_swap : forall v w, V t v -> V t (snd (fst (po_self_swap p v w)))
  }.
  (** The user code passed to a call. *)
  Definition op_deals (o : op W) : Prop :=
    match o with
    | OInPlace i n | OEmplace i n => ini_deals (tid i) n
    | OAssign i a => arg_deals (tid i) a
    | OAccess _ i _ f => forall v w, V (tid i) v -> V (tid i) (snd (fst (f v w)))
    | OValueOrCopy i d | OValueOrMove i d => ini_deals (tid i) d
    | OAndThen k i _ f =>
        forall v w, V (tid i) v ->
          V (tid i) (snd (fst (f v w))) /\
          (forall x, fst (fst (f v w)) = ROk (Some x) -> V (tid k) x)
    | OTransform k i _ f _ =>
        forall v w, V (tid i) v ->
          V (tid i) (snd (fst (f v w))) /\ (forall x, fst (fst (f v w)) = ROk x -> V (tid k) x)
    | OOrElse k _ _ f => forall w x, fst (f w) = ROk (Some x) -> V (tid k) x
    | OVarNew i v => V (tid i) v
    | _ => True
    end.

  (** ** The invariant *)

  Definition sound (x : option sobj) (t : nat) : Prop :=
    match x with
    | Some (SOpt (Some v)) | Some (SVar v) => V t v
    | _ => True
    end.
  Definition inv (t : sstate W) : Prop := forall i, sound (objs t i) (tid i).
  Definition keeps {A} (m : @S W A) (Q : A -> Prop) : Prop :=
    forall t, inv t ->
      match m t with
      | (SOk a, t') => inv t' /\ Q a
      | (SThrow _, t') => inv t'
      | (SUndef, _) => True
      end.

  Notation Sto := (storable E).
  Notation Isv := (is_value E).

  Lemma k_ret {A} (a : A) (Q : A -> Prop) : Q a -> keeps (sret a) Q.
  Proof. intros H t I. cbn. auto. Qed.
  Lemma k_throw {A} e (Q : A -> Prop) : keeps (sthrow e) Q.
  Proof. intros t I. cbn. auto. Qed.
  Lemma k_undef {A} (Q : A -> Prop) : keeps sundef Q.
  Proof. intros t I. exact Logic.I. Qed.
  Lemma k_bind {A B} (m : @S W A) (k : A -> @S W B) Q R :
    keeps m Q -> (forall a, Q a -> keeps (k a) R) -> keeps (sbind m k) R.
  Proof.
    intros Hm Hk t I. unfold sbind. specialize (Hm t I). destruct (m t) as [[a|e|] t']; auto.
    destruct Hm as (I' & Qa). apply (Hk a Qa t' I').
  Qed.
  Lemma k_weak {A} (m : @S W A) (Q R : A -> Prop) :
    keeps m Q -> (forall a, Q a -> R a) -> keeps m R.
  Proof.
    intros Hm H t I. specialize (Hm t I). destruct (m t) as [[a|e|] t']; auto.
    destruct Hm; auto.
  Qed.
  Lemma k_user {A} (f : W -> A * W) (Q : A -> Prop) :
    (forall w, Q (fst (f w))) -> keeps (suser f) Q.
  Proof.
    intros H t I. unfold suser. specialize (H (sworld t)). destruct (f (sworld t)) as [a w'].
    split; [exact I|exact H].
  Qed.
  Lemma k_res {A} (r : res A) (Q : A -> Prop) : (forall a, r = ROk a -> Q a) -> keeps (sres r) Q.
  Proof. intros H. destruct r; [apply k_ret, H; reflexivity|apply k_throw]. Qed.
  Lemma k_set i x (Q : unit -> Prop) : sound x (tid i) -> Q tt -> keeps (sset i x) Q.
  Proof.
    intros H HQ t I. cbn. split; [|exact HQ]. intros j. cbn. unfold upd.
    destruct (Nat.eqb_spec i j) as [->|]; [exact H|apply I].
  Qed.
  Lemma k_contents i :
    keeps (contents i) (fun o => match o with Some v => V (tid i) v | None => True end).
  Proof.
    intros t I. unfold contents. specialize (I i) as Ii.
    destruct (objs t i) as [[[v|]|v]|]; auto.
  Qed.
  Lemma k_read i : keeps (sread i) (V (tid i)).
  Proof.
    intros t I. unfold sread. specialize (I i) as Ii.
    destruct (objs t i) as [[[v|]|v]|]; auto.
  Qed.
  Lemma k_become i o :
    match o with Some v => V (tid i) v | None => True end ->
    keeps (become Sto i o) (fun _ => True).
  Proof.
    intros H. unfold become. destruct o as [v|].
    - destruct (storable E i v); [|apply k_undef]. apply k_set; auto.
    - apply k_set; auto.
  Qed.
  Lemma k_fresh i : keeps (fresh i) (fun _ => True).
  Proof. intros t I. unfold fresh. destruct (objs t i); auto. Qed.
  Lemma k_write i v : V (tid i) v -> keeps (swrite Sto Isv i v) (fun _ => True).
  Proof.
    intros H t I. unfold swrite. destruct (objs t i) as [[[x|]|x]|]; auto.
    - apply (k_become i (Some v) H t I).
    - destruct (is_value E i v); auto. apply k_set; auto.
  Qed.

  (** Every value of a payload type is copied, moved, ... soundly. *)
  Hypothesis HP : forall i, pops_deal (tid i) (ops E i).

  Lemma k_read_more l :
    keeps (sread_more l) (fun vs => Forall2 (fun x v => V (tid (fst x)) v) l vs).
  Proof.
    induction l as [|[j c] l IH]; cbn [sread_more].
    - apply k_ret. constructor.
    - eapply k_bind; [apply k_read|]. cbn beta. intros v Hv.
      eapply k_bind; [exact IH|]. cbn beta. intros vs Hvs. apply k_ret. constructor; assumption.
  Qed.
  Lemma k_write_more l : forall vs,
    Forall2 (fun x v => snd x = false -> V (tid (fst x)) v) l vs ->
    keeps (swrite_more Sto Isv l vs) (fun _ => True).
  Proof.
    induction l as [|[j c] l IH]; intros vs H; inversion H as [|? v ? vs' Hv Hvs]; subst;
      cbn [swrite_more].
    - apply k_ret. exact I.
    - eapply k_bind with (Q := fun _ => True).
      + destruct c; [apply k_ret; exact I|apply k_write, Hv; reflexivity].
      + intros _ _. apply IH, Hvs.
  Qed.
  Lemma k_init t n : ini_deals t n -> keeps (sinit Sto Isv n) (V t).
  Proof.
    intros H. unfold sinit.
    eapply k_bind with
      (Q := fun src => match i_src n with Some j => V (tid j) src | None => src = [] end).
    { destruct (i_src n); [apply k_read|apply k_ret; reflexivity]. }
    cbn beta. intros src Hs. eapply k_bind; [apply k_read_more|]. cbn beta. intros more Hm.
    eapply k_bind.
    - apply k_user with (Q := fun p => (forall v, fst p = ROk v -> V t v) /\
        match i_src n with
        | Some j => i_const n = false -> V (tid j) (fst (parted src more (snd p)))
        | None => True
        end /\
        Forall2 (fun x v => snd x = false -> V (tid (fst x)) v) (i_more n)
                (snd (parted src more (snd p)))).
      intros w. exact (H src more w Hs Hm).
    - intros p (Hv & Hx & Hy). eapply k_bind with (Q := fun _ => True).
      + destruct (i_src n) as [j|]; [|apply k_ret; exact I].
        destruct (i_const n); [apply k_ret; exact I|apply k_write; auto].
      + intros _ _. eapply k_bind; [apply k_write_more, Hy|]. intros _ _. apply k_res. exact Hv.
  Qed.
  Lemma k_copy j : keeps (scopy (ops E) j) (V (tid j)).
  Proof.
    eapply k_bind; [apply k_read|]. cbn beta. intros v Hv.
    eapply k_bind.
    - apply k_user with (Q := fun r => forall x, r = ROk x -> V (tid j) x).
      intros w x. apply (pd_copy _ _ (HP j)), Hv.
    - intros r Hr. apply k_res. exact Hr.
  Qed.
  Lemma k_move j : keeps (smove (ops E) Sto Isv j) (V (tid j)).
  Proof.
    eapply k_bind; [apply k_read|]. cbn beta. intros v Hv.
    eapply k_bind.
    - apply k_user with (Q := fun p => (forall x, fst p = ROk x -> V (tid j) x) /\ V (tid j) (snd p)).
      intros w. split; [intros x; apply (pd_move _ _ (HP j)), Hv|apply (pd_moved _ _ (HP j)), Hv].
    - intros p (Hx & Hm). eapply k_bind; [apply k_write, Hm|]. intros _ _. apply k_res, Hx.
  Qed.
  Lemma k_destroy i v : keeps (sdestroy (ops E) i v) (fun _ => True).
  Proof. apply k_user. auto. Qed.
  Lemma k_same i j {A} (m : @S W A) Q :
    (tid i = tid j -> keeps m Q) -> keeps (same tid i j m) Q.
  Proof.
    intros H. unfold same. destruct (Nat.eqb_spec (tid i) (tid j)); [auto|apply k_undef].
  Qed.
  Lemma k_clear i : keeps (s_clear (ops E) Sto i) (fun _ => True).
  Proof.
    eapply k_bind; [apply k_contents|]. intros [v|] Hv; [|apply k_ret; exact I].
    eapply k_bind; [apply k_destroy|]. intros _ _. apply k_become. exact I.
  Qed.
  Lemma k_new k o :
    match o with Some v => V (tid k) v | None => True end ->
    keeps (s_new Sto k o) (fun _ => True).
  Proof. intros H. eapply k_bind; [apply k_fresh|]. intros _ _. apply k_become, H. Qed.
  Lemma k_res_unit (r : res unit) : keeps (sres r) (fun _ => True).
  Proof. apply k_res. auto. Qed.
  Lemma k_ctor_from get i j :
    keeps get (V (tid j)) -> keeps (s_ctor_from tid Sto get i j) (fun _ => True).
  Proof.
    intros Hg. apply k_same. intros T. eapply k_bind; [apply k_fresh|]. intros _ _.
    eapply k_bind; [apply k_contents|]. intros [x|] _; [|apply k_become; exact I].
    eapply k_bind; [apply Hg|]. cbn beta. intros v Hv. apply k_become. rewrite T. exact Hv.
  Qed.

  (** A user function that updates one value, or two. *)
  Lemma k_update1 {A} i (f : W -> (res A * rep) * W) (R : A -> Prop) :
    (forall w, V (tid i) (snd (fst (f w)))) ->
    (forall w a, fst (fst (f w)) = ROk a -> R a) ->
    keeps (sbind (suser f) (fun p => sbind (swrite Sto Isv i (snd p)) (fun _ => sres (fst p)))) R.
  Proof.
    intros H HR. eapply k_bind.
    - apply k_user with (Q := fun p => V (tid i) (snd p) /\ forall a, fst p = ROk a -> R a).
      intros w. split; [apply H|apply HR].
    - intros p (Hp & Hr). eapply k_bind; [apply k_write, Hp|]. intros _ _. apply k_res, Hr.
  Qed.
  Lemma k_update2 i j (f : W -> (res unit * (rep * rep)) * W) :
    (forall w, V (tid i) (fst (snd (fst (f w)))) /\ V (tid j) (snd (snd (fst (f w))))) ->
    keeps (sbind (suser f) (fun p =>
             sbind (swrite Sto Isv i (fst (snd p))) (fun _ =>
             sbind (swrite Sto Isv j (snd (snd p))) (fun _ => sres (fst p))))) (fun _ => True).
  Proof.
    intros H. eapply k_bind.
    - apply k_user with (Q := fun p => V (tid i) (fst (snd p)) /\ V (tid j) (snd (snd p))). exact H.
    - intros p (Hp & Hq). eapply k_bind; [apply k_write, Hp|]. intros _ _.
      eapply k_bind; [apply k_write, Hq|]. intros _ _. apply k_res_unit.
  Qed.

  Lemma k_assign i a : arg_deals (tid i) a -> keeps (s_assign Sto Isv i a) (fun _ => True).
  Proof.
    intros (Hi & Ha & Hs). eapply k_bind; [apply k_contents|]. intros [d|] Hd.
    - unfold s_assign_existing. destruct (i_src (a_ini a)) as [j|].
      + destruct (Nat.eqb_spec i j) as [<-|].
        * eapply k_bind; [apply k_read|]. cbn beta. intros x Hx. apply k_update1; auto.
        * eapply k_bind; [apply k_read|]. cbn beta. intros x Hx.
          eapply k_bind; [apply k_read|]. cbn beta. intros y Hy.
          eapply k_bind.
          -- apply k_user with (Q := fun p => V (tid i) (fst (snd p)) /\
                 (i_const (a_ini a) = false -> V (tid j) (snd (snd p)))).
             intros w. apply Ha; assumption.
          -- intros p (Hp & Hq). eapply k_bind; [apply k_write, Hp|]. intros _ _.
             eapply k_bind with (Q := fun _ => True).
             ++ destruct (i_const (a_ini a)); [apply k_ret; exact I|apply k_write; auto].
             ++ intros _ _. apply k_res_unit.
      + eapply k_bind; [apply k_read|]. cbn beta. intros x Hx.
        eapply k_bind.
        * apply k_user with (Q := fun p => V (tid i) (fst (snd p))). intros w.
          apply (proj1 (Ha x [] w Hx I)).
        * intros p Hp. eapply k_bind; [apply k_write, Hp|]. intros _ _. apply k_res_unit.
    - eapply k_bind; [apply k_init, Hi|]. cbn beta. intros v Hv. apply k_become, Hv.
  Qed.
  Lemma k_copy_assign i j : keeps (s_copy_assign tid (ops E) Sto Isv i j) (fun _ => True).
  Proof.
    apply k_same. intros T. eapply k_bind; [apply k_contents|]. intros src Hsrc.
    eapply k_bind; [apply k_contents|]. intros dst Hdst. destruct dst as [d|], src as [v|].
    - destruct (Nat.eqb_spec i j) as [<-|].
      + apply k_update1; auto. intros w. apply (pd_self_cassign _ _ (HP i)), Hsrc.
      + eapply k_bind; [apply k_read|]. cbn beta. intros x Hx. rewrite T in Hx.
        apply k_update1; auto. intros w. rewrite T. apply (pd_cassign _ _ (HP j)); assumption.
    - eapply k_bind; [apply k_destroy|]. intros _ _. apply k_become. exact I.
    - eapply k_bind; [apply k_copy|]. cbn beta. intros x Hx. apply k_become. rewrite T. exact Hx.
    - apply k_ret. exact I.
  Qed.
  Lemma k_move_assign i j : keeps (s_move_assign tid (ops E) Sto Isv i j) (fun _ => True).
  Proof.
    apply k_same. intros T. eapply k_bind; [apply k_contents|]. intros src Hsrc.
    eapply k_bind; [apply k_contents|]. intros dst Hdst. destruct dst as [d|], src as [v|].
    - destruct (Nat.eqb_spec i j) as [<-|].
      + apply k_update1; auto. intros w. apply (pd_self_massign _ _ (HP i)), Hsrc.
      + eapply k_bind; [apply k_read|]. cbn beta. intros x Hx. rewrite T in Hx.
        apply k_update2. intros w. rewrite T. apply (pd_massign _ _ (HP j)); assumption.
    - eapply k_bind; [apply k_destroy|]. intros _ _. apply k_become. exact I.
    - eapply k_bind; [apply k_move|]. cbn beta. intros x Hx. apply k_become. rewrite T. exact Hx.
    - apply k_ret. exact I.
  Qed.
  Lemma k_swap i j : keeps (s_swap tid (ops E) Sto Isv i j) (fun _ => True).
  Proof.
    apply k_same. intros T. eapply k_bind; [apply k_contents|]. intros a Ha.
    eapply k_bind; [apply k_contents|]. intros b Hb. destruct a as [x|], b as [y|].
    - destruct (Nat.eqb_spec i j) as [<-|].
      + apply k_update1; auto. intros w. apply (pd_self_swap _ _ (HP i)), Ha.
      + apply k_update2. intros w. rewrite <- T in Hb |- *. apply (pd_swap _ _ (HP i)); assumption.
    - eapply k_bind; [apply k_move|]. cbn beta. intros v Hv.
      eapply k_bind; [apply k_become; rewrite <- T; exact Hv|]. intros _ _. apply k_clear.
    - eapply k_bind; [apply k_move|]. cbn beta. intros v Hv.
      eapply k_bind; [apply k_become; rewrite T; exact Hv|]. intros _ _. apply k_clear.
    - apply k_ret. exact I.
  Qed.

  Lemma k_on_throw (m : @S W unit) c :
    keeps m (fun _ => True) -> keeps c (fun _ => True) -> keeps (s_on_throw m c) (fun _ => True).
  Proof.
    intros Hm Hc t It. specialize (Hm t It). unfold s_on_throw.
    destruct (m t) as [[a|e|] t1]; [exact Hm| |exact I].
    specialize (Hc t1 Hm). destruct (c t1) as [[?|?|] t2]; try exact I. apply Hc.
  Qed.
  Lemma k_dtor i : keeps (s_dtor (ops E) i) (fun _ => True).
  Proof.
    eapply k_bind; [apply k_contents|]. intros [v|] _; [|apply k_set; exact I].
    eapply k_bind; [apply k_destroy|]. intros _ _. apply k_set; exact I.
  Qed.
  Lemma k_std_swap i j k : keeps (s_std_swap tid (ops E) Sto Isv i j k) (fun _ => True).
  Proof.
    apply k_same. intros T. eapply k_bind; [apply k_contents|]. intros _ _.
    eapply k_bind; [apply k_ctor_from, k_move|]. intros _ _.
    eapply k_bind; [|intros _ _; apply k_dtor]. apply k_on_throw; [|apply k_dtor].
    eapply k_bind; [apply k_move_assign|]. intros _ _. apply k_move_assign.
  Qed.

  Lemma k_unit (m : @S W unit) : keeps m (fun _ => True) -> keeps (sunit m) (fun _ => True).
  Proof. intros H. eapply k_bind; [exact H|]. intros. apply k_ret. exact I. Qed.
  Lemma k_operand o : keeps (s_operand o) (fun _ => True).
  Proof.
    destruct o; cbn; try (apply k_ret; exact I). eapply k_weak; [apply k_contents|auto].
  Qed.
  Lemma k_relate c r x y : keeps (s_relate (W := W) c r x y) (fun _ => True).
  Proof.
    destruct x, y; cbn; try (apply k_ret; exact I).
    eapply k_bind with (Q := fun _ => True); [apply k_user; auto|]. intros z _. apply k_res. auto.
  Qed.
  Lemma k_relate3 c x y : keeps (s_relate3 (W := W) c x y) (fun _ => True).
  Proof.
    destruct x, y; cbn; try (apply k_ret; exact I).
    eapply k_bind with (Q := fun _ => True); [apply k_user; auto|]. intros z _. apply k_res. auto.
  Qed.
  Lemma k_three g c L R : keeps (s_three (W := W) g c L R) (fun _ => True).
  Proof.
    assert (A : keeps (sbind (s_operand L) (fun x => sbind (s_operand R) (fun y => s_relate3 c x y)))
                      (fun _ => True)).
    { eapply k_bind; [apply k_operand|]. intros x _. eapply k_bind; [apply k_operand|]. intros y _.
      apply k_relate3. }
    assert (B : keeps (sbind (s_operand L) (fun x => sbind (s_operand R) (fun y =>
                         sbind (s_relate3 c y x) (fun o => sret (reverse o))))) (fun _ => True)).
    { eapply k_bind; [apply k_operand|]. intros x _. eapply k_bind; [apply k_operand|]. intros y _.
      eapply k_bind; [apply k_relate3|]. intros. apply k_ret. exact I. }
    destruct L, R; try exact A; try exact B; try apply k_undef. destruct g; [exact A|exact B].
  Qed.

  Lemma k_step o : op_deals o -> keeps (sstep tid (ops E) Sto Isv o) (fun _ => True).
  Proof.
    intros H. destruct o; cbn [sstep op_deals] in *.
    - apply k_unit, k_new; exact I.
    - apply k_unit, k_new; exact I.
    - apply k_unit. eapply k_bind; [apply k_fresh|]. intros _ _.
      eapply k_bind; [apply k_init, H|]. cbn beta. intros v Hv. apply k_become, Hv.
    - apply k_unit, k_ctor_from, k_copy.
    - apply k_unit, k_ctor_from, k_move.
    - apply k_unit. eapply k_bind; [apply k_contents|]. intros [v|] _; [|apply k_set; exact I].
      eapply k_bind; [apply k_destroy|]. intros _ _. apply k_set; exact I.
    - apply k_unit, k_clear.
    - apply k_unit, k_assign, H.
    - apply k_unit, k_copy_assign.
    - apply k_unit, k_move_assign.
    - apply k_unit. eapply k_bind; [apply k_clear|]. intros _ _.
      eapply k_bind; [apply k_init, H|]. cbn beta. intros v Hv. apply k_become, Hv.
    - apply k_unit, k_clear.
    - apply k_unit, k_swap.
    - apply k_unit, k_std_swap.
    - eapply k_bind with (Q := fun _ => True);
        [eapply k_bind; [apply k_contents|]; intros; apply k_ret; exact I|].
      intros. apply k_ret. exact I.
    - eapply k_bind with (Q := fun _ => True);
        [eapply k_bind; [apply k_contents|]; intros; apply k_ret; exact I|].
      intros. apply k_ret. exact I.
    - eapply k_bind with (Q := fun _ => True); [|intros; apply k_ret; exact I].
      eapply k_bind; [apply k_contents|]. intros [v|] Hv; [|destruct k; apply k_throw || apply k_undef].
      eapply k_bind.
      + apply k_user with (Q := fun p => V (tid i) (snd p)). intros w. apply H, Hv.
      + intros p Hp. eapply k_bind with (Q := fun _ => True).
        * destruct cst; [apply k_ret; exact I|apply k_write, Hp].
        * intros _ _. apply k_res. auto.
    - eapply k_bind with (Q := fun _ => True); [|intros; apply k_ret; exact I].
      eapply k_bind; [apply k_contents|]. intros [v|] Hv.
      + eapply k_weak; [apply k_copy|auto].
      + eapply k_weak; [apply k_init, H|auto].
    - eapply k_bind with (Q := fun _ => True); [|intros; apply k_ret; exact I].
      eapply k_bind; [apply k_contents|]. intros [v|] Hv.
      + eapply k_weak; [apply k_move|auto].
      + eapply k_weak; [apply k_init, H|auto].
    - apply k_unit. eapply k_bind; [apply k_contents|]. intros [v|] Hv; [|apply k_new; exact I].
      eapply k_bind.
      + apply k_user with (Q := fun p => V (tid i) (snd p) /\
                                         forall x, fst p = ROk (Some x) -> V (tid k) x).
        intros w. apply H, Hv.
      + intros p (Hp & Hx). eapply k_bind with (Q := fun _ => True).
        * destruct cst; [apply k_ret; exact I|apply k_write, Hp].
        * intros _ _. eapply k_bind.
          -- apply k_res with (Q := fun o => forall x, o = Some x -> V (tid k) x).
             intros o Ho x ->. auto.
          -- cbn beta. intros o Ho. apply k_new. destruct o; auto.
    - apply k_unit. eapply k_bind; [apply k_contents|]. intros [v|] Hv; [|apply k_new; exact I].
      eapply k_bind; [apply k_fresh|]. intros _ _.
      eapply k_bind.
      + apply k_user with (Q := fun p => V (tid i) (snd p) /\
                                         forall x, fst p = ROk x -> V (tid k) x).
        intros w. apply H, Hv.
      + intros p (Hp & Hx). eapply k_bind with (Q := fun _ => True).
        * destruct cst; [apply k_ret; exact I|apply k_write, Hp].
        * intros _ _. eapply k_bind; [apply k_res, Hx|]. cbn beta. intros o Ho. apply k_become, Ho.
    - apply k_unit, k_same. intros T. eapply k_bind; [apply k_contents|]. intros [v|] Hv.
      + eapply k_bind; [apply k_fresh|]. intros _ _. eapply k_bind with (Q := V (tid i)).
        * destruct mv; [apply k_move|apply k_copy].
        * cbn beta. intros x Hx. apply k_become. rewrite T. exact Hx.
      + eapply k_bind.
        * apply k_user with (Q := fun r => forall x, r = ROk (Some x) -> V (tid k) x). exact H.
        * cbn beta. intros r Hr. eapply k_bind.
          -- apply k_res with (Q := fun o => forall x, o = Some x -> V (tid k) x).
             intros o -> x ->. auto.
          -- cbn beta. intros o Ho. apply k_new. destruct o; auto.
    - eapply k_bind with (Q := fun _ => True); [|intros; apply k_ret; exact I].
      unfold s_compare. destruct (involved L R); [|apply k_undef].
      eapply k_bind; [apply k_operand|]. intros x _. eapply k_bind; [apply k_operand|]. intros y _.
      apply k_relate.
    - eapply k_bind; [apply k_three|]. intros. apply k_ret. exact I.
    - eapply k_bind with (Q := fun _ => True); [|intros; apply k_ret; exact I].
      eapply k_bind; [apply k_contents|]. intros [v|] Hv; [|apply k_ret; exact I].
      eapply k_bind with (Q := fun _ => True); [apply k_user; auto|]. intros z _. apply k_res. auto.
    - apply k_unit. eapply k_bind; [apply k_fresh|]. intros _ _.
      destruct (is_value E i v); [|apply k_undef]. apply k_set; auto.
    - apply k_unit. intros t It. destruct (objs t i) as [[o|v]|]; auto.
      refine ((_ : keeps (sbind (sdestroy (ops E) i v) (fun _ => sset i None)) (fun _ => True)) t It).
      eapply k_bind; [apply k_destroy|]. intros _ _. apply k_set; exact I.
  Qed.

  Lemma k_run p t xs t' :
    Forall op_deals p -> inv t -> srun tid (ops E) Sto Isv p t = (Some xs, t') -> inv t'.
  Proof.
    revert t xs t'. induction p as [|o p IH]; intros t xs t' Hp It H; cbn [srun] in H.
    - injection H as _ <-. exact It.
    - inversion Hp as [|? ? Ho Hp']; subst. pose proof (k_step o Ho t It) as K.
      destruct (sstep _ _ _ _ o t) as [[x|e|] t1]; [|
        |discriminate]; destruct (srun _ _ _ _ p t1) as [[ys|] t2] eqn:R; cbn in H; try discriminate;
        injection H as _ <-; refine (IH t1 ys t2 Hp' _ R); apply K.
  Qed.
End Deals.

(** ** C06 continued: no other values *)

(** For every type, every predicate [V], every history. *)
Theorem C06_no_invented_values :
  forall W (E : env W) (V : nat -> rep -> Prop) w p s i o v,
    env_ok E -> (forall j, pops_deal V (e_tid E j) (ops E j)) -> Forall (op_deals E V) p ->
    contract E w p -> reaches E w p s -> opt_after E w p i o ->
    peek E i s = Some (Some v) -> V (e_tid E i) v.
Proof.
  intros W E V w p s i o v HE HP HF C R O Hv.
  rewrite (opt_after_peek E HE w p s i o C R O) in Hv. injection Hv as ->.
  destruct O as (xs & t & Ht & Ho).
  assert (inv E V t) as It.
  { eapply k_run; [exact HP|exact HF| |exact Ht]. intros j. exact I. }
  specialize (It i). rewrite Ho in It. exact It.
Qed.

(** [optional<bool>]: if the program only stores the values true and false in variables
    and optionals of the bool type, then nothing else is ever found in them; in
    particular not the byte that means "empty". *)
Theorem C06_bool_only_bools :
  forall W (E : env W) U cf c v b w p s i o,
    env_ok E -> cf_bit cf = true -> u_spec U (MkTy c v UBool) = None ->
    instantiates U cf E i (MkTy c v UBool) ADefault b ->
    let V := fun t y => t = e_tid E i -> y = bool_rep true \/ y = bool_rep false in
    (forall j, pops_deal V (e_tid E j) (ops E j)) -> Forall (op_deals E V) p ->
    contract E w p -> reaches E w p s -> opt_after E w p i o ->
    peek E i s = Some None \/ peek E i s = Some (Some (bool_rep true)) \/
    peek E i s = Some (Some (bool_rep false)).
Proof.
  intros W E U cf c v b w p s i o HE _ _ _ V HP HF C R O.
  pose proof (opt_after_peek E HE w p s i o C R O) as Hp.
  destruct o as [y|]; [|left; exact Hp].
  destruct (C06_no_invented_values W E V w p s i (Some y) y HE HP HF C R O Hp eq_refl) as [-> | ->];
    auto.
Qed.

Example C06_history_example dbg :
  let V := fun t y => t = 2 -> y = bool_rep true \/ y = bool_rep false in
  let p := [ODefault 2; OEmplace 2 (mkBits 1 1); OAccess AccDeref 2 false look; OReset 2;
            OAssign 2 (setBits 1 0)] in
  (forall j, pops_deal V (e_tid (scalar_env dbg) j) (ops (scalar_env dbg) j)) /\
  Forall (op_deals (scalar_env dbg) V) p /\ contract (scalar_env dbg) quiet p /\
  opt_after (scalar_env dbg) quiet p 2 (Some (bool_rep false)).
Proof.
  split; [|split; [|split]].
  - intros j. unfold ops. cbn. unfold scalar_tys, ty_of.
    replace (ot_ops _) with t_ops by (destruct (optional_type _ _ _ _ _); reflexivity).
    split; cbn; intros; repeat match goal with H : ROk _ = ROk _ |- _ => injection H as <- end; auto.
  - repeat apply Forall_cons; try apply Forall_nil; cbn; auto.
    + intros src more w _ M. inversion M; subst. cbn. split; [|split; [exact I|constructor]]. intros v [= <-] _. left. reflexivity.
    + split; [|split].
      * intros src more w _ M. inversion M; subst. cbn. split; [|split; [exact I|constructor]]. intros v [= <-] _. right. reflexivity.
      * intros d src w _ _. split; [|exact I]. intros _. right. reflexivity.
      * auto.
  - eapply contract_intro; [repeat apply Forall_cons; try apply Forall_nil; cbn; auto using mkBits_ok|run_it].
  - ex_opt.
Qed.
