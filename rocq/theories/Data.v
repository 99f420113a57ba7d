(** * Data: std::optional does not depend on how payload values are represented

    Two runs of the specification of std::optional (Spec.v) whose payload values are
    represented differently, related by a relation on representations, show the same
    behaviour.  Used for nested optionals (Nested.v), where the value of an inner optional
    is represented by the memory of a tiny optional in one run and by an abstract
    optional in the other. *)

From Coq Require Import List NArith ZArith Bool Arith Lia.
From Verif Require Import Cells CellsFacts Machine Optional Program Spec Laws Refine Contract SpecTac.
Import ListNotations.

Section Relations.
  Context {W W2 : Type}.
  (** The worlds of the user code in the two runs; they may differ as well, for example
      because user code itself uses tiny optionals in one run and std::optional in the
      other (Worlds.v). *)
  Variable RW : W -> W2 -> Prop.
  (** The user's world records whether the contract has been violated somewhere inside
      of user code (here: inside of the operations of an inner optional). *)
  Variable err : W2 -> bool.

  (** The record is never erased. *)
  Definition sticky {A} (f : W2 -> A * W2) : Prop := forall w, err w = true -> err (snd (f w)) = true.

  (** [f1] behaves as [f2] as long as [f2] does not violate the contract. *)
  Definition usim {A B} (RA : A -> B -> Prop) (f1 : W -> A * W) (f2 : W2 -> B * W2) : Prop :=
    forall w w2, RW w w2 -> err w2 = false -> err (snd (f2 w2)) = false ->
      RA (fst (f1 w)) (fst (f2 w2)) /\ RW (snd (f1 w)) (snd (f2 w2)).

  Definition any {A B} (a : A) (b : B) : Prop := True.
  Definition rres {A B} (RA : A -> B -> Prop) (x : res A) (y : res B) : Prop :=
    match x, y with
    | ROk a, ROk b => RA a b
    | RThrow e, RThrow e' => e = e'
    | _, _ => False
    end.
  Definition rpair {A B C D} (RA : A -> B -> Prop) (RC : C -> D -> Prop) (x : A * C) (y : B * D) : Prop :=
    RA (fst x) (fst y) /\ RC (snd x) (snd y).
  Definition ropt {A B} (RA : A -> B -> Prop) (x : option A) (y : option B) : Prop :=
    match x, y with
    | Some a, Some b => RA a b
    | None, None => True
    | _, _ => False
    end.

  (** The operations of a payload type. *)
  Record psticky (p : payops W2) : Prop := {
    pk_copy : forall v, sticky (po_copy p v);
    pk_move : forall v, sticky (po_move p v);
    pk_cassign : forall d v, sticky (po_cassign p d v);
    pk_massign : forall d v, sticky (po_massign p d v);
    pk_self_cassign : forall v, sticky (po_self_cassign p v);
    pk_self_massign : forall v, sticky (po_self_massign p v);
    pk_swap : forall a b, sticky (po_swap p a b);
    pk_self_swap : forall v, sticky (po_self_swap p v);
    pk_dtor : forall v, sticky (fun w => (tt, po_dtor p v w))
  }.
  Record psim (R : rep -> rep -> Prop) (p1 : payops W) (p2 : payops W2) : Prop := {
    ps_copy : forall c x, R c x -> usim (rres R) (po_copy p1 c) (po_copy p2 x);
    ps_move : forall c x, R c x -> usim (rpair (rres R) R) (po_move p1 c) (po_move p2 x);
    ps_cassign : forall d y c x, R d y -> R c x ->
      usim (rpair (rres eq) R) (po_cassign p1 d c) (po_cassign p2 y x);
    ps_massign : forall d y c x, R d y -> R c x ->
      usim (rpair (rres eq) (rpair R R)) (po_massign p1 d c) (po_massign p2 y x);
    ps_self_cassign : forall c x, R c x ->
      usim (rpair (rres eq) R) (po_self_cassign p1 c) (po_self_cassign p2 x);
    ps_self_massign : forall c x, R c x ->
      usim (rpair (rres eq) R) (po_self_massign p1 c) (po_self_massign p2 x);
    ps_swap : forall d y c x, R d y -> R c x ->
      usim (rpair (rres eq) (rpair R R)) (po_swap p1 d c) (po_swap p2 y x);
    ps_self_swap : forall c x, R c x ->
      usim (rpair (rres eq) R) (po_self_swap p1 c) (po_self_swap p2 x);
    ps_dtor : forall c x, R c x ->
      usim eq (fun w => (tt, po_dtor p1 c w)) (fun w => (tt, po_dtor p2 x w))
  }.

  Section Data.
    Variable tid : loc -> nat.
    Variable pops1 : loc -> payops W.
    Variable pops2 : loc -> payops W2.
    Variables stor1 stor2 isv1 isv2 : loc -> rep -> bool.
    (** How values of type number [t] are represented. *)
    Variable RT : nat -> rep -> rep -> Prop.
    Definition Rv (i : loc) : rep -> rep -> Prop := RT (tid i).

    (** ** The client's code *)

    Definition src_rel (i : option loc) (c x : rep) : Prop :=
      match i with None => c = [] /\ x = [] | Some j => Rv j c x end.
    Definition back_rel (i : option loc) (cst : bool) (c x : rep) : Prop :=
      match i with Some j => if cst then True else Rv j c x | None => True end.
    Fixpoint more_rel (l : list (loc * bool)) (cs xs : list rep) : Prop :=
      match l, cs, xs with
      | [], [], [] => True
      | (j, _) :: l, c :: cs, x :: xs => Rv j c x /\ more_rel l cs xs
      | _, _, _ => False
      end.
    Fixpoint back_more (l : list (loc * bool)) (cs xs : list rep) : Prop :=
      match l, cs, xs with
      | [], _, _ => True
      | (j, k) :: l, c :: cs, x :: xs => (if k then True else Rv j c x) /\ back_more l cs xs
      | _, _, _ => False
      end.
    Definition rini (i : loc) (n1 : ini W) (n2 : ini W2) : Prop :=
      i_src n1 = i_src n2 /\ i_const n1 = i_const n2 /\ i_more n1 = i_more n2 /\
      (forall x, sticky (i_fun n2 x)) /\
      forall c x cs xs, src_rel (i_src n2) c x -> more_rel (i_more n2) cs xs ->
        usim (rpair (rres (Rv i))
                (fun c' x' => back_rel (i_src n2) (i_const n2) (fst (parted c cs c')) (fst (parted x xs x')) /\
                              back_more (i_more n2) (snd (parted c cs c')) (snd (parted x xs x'))))
             (i_fun n1 (joined c cs)) (i_fun n2 (joined x xs)).
    Definition rarg (i : loc) (a1 : arg W) (a2 : arg W2) : Prop :=
      rini i (a_ini a1) (a_ini a2) /\
      (forall y x, sticky (a_assign a2 y x)) /\ (forall y, sticky (a_self a2 y)) /\
      (forall d y c x, Rv i d y -> src_rel (i_src (a_ini a2)) c x ->
         usim (rpair (rres eq) (rpair (Rv i) (back_rel (i_src (a_ini a2)) (i_const (a_ini a2)))))
              (a_assign a1 d c) (a_assign a2 y x)) /\
      (forall d y, Rv i d y -> usim (rpair (rres eq) (Rv i)) (a_self a1 d) (a_self a2 y)).
    (** A callable that gets (a reference to) the payload of [i] and returns values
        related by [RA]. *)
    Definition rfn {A B} (RA : A -> B -> Prop) (i : loc) (cst : bool)
      (f1 : rep -> W -> (res A * rep) * W) (f2 : rep -> W2 -> (res B * rep) * W2) : Prop :=
      (forall x, sticky (f2 x)) /\
      forall c x, Rv i c x ->
        usim (rpair (rres RA) (if cst then any else Rv i)) (f1 c) (f2 x).
    Definition roper (RA : rep -> rep -> Prop) (a b : operand) : Prop :=
      match a, b with
      | OpTiny i, OpTiny j => i = j /\ forall c x, Rv i c x -> RA c x
      | OpStd o, OpStd o' => ropt RA o o'
      | OpNull, OpNull => True
      | OpVal v, OpVal v' => RA v v'
      | _, _ => False
      end.
    Definition rcmp (c1 : cmpops W) (c2 : cmpops W2) (RL RR : rep -> rep -> Prop) : Prop :=
      (forall r a b, sticky (c_rel c2 r a b)) /\ (forall a b, sticky (c_three c2 a b)) /\
      (forall r a a' b b', RL a a' -> RR b b' -> usim (rres eq) (c_rel c1 r a b) (c_rel c2 r a' b')) /\
      (forall a a' b b', RL a a' -> RR b b' -> usim (rres eq) (c_three c1 a b) (c_three c2 a' b')) /\
      (forall a a' b b', RL a a' -> RR b b' -> usim (rres eq) (c_three c1 b a) (c_three c2 b' a')).

    (** The same call with both representations. *)
    Definition rop (o1 : op W) (o2 : op W2) : Prop :=
      match o1, o2 with
      | ODefault i, ODefault i' | ONullopt i, ONullopt i' | ODtor i, ODtor i'
      | OAssignNull i, OAssignNull i' | OReset i, OReset i' | OHasValue i, OHasValue i'
      | OBool i, OBool i' | OVarDrop i, OVarDrop i' => i = i'
      | OCopyCtor i j, OCopyCtor i' j' | OMoveCtor i j, OMoveCtor i' j'
      | OCopyAssign i j, OCopyAssign i' j' | OMoveAssign i j, OMoveAssign i' j'
      | OSwap i j, OSwap i' j' => i = i' /\ j = j'
      | OStdSwap i j k, OStdSwap i' j' k' => i = i' /\ j = j' /\ k = k'
      | OInPlace i n, OInPlace i' n' | OEmplace i n, OEmplace i' n'
      | OValueOrCopy i n, OValueOrCopy i' n' | OValueOrMove i n, OValueOrMove i' n' =>
          i = i' /\ rini i n n'
      | OAssign i a, OAssign i' a' => i = i' /\ rarg i a a'
      | OAccess k i c f, OAccess k' i' c' f' =>
          k = k' /\ i = i' /\ c = c' /\ rfn eq i c f f'
      | OAndThen k i c f, OAndThen k' i' c' f' =>
          k = k' /\ i = i' /\ c = c' /\ rfn (ropt (Rv k)) i c f f'
      | OTransform k i c f _, OTransform k' i' c' f' _ =>
          k = k' /\ i = i' /\ c = c' /\ rfn (Rv k) i c f f'
      | OOrElse k i mv f, OOrElse k' i' mv' f' =>
          k = k' /\ i = i' /\ mv = mv' /\ sticky f' /\ usim (rres (ropt (Rv k))) f f'
      | OCompare m c r L R, OCompare m' c' r' L' R' =>
          m = m' /\ r = r' /\ exists RL RR, rcmp c c' RL RR /\ roper RL L L' /\ roper RR R R'
      | OThreeWay g c L R, OThreeWay g' c' L' R' =>
          g = g' /\ exists RL RR, rcmp c c' RL RR /\ roper RL L L' /\ roper RR R R'
      | OHash h i, OHash h' i' =>
          i = i' /\ (forall x, sticky (h' x)) /\
          forall c x, Rv i c x -> usim (rres eq) (h c) (h' x)
      | OVarNew i v, OVarNew i' v' => i = i' /\ Rv i v v'
      | _, _ => False
      end.
    (** ... shows the same: only the result of value_or is itself a payload value. *)
    Definition robs (o : op W) (x y : obs) : Prop :=
      match o, x, y with
      | (OValueOrCopy i _ | OValueOrMove i _), ObVal c, ObVal v => Rv i c v
      | _, _, _ => x = y
      end.
    Fixpoint robs_all (p : list (op W)) (xs ys : list obs) : Prop :=
      match p, xs, ys with
      | [], [], [] => True
      | o :: p, x :: xs, y :: ys => robs o x y /\ robs_all p xs ys
      | _, _, _ => False
      end.

    (** ** States *)

    Definition rsobj (i : loc) (x y : sobj) : Prop :=
      match x, y with
      | SOpt o, SOpt o' => ropt (Rv i) o o'
      | SVar v, SVar v' => Rv i v v'
      | _, _ => False
      end.
    Definition rs (t1 : sstate W) (t2 : sstate W2) : Prop :=
      RW (sworld t1) (sworld t2) /\ forall i, ropt (rsobj i) (objs t1 i) (objs t2 i).

    Definition bad (t : sstate W2) : bool := err (sworld t).
    Definition stk {A} (m : @S W2 A) : Prop := forall t, bad t = true -> bad (snd (m t)) = true.
    Definition sim {A B} (RA : A -> B -> Prop) (m1 : @S W A) (m2 : @S W2 B) : Prop :=
      forall t1 t2, rs t1 t2 -> bad t2 = false -> bad (snd (m2 t2)) = false ->
        match m2 t2 with
        | (SOk b, t2') => exists a t1', m1 t1 = (SOk a, t1') /\ RA a b /\ rs t1' t2'
        | (SThrow e, t2') => exists t1', m1 t1 = (SThrow e, t1') /\ rs t1' t2'
        | (SUndef, _) => True
        end.

    Hypothesis Hp : forall i, psim (Rv i) (pops1 i) (pops2 i).
    Hypothesis Hk : forall i, psticky (pops2 i).
    Hypothesis Hstor : forall i c x, Rv i c x -> stor2 i x = true -> stor1 i c = true.
    Hypothesis Hisv : forall i c x, Rv i c x -> isv2 i x = true -> isv1 i c = true.

    (** ** Contract violations are not forgotten *)

    Lemma stk_ret {A} (a : A) : stk (sret a).
    Proof. intros t H. exact H. Qed.
    Lemma stk_throw {A} e : stk (@sthrow W2 A e).
    Proof. intros t H. exact H. Qed.
    Lemma stk_undef {A} : stk (@sundef W2 A).
    Proof. intros t H. exact H. Qed.
    Lemma stk_bind {A B} (m : @S W2 A) (k : A -> @S W2 B) : stk m -> (forall a, stk (k a)) -> stk (sbind m k).
    Proof.
      intros Hm Hkk t H. specialize (Hm t H). unfold sbind. destruct (m t) as [[a|e|] t']; cbn in *; auto.
      apply Hkk, Hm.
    Qed.
    Lemma stk_user {A} (f : W2 -> A * W2) : sticky f -> stk (suser f).
    Proof.
      intros Hf t H. specialize (Hf _ H). unfold suser, bad in *. destruct (f (sworld t)). exact Hf.
    Qed.
    Lemma stk_res {A} (r : res A) : stk (@sres W2 A r).
    Proof. destruct r; [apply stk_ret|apply stk_throw]. Qed.
    Lemma stk_set i x : stk (@sset W2 i x).
    Proof. intros t H. exact H. Qed.
    Lemma stk_contents i : stk (@contents W2 i).
    Proof. intros t H. unfold contents. destruct (objs t i) as [[]|]; exact H. Qed.
    Lemma stk_become i o : stk (@become W2 stor2 i o).
    Proof. destruct o; cbn; [destruct (stor2 _ _)|]; auto using stk_set, stk_undef. Qed.
    Lemma stk_fresh i : stk (@fresh W2 i).
    Proof. intros t H. unfold fresh. destruct (objs t i); exact H. Qed.
    Lemma stk_read i : stk (@sread W2 i).
    Proof. intros t H. unfold sread. destruct (objs t i) as [[[]|]|]; exact H. Qed.
    Lemma stk_write i v : stk (@swrite W2 stor2 isv2 i v).
    Proof.
      intros t H. unfold swrite. destruct (objs t i) as [[[]|]|]; try exact H.
      - apply stk_become, H.
      - destruct (isv2 i v); exact H.
    Qed.
    Lemma stk_read_more l : stk (@sread_more W2 l).
    Proof.
      induction l as [|[j c] l IH]; cbn [sread_more]; [apply stk_ret|].
      apply stk_bind; [apply stk_read|intros v]. apply stk_bind; [exact IH|intros; apply stk_ret].
    Qed.
    Lemma stk_write_more l : forall vs, stk (@swrite_more W2 stor2 isv2 l vs).
    Proof.
      induction l as [|[j c] l IH]; intros [|v vs]; cbn [swrite_more]; try apply stk_ret.
      apply stk_bind; [destruct c; auto using stk_ret, stk_write|intros _; apply IH].
    Qed.
    Lemma stk_rest (o : option loc) (k : bool) v l vs (r : res rep) :
      stk (sbind (match o with None => sret tt | Some j => if k then sret tt else @swrite W2 stor2 isv2 j v end)
                 (fun _ => sbind (swrite_more stor2 isv2 l vs) (fun _ => sres r))).
    Proof.
      apply stk_bind.
      - destruct o; [destruct k|]; auto using stk_ret, stk_write.
      - intros _. apply stk_bind; [apply stk_write_more|intros; apply stk_res].
    Qed.
    Lemma stk_init i n1 n2 : rini i n1 n2 -> stk (sinit stor2 isv2 n2).
    Proof.
      intros (_ & _ & _ & Hf & _). unfold sinit.
      apply stk_bind; [destruct (i_src n2); [apply stk_read|apply stk_ret]|intros v].
      apply stk_bind; [apply stk_read_more|intros vs].
      apply stk_bind; [apply stk_user, Hf|intros q]. apply stk_rest.
    Qed.

    Ltac stk_step :=
      match goal with
      | |- stk (sbind _ _) => apply stk_bind; [|intros ?]
      | |- stk (sret _) => apply stk_ret
      | |- stk (sthrow _) => apply stk_throw
      | |- stk sundef => apply stk_undef
      | |- stk (sres _) => apply stk_res
      | |- stk (sset _ _) => apply stk_set
      | |- stk (contents _) => apply stk_contents
      | |- stk (become _ _ _) => apply stk_become
      | |- stk (fresh _) => apply stk_fresh
      | |- stk (sread _) => apply stk_read
      | |- stk (swrite _ _ _ _) => apply stk_write
      | |- stk (sinit _ _ _) => eapply stk_init; eassumption
      | |- stk (suser _) => apply stk_user
      | |- sticky _ => solve [apply Hk | auto]
      | |- stk (match ?x with _ => _ end) => destruct x
      | |- stk (let '(_, _) := ?x in _) => destruct x
      end.
    Ltac stk_tac := repeat stk_step.

    Lemma stk_copy j : stk (scopy pops2 j).
    Proof. unfold scopy. stk_tac. Qed.
    Lemma stk_move j : stk (smove pops2 stor2 isv2 j).
    Proof. unfold smove. stk_tac. Qed.
    Lemma stk_destroy i v : stk (sdestroy pops2 i v).
    Proof. unfold sdestroy. stk_tac. Qed.

    Ltac stk_more :=
      repeat first
        [ stk_step
        | match goal with
          | |- stk (scopy _ _) => apply stk_copy
          | |- stk (smove _ _ _ _) => apply stk_move
          | |- stk (sdestroy _ _ _) => apply stk_destroy
          end ].

    (** ** Simulation *)

    Lemma sim_ret {A B} (RA : A -> B -> Prop) a b : RA a b -> sim RA (sret a) (sret b).
    Proof. intros H t1 t2 R _ _. exists a, t1. auto. Qed.
    Lemma sim_throw {A B} (RA : A -> B -> Prop) e : sim RA (sthrow e) (sthrow e).
    Proof. intros t1 t2 R _ _. exists t1. auto. Qed.
    Lemma sim_undef {A B} (RA : A -> B -> Prop) m : sim RA m sundef.
    Proof. intros t1 t2 R _ _. exact I. Qed.
    Lemma sim_bind {A B A' B'} (RA : A -> A' -> Prop) (RB : B -> B' -> Prop) m1 m2 k1 k2 :
      sim RA m1 m2 -> (forall b, stk (k2 b)) -> (forall a b, RA a b -> sim RB (k1 a) (k2 b)) ->
      sim RB (sbind m1 k1) (sbind m2 k2).
    Proof.
      intros Hm Hs Hkk t1 t2 R B0. unfold sbind. specialize (Hm t1 t2 R B0).
      destruct (m2 t2) as [[b|e|] t2'] eqn:E2; cbn [snd] in *.
      - intros B1. assert (B2 : bad t2' = false).
        { destruct (bad t2') eqn:B2; [|reflexivity]. specialize (Hs b t2' B2). congruence. }
        destruct (Hm B2) as (a & t1' & -> & Ha & R'). apply (Hkk a b Ha); assumption.
      - intros B1. destruct (Hm B1) as (t1' & -> & R'). eauto.
      - intros _. exact I.
    Qed.
    Lemma sim_user {A B} (RA : A -> B -> Prop) f1 f2 : usim RA f1 f2 -> sim RA (suser f1) (suser f2).
    Proof.
      intros Hf t1 t2 (Rw & Ro) B0 B1. unfold suser, bad in *. specialize (Hf _ _ Rw B0).
      destruct (f2 (sworld t2)) as [b w2]. cbn in *. specialize (Hf B1).
      destruct (f1 (sworld t1)) as [a w1]. cbn in *. destruct Hf as (Ha & Hw).
      eexists _, _. split; [reflexivity|]. split; [exact Ha|]. split; [exact Hw|exact Ro].
    Qed.
    Lemma sim_res {A B} (RA : A -> B -> Prop) r1 r2 : rres RA r1 r2 -> sim RA (sres r1) (sres r2).
    Proof.
      destruct r1, r2; cbn; intros H; try contradiction; [apply sim_ret, H|subst; apply sim_throw].
    Qed.
    Lemma sim_weak {A B} (RA RB : A -> B -> Prop) m1 m2 :
      (forall a b, RA a b -> RB a b) -> sim RA m1 m2 -> sim RB m1 m2.
    Proof.
      intros H Hm t1 t2 R B0 B1. specialize (Hm t1 t2 R B0 B1). destruct (m2 t2) as [[b|e|] t']; auto.
      destruct Hm as (a & t1' & H1 & H2 & H3). eauto 6.
    Qed.

    Lemma rs_upd t1 t2 i x y :
      rs t1 t2 -> ropt (rsobj i) x y ->
      rs (MkS (upd (objs t1) i x) (sworld t1)) (MkS (upd (objs t2) i y) (sworld t2)).
    Proof.
      intros (Rw & Ro) Hx. split; [exact Rw|]. intros j. cbn. unfold upd.
      destruct (Nat.eqb_spec i j) as [->|]; auto.
    Qed.
    Lemma sim_set i x y : ropt (rsobj i) x y -> sim eq (sset i x) (sset i y).
    Proof.
      intros H t1 t2 R _ _. cbn. eexists _, _. split; [reflexivity|]. split; [reflexivity|].
      apply rs_upd; assumption.
    Qed.
    Lemma rs_at t1 t2 i : rs t1 t2 -> ropt (rsobj i) (objs t1 i) (objs t2 i).
    Proof. intros (_ & H). apply H. Qed.

    Lemma sim_contents i : sim (ropt (Rv i)) (contents i) (contents i).
    Proof.
      intros t1 t2 R _ _. unfold contents. pose proof (rs_at _ _ i R) as H.
      destruct (objs t2 i) as [[o|v]|]; try exact I.
      destruct (objs t1 i) as [[o'|v']|]; try contradiction. exists o', t1. auto.
    Qed.
    Lemma sim_become i o o' : ropt (Rv i) o o' -> sim eq (become stor1 i o) (become stor2 i o').
    Proof.
      destruct o as [c|], o' as [x|]; cbn; intros H; try contradiction; [|apply sim_set, I].
      destruct (stor2 i x) eqn:S2; [|apply sim_undef]. rewrite (Hstor _ _ _ H S2). apply sim_set, H.
    Qed.
    Lemma sim_fresh i : sim eq (fresh i) (fresh i).
    Proof.
      intros t1 t2 R _ _. unfold fresh. pose proof (rs_at _ _ i R) as H.
      destruct (objs t2 i) as [y|]; [exact I|]. destruct (objs t1 i) as [x|]; [contradiction|]. exists tt, t1. auto.
    Qed.
    Lemma sim_read i : sim (Rv i) (sread i) (sread i).
    Proof.
      intros t1 t2 R _ _. unfold sread. pose proof (rs_at _ _ i R) as H.
      destruct (objs t2 i) as [[[v|]|v]|]; try exact I;
        destruct (objs t1 i) as [[[v'|]|v']|]; try contradiction; exists v', t1; auto.
    Qed.
    Lemma sim_write i c x : Rv i c x -> sim eq (swrite stor1 isv1 i c) (swrite stor2 isv2 i x).
    Proof.
      intros Hc t1 t2 R B0. unfold swrite. pose proof (rs_at _ _ i R) as H.
      destruct (objs t2 i) as [[[v|]|v]|]; intros B1; try exact I.
      - destruct (objs t1 i) as [[[v'|]|v']|]; try contradiction.
        apply (sim_become i (Some c) (Some x) Hc); assumption.
      - destruct (objs t1 i) as [[[v'|]|v']|]; try contradiction.
        destruct (isv2 i x) eqn:S2; [|exact I]. rewrite (Hisv _ _ _ Hc S2).
        apply (sim_set i (Some (SVar c)) (Some (SVar x)) Hc); assumption.
    Qed.

    Lemma sim_same {A B} (RA : A -> B -> Prop) i j m1 m2 :
      (tid i = tid j -> sim RA m1 m2) -> sim RA (same tid i j m1) (same tid i j m2).
    Proof.
      intros H. unfold same. destruct (Nat.eqb_spec (tid i) (tid j)); [auto|apply sim_undef].
    Qed.

    Ltac dpair :=
      repeat match goal with
             | H : rpair _ _ ?a ?b |- _ => destruct H
             end.

    Lemma sim_read_more l : sim (more_rel l) (sread_more l) (sread_more l).
    Proof.
      induction l as [|[j k] l IH]; cbn [sread_more]; [apply sim_ret; exact I|].
      eapply sim_bind; [apply sim_read| |].
      { intros. apply stk_bind; [apply stk_read_more|intros; apply stk_ret]. }
      intros c x Hc. eapply sim_bind; [exact IH|intros; apply stk_ret|].
      intros cs xs Hcs. apply sim_ret. split; assumption.
    Qed.
    Lemma sim_write_more l : forall cs xs, back_more l cs xs ->
      sim eq (swrite_more stor1 isv1 l cs) (swrite_more stor2 isv2 l xs).
    Proof.
      induction l as [|[j k] l IH]; intros cs xs H; cbn [swrite_more]; [apply sim_ret; reflexivity|].
      destruct cs as [|c cs], xs as [|x xs]; try contradiction. destruct H as (H & Hs).
      eapply sim_bind with (RA := eq).
      - destruct k; [apply sim_ret; reflexivity|apply sim_write, H].
      - intros. apply stk_write_more.
      - intros _ _ _. apply IH, Hs.
    Qed.
    Lemma sim_init i n1 n2 : rini i n1 n2 -> sim (Rv i) (sinit stor1 isv1 n1) (sinit stor2 isv2 n2).
    Proof.
      intros (E1 & E2 & E3 & Hf & Hr). unfold sinit. rewrite E1, E2, E3.
      apply sim_bind with (RA := src_rel (i_src n2)).
      - destruct (i_src n2) as [j|]; [apply sim_read|apply sim_ret; split; reflexivity].
      - intros v. apply stk_bind; [apply stk_read_more|intros vs].
        apply stk_bind; [apply stk_user, Hf|intros q]. apply stk_rest.
      - intros c x Hc. eapply sim_bind; [apply sim_read_more| |].
        { intros vs. apply stk_bind; [apply stk_user, Hf|intros q]. apply stk_rest. }
        cbn beta. intros cs xs Hcs. eapply sim_bind.
        + apply sim_user. apply (Hr c x cs xs Hc Hcs).
        + intros q. apply stk_rest.
        + intros p1 p2 (H1 & H2 & H3). eapply sim_bind with (RA := eq).
          * destruct (i_src n2) as [j|]; [|apply sim_ret; reflexivity].
            cbn in H2. destruct (i_const n2); [apply sim_ret; reflexivity|apply sim_write, H2].
          * intros. apply stk_bind; [apply stk_write_more|intros; apply stk_res].
          * intros _ _ _. eapply sim_bind; [apply sim_write_more, H3|intros; apply stk_res|].
            intros _ _ _. apply sim_res, H1.
    Qed.
    Lemma sim_copy j : sim (Rv j) (scopy pops1 j) (scopy pops2 j).
    Proof.
      unfold scopy. eapply sim_bind; [apply sim_read|intros; stk_more|]. intros c x H.
      eapply sim_bind; [apply sim_user, (ps_copy _ _ _ (Hp j)), H|intros; stk_more|].
      intros r1 r2 Hr. apply sim_res, Hr.
    Qed.
    Lemma sim_move j : sim (Rv j) (smove pops1 stor1 isv1 j) (smove pops2 stor2 isv2 j).
    Proof.
      unfold smove. eapply sim_bind; [apply sim_read|intros; stk_more|]. intros c x H.
      eapply sim_bind; [apply sim_user, (ps_move _ _ _ (Hp j)), H|intros; stk_more|].
      intros p1 p2 (H1 & H2).
      eapply sim_bind; [apply sim_write, H2|intros; stk_more|]. intros _ _ _. apply sim_res, H1.
    Qed.
    Lemma sim_destroy i c x : Rv i c x -> sim eq (sdestroy pops1 i c) (sdestroy pops2 i x).
    Proof. intros H. apply sim_user, (ps_dtor _ _ _ (Hp i)), H. Qed.

    Lemma Rv_eq i j : tid i = tid j -> Rv i = Rv j.
    Proof. intros H. unfold Rv. rewrite H. reflexivity. Qed.

    Lemma sim_ctor_from i j g1 g2 :
      (tid i = tid j -> sim (Rv i) g1 g2) -> stk g2 ->
      sim eq (s_ctor_from tid stor1 g1 i j) (s_ctor_from tid stor2 g2 i j).
    Proof.
      intros Hg Hs. apply sim_same. intros T. specialize (Hg T).
      eapply sim_bind; [apply sim_fresh|intros; stk_more; assumption|]. intros _ _ _.
      eapply sim_bind; [apply sim_contents|intros; stk_more; assumption|].
      intros [c|] [x|] H; try contradiction; [|apply sim_become, I].
      eapply sim_bind; [exact Hg|intros; stk_more|]. intros a b Hab. apply sim_become, Hab.
    Qed.
    Lemma sim_clear i : sim eq (s_clear pops1 stor1 i) (s_clear pops2 stor2 i).
    Proof.
      eapply sim_bind; [apply sim_contents|intros; stk_more|].
      intros [c|] [x|] H; try contradiction; [|apply sim_ret; reflexivity].
      eapply sim_bind; [apply sim_destroy, H|intros; stk_more|]. intros _ _ _. apply sim_become, I.
    Qed.
    Lemma stk_clear i : stk (s_clear pops2 stor2 i).
    Proof. unfold s_clear. stk_more. Qed.
    Lemma sim_dtor i : sim eq (s_dtor pops1 i) (s_dtor pops2 i).
    Proof.
      eapply sim_bind; [apply sim_contents|intros; stk_more|].
      intros [c|] [x|] H; try contradiction; [|apply sim_set, I].
      eapply sim_bind; [apply sim_destroy, H|intros; stk_more|]. intros _ _ _. apply sim_set, I.
    Qed.
    Lemma sim_assign_existing i a1 a2 :
      rarg i a1 a2 ->
      sim eq (s_assign_existing stor1 isv1 i a1) (s_assign_existing stor2 isv2 i a2).
    Proof.
      intros ((E1 & E2 & _ & _ & _) & K1 & K2 & Ha & Hself). unfold s_assign_existing. rewrite E1, E2.
      destruct (i_src (a_ini a2)) as [j|].
      - destruct (Nat.eqb_spec i j) as [->|N].
        + eapply sim_bind; [apply sim_read|intros; stk_more|]. intros c x H.
          eapply sim_bind; [apply sim_user, Hself, H|intros; stk_more|]. intros p1 p2 (H1 & H2).
          eapply sim_bind; [apply sim_write, H2|intros; stk_more|]. intros _ _ _. apply sim_res, H1.
        + eapply sim_bind; [apply sim_read|intros; stk_more|]. intros d y Hd.
          eapply sim_bind; [apply sim_read|intros; stk_more|]. intros c x Hc.
          eapply sim_bind; [apply sim_user, Ha; [exact Hd|exact Hc]|intros; stk_more|].
          intros p1 p2 (H1 & H2 & H3).
          eapply sim_bind; [apply sim_write, H2|intros; stk_more|]. intros _ _ _.
          eapply sim_bind with (RA := eq).
          * cbn in H3. destruct (i_const (a_ini a2)); [apply sim_ret; reflexivity|apply sim_write, H3].
          * intros; stk_more.
          * intros _ _ _. apply sim_res, H1.
      - eapply sim_bind; [apply sim_read|intros; stk_more|]. intros d y Hd.
        eapply sim_bind; [apply sim_user, Ha; [exact Hd|split; reflexivity]|intros; stk_more|].
        intros p1 p2 (H1 & H2 & H3).
        eapply sim_bind; [apply sim_write, H2|intros; stk_more|]. intros _ _ _. apply sim_res, H1.
    Qed.
    Lemma stk_assign_existing i a1 a2 : rarg i a1 a2 -> stk (s_assign_existing stor2 isv2 i a2).
    Proof. intros (_ & K1 & K2 & _). unfold s_assign_existing. stk_more. Qed.
    Lemma sim_assign i a1 a2 :
      rarg i a1 a2 -> sim eq (s_assign stor1 isv1 i a1) (s_assign stor2 isv2 i a2).
    Proof.
      intros Ha. pose proof Ha as (Hi & _). unfold s_assign.
      eapply sim_bind; [apply sim_contents| |].
      - intros [x|]; [eapply stk_assign_existing, Ha|]. stk_more.
      - intros [c|] [x|] H; try contradiction; [apply sim_assign_existing, Ha|].
        eapply sim_bind; [apply sim_init, Hi|intros; stk_more|]. intros a b Hab. apply sim_become, Hab.
    Qed.
    Lemma sim_copy_assign i j :
      sim eq (s_copy_assign tid pops1 stor1 isv1 i j) (s_copy_assign tid pops2 stor2 isv2 i j).
    Proof.
      apply sim_same. intros T.
      eapply sim_bind; [apply sim_contents|intros; stk_more|]. intros o1 o2 Ho.
      eapply sim_bind; [apply sim_contents|intros; stk_more|]. intros q1 q2 Hq.
      destruct o1 as [c|], o2 as [x|]; try contradiction; destruct q1 as [d|], q2 as [y|]; try contradiction.
      - destruct (Nat.eqb_spec i j) as [->|N].
        + eapply sim_bind; [apply sim_user, (ps_self_cassign _ _ _ (Hp j)), Ho|intros; stk_more|].
          intros p1 p2 (H1 & H2).
          eapply sim_bind; [apply sim_write, H2|intros; stk_more|]. intros _ _ _. apply sim_res, H1.
        + eapply sim_bind; [apply sim_read|intros; stk_more|]. intros d' y' Hd.
          rewrite (Rv_eq _ _ T) in Hd.
          eapply sim_bind; [apply sim_user, (ps_cassign _ _ _ (Hp j)); [exact Hd|exact Ho]|intros; stk_more|].
          intros p1 p2 (H1 & H2).
          eapply sim_bind; [apply sim_write; rewrite (Rv_eq _ _ T); exact H2|intros; stk_more|].
          intros _ _ _. apply sim_res, H1.
      - eapply sim_bind; [apply sim_copy|intros; stk_more|]. intros a b Hab. apply sim_become.
        rewrite (Rv_eq _ _ T). exact Hab.
      - eapply sim_bind; [apply sim_destroy, Hq|intros; stk_more|]. intros _ _ _. apply sim_become, I.
      - apply sim_ret. reflexivity.
    Qed.
    Lemma sim_move_assign i j :
      sim eq (s_move_assign tid pops1 stor1 isv1 i j) (s_move_assign tid pops2 stor2 isv2 i j).
    Proof.
      apply sim_same. intros T.
      eapply sim_bind; [apply sim_contents|intros; stk_more|]. intros o1 o2 Ho.
      eapply sim_bind; [apply sim_contents|intros; stk_more|]. intros q1 q2 Hq.
      destruct o1 as [c|], o2 as [x|]; try contradiction; destruct q1 as [d|], q2 as [y|]; try contradiction.
      - destruct (Nat.eqb_spec i j) as [->|N].
        + eapply sim_bind; [apply sim_user, (ps_self_massign _ _ _ (Hp j)), Ho|intros; stk_more|].
          intros p1 p2 (H1 & H2).
          eapply sim_bind; [apply sim_write, H2|intros; stk_more|]. intros _ _ _. apply sim_res, H1.
        + eapply sim_bind; [apply sim_read|intros; stk_more|]. intros d' y' Hd.
          rewrite (Rv_eq _ _ T) in Hd.
          eapply sim_bind; [apply sim_user, (ps_massign _ _ _ (Hp j)); [exact Hd|exact Ho]|intros; stk_more|].
          intros p1 p2 (H1 & H2 & H3).
          eapply sim_bind; [apply sim_write; rewrite (Rv_eq _ _ T); exact H2|intros; stk_more|].
          intros _ _ _.
          eapply sim_bind; [apply sim_write, H3|intros; stk_more|].
          intros _ _ _. apply sim_res, H1.
      - eapply sim_bind; [apply sim_move|intros; stk_more|]. intros a b Hab. apply sim_become.
        rewrite (Rv_eq _ _ T). exact Hab.
      - eapply sim_bind; [apply sim_destroy, Hq|intros; stk_more|]. intros _ _ _. apply sim_become, I.
      - apply sim_ret. reflexivity.
    Qed.
    Lemma sim_swap i j :
      sim eq (s_swap tid pops1 stor1 isv1 i j) (s_swap tid pops2 stor2 isv2 i j).
    Proof.
      apply sim_same. intros T.
      eapply sim_bind; [apply sim_contents|intros; stk_more; apply stk_clear|]. intros o1 o2 Ho.
      eapply sim_bind; [apply sim_contents|intros; stk_more; apply stk_clear|]. intros q1 q2 Hq.
      destruct o1 as [c|], o2 as [x|]; try contradiction; destruct q1 as [d|], q2 as [y|]; try contradiction.
      - destruct (Nat.eqb_spec i j) as [->|N].
        + eapply sim_bind; [apply sim_user, (ps_self_swap _ _ _ (Hp j)), Ho|intros; stk_more|].
          intros p1 p2 (H1 & H2).
          eapply sim_bind; [apply sim_write, H2|intros; stk_more|]. intros _ _ _. apply sim_res, H1.
        + rewrite <- (Rv_eq _ _ T) in Hq.
          eapply sim_bind; [apply sim_user, (ps_swap _ _ _ (Hp i)); [exact Ho|exact Hq]|intros; stk_more|].
          intros p1 p2 (H1 & H2 & H3).
          eapply sim_bind; [apply sim_write, H2|intros; stk_more|].
          intros _ _ _.
          eapply sim_bind; [apply sim_write; rewrite <- (Rv_eq _ _ T); exact H3|intros; stk_more|].
          intros _ _ _. apply sim_res, H1.
      - eapply sim_bind; [apply sim_move|intros; stk_more; apply stk_clear|]. intros a b Hab.
        rewrite (Rv_eq _ _ T) in Hab.
        eapply sim_bind; [apply (sim_become j (Some a) (Some b)), Hab|intros; apply stk_clear|].
        intros _ _ _. apply sim_clear.
      - eapply sim_bind; [apply sim_move|intros; stk_more; apply stk_clear|]. intros a b Hab.
        rewrite <- (Rv_eq _ _ T) in Hab.
        eapply sim_bind; [apply (sim_become i (Some a) (Some b)), Hab|intros; apply stk_clear|].
        intros _ _ _. apply sim_clear.
      - apply sim_ret. reflexivity.
    Qed.
    Lemma stk_on_throw {A} (m : @S W2 A) c : stk m -> stk c -> stk (s_on_throw m c).
    Proof.
      intros Hm Hc t H. specialize (Hm t H). unfold s_on_throw.
      destruct (m t) as [[a|e|] t1]; cbn in *; auto.
      specialize (Hc t1 Hm). destruct (c t1) as [[?|?|] t2]; exact Hc.
    Qed.
    Lemma sim_on_throw {A B} (RA : A -> B -> Prop) m1 m2 c1 c2 :
      sim RA m1 m2 -> stk c2 -> sim eq c1 c2 -> sim RA (s_on_throw m1 c1) (s_on_throw m2 c2).
    Proof.
      intros Hm Kc Hc t1 t2 R B0. specialize (Hm t1 t2 R B0). unfold s_on_throw.
      destruct (m2 t2) as [[b|e|] t2'] eqn:E2; cbn [snd] in *.
      - intros B1. destruct (Hm B1) as (a & t1' & -> & Ha & R'). eauto.
      - intros B1. assert (B2 : bad t2' = false).
        { destruct (bad t2') eqn:B2; [|reflexivity]. specialize (Kc t2' B2).
          destruct (c2 t2') as [[?|?|] ?]; cbn in *; congruence. }
        destruct (Hm B2) as (t1' & -> & R'). specialize (Hc t1' t2' R' B2).
        destruct (c2 t2') as [[?|?|] t3]; cbn in *; try exact I.
        destruct (Hc B1) as (? & ? & -> & _ & R''). eauto.
      - intros _. exact I.
    Qed.
    Lemma stk_dtor i : stk (s_dtor pops2 i).
    Proof. unfold s_dtor. stk_more. Qed.
    Lemma stk_move_assign i j : stk (s_move_assign tid pops2 stor2 isv2 i j).
    Proof. unfold s_move_assign, same. stk_more. Qed.
    Lemma stk_std_swap i j k : stk (s_std_swap tid pops2 stor2 isv2 i j k).
    Proof.
      unfold s_std_swap, same. destruct (Nat.eqb _ _); [|apply stk_undef].
      apply stk_bind; [apply stk_contents|intros _].
      apply stk_bind; [unfold s_ctor_from, same; stk_more|intros _].
      apply stk_bind; [|intros _; apply stk_dtor]. apply stk_on_throw; [|apply stk_dtor].
      apply stk_bind; [apply stk_move_assign|intros _; apply stk_move_assign].
    Qed.
    Lemma sim_std_swap i j k :
      sim eq (s_std_swap tid pops1 stor1 isv1 i j k) (s_std_swap tid pops2 stor2 isv2 i j k).
    Proof.
      apply sim_same. intros T.
      eapply sim_bind; [apply sim_contents| |].
      { intros _. apply stk_bind; [unfold s_ctor_from, same; stk_more|intros _].
        apply stk_bind; [|intros _; apply stk_dtor]. apply stk_on_throw; [|apply stk_dtor].
        apply stk_bind; [apply stk_move_assign|intros _; apply stk_move_assign]. }
      intros _ _ _. eapply sim_bind.
      - apply sim_ctor_from; [intros T2; rewrite (Rv_eq _ _ T2); apply sim_move|apply stk_move].
      - intros _. apply stk_bind; [|intros _; apply stk_dtor]. apply stk_on_throw; [|apply stk_dtor].
        apply stk_bind; [apply stk_move_assign|intros _; apply stk_move_assign].
      - intros _ _ _. eapply sim_bind with (RA := eq); [|intros _; apply stk_dtor|intros _ _ _; apply sim_dtor].
        apply sim_on_throw; [|apply stk_dtor|apply sim_dtor].
        eapply sim_bind; [apply sim_move_assign|intros _; apply stk_move_assign|].
        intros _ _ _. apply sim_move_assign.
    Qed.
    Lemma sim_emplace i n1 n2 :
      rini i n1 n2 -> sim eq (s_emplace pops1 stor1 isv1 i n1) (s_emplace pops2 stor2 isv2 i n2).
    Proof.
      intros Hn. eapply sim_bind; [apply sim_clear|intros; stk_more|]. intros _ _ _.
      eapply sim_bind; [apply sim_init, Hn|intros; stk_more|]. intros a b Hab. apply sim_become, Hab.
    Qed.
    Lemma sim_access k i c f1 f2 :
      rfn eq i c f1 f2 -> sim eq (s_access stor1 isv1 k i c f1) (s_access stor2 isv2 k i c f2).
    Proof.
      intros (Kf & Hf). eapply sim_bind; [apply sim_contents|intros; stk_more|].
      intros [d|] [y|] H; try contradiction; [|destruct k; first [apply sim_undef|apply sim_throw]].
      eapply sim_bind; [apply sim_user, Hf, H|intros; stk_more|]. intros p1 p2 (H1 & H2).
      eapply sim_bind with (RA := eq); [|intros; stk_more|intros _ _ _; apply sim_res, H1].
      destruct c; [apply sim_ret; reflexivity|apply sim_write, H2].
    Qed.
    Lemma sim_value_or i g1 g2 n1 n2 :
      sim (Rv i) g1 g2 -> stk g2 -> rini i n1 n2 ->
      sim (Rv i) (s_value_or stor1 isv1 g1 i n1) (s_value_or stor2 isv2 g2 i n2).
    Proof.
      intros Hg Kg Hn. eapply sim_bind; [apply sim_contents|intros; stk_more; assumption|].
      intros [d|] [y|] H; try contradiction; [exact Hg|apply sim_init, Hn].
    Qed.
    Lemma sim_new k o1 o2 : ropt (Rv k) o1 o2 -> sim eq (s_new stor1 k o1) (s_new stor2 k o2).
    Proof.
      intros H. eapply sim_bind; [apply sim_fresh|intros; stk_more|]. intros _ _ _. apply sim_become, H.
    Qed.
    Lemma stk_new k o : stk (s_new stor2 k o).
    Proof. unfold s_new. stk_more. Qed.
    Lemma sim_and_then k i c f1 f2 :
      rfn (ropt (Rv k)) i c f1 f2 ->
      sim eq (s_and_then stor1 isv1 k i c f1) (s_and_then stor2 isv2 k i c f2).
    Proof.
      intros (Kf & Hf). eapply sim_bind; [apply sim_contents|intros; stk_more; apply stk_new|].
      intros [d|] [y|] H; try contradiction; [|apply sim_new, I].
      eapply sim_bind; [apply sim_user, Hf, H|intros; stk_more; apply stk_new|]. intros p1 p2 (H1 & H2).
      eapply sim_bind with (RA := eq); [|intros; stk_more; apply stk_new|intros _ _ _].
      - destruct c; [apply sim_ret; reflexivity|apply sim_write, H2].
      - eapply sim_bind; [apply sim_res, H1|intros; apply stk_new|]. intros a b Hab. apply sim_new, Hab.
    Qed.
    Lemma sim_transform k i c f1 f2 :
      rfn (Rv k) i c f1 f2 ->
      sim eq (s_transform stor1 isv1 k i c f1) (s_transform stor2 isv2 k i c f2).
    Proof.
      intros (Kf & Hf). eapply sim_bind; [apply sim_contents|intros; stk_more; apply stk_new|].
      intros [d|] [y|] H; try contradiction; [|apply sim_new, I].
      eapply sim_bind; [apply sim_fresh|intros; stk_more|]. intros _ _ _.
      eapply sim_bind; [apply sim_user, Hf, H|intros; stk_more|]. intros p1 p2 (H1 & H2).
      eapply sim_bind with (RA := eq); [|intros; stk_more|intros _ _ _].
      - destruct c; [apply sim_ret; reflexivity|apply sim_write, H2].
      - eapply sim_bind; [apply sim_res, H1|intros; stk_more|]. intros a b Hab. apply sim_become, Hab.
    Qed.
    Lemma sim_or_else k i mv f1 f2 :
      sticky f2 -> usim (rres (ropt (Rv k))) f1 f2 ->
      sim eq (s_or_else tid pops1 stor1 isv1 k i mv f1) (s_or_else tid pops2 stor2 isv2 k i mv f2).
    Proof.
      intros Kf Hf. apply sim_same. intros T.
      eapply sim_bind; [apply sim_contents|intros; stk_more; apply stk_new|].
      intros [d|] [y|] H; try contradiction.
      - eapply sim_bind; [apply sim_fresh|intros; stk_more|]. intros _ _ _.
        eapply sim_bind with (RA := Rv i);
          [destruct mv; [apply sim_move|apply sim_copy]|intros; stk_more|].
        intros a b Hab. apply sim_become. rewrite (Rv_eq _ _ T). exact Hab.
      - eapply sim_bind; [apply sim_user, Hf|intros; stk_more; apply stk_new|]. intros r1 r2 Hr.
        eapply sim_bind; [apply sim_res, Hr|intros; apply stk_new|]. intros a b Hab. apply sim_new, Hab.
    Qed.
    Lemma sim_operand RA a b : roper RA a b -> sim (ropt RA) (s_operand a) (s_operand b).
    Proof.
      destruct a, b; cbn; intros H; try contradiction.
      - destruct H as (<- & H). eapply sim_weak; [|apply sim_contents].
        intros [c|] [x|]; cbn; auto.
      - apply sim_ret, H.
      - apply sim_ret. exact I.
      - apply sim_ret. exact H.
    Qed.
    Lemma stk_operand a : stk (@s_operand W2 a).
    Proof. destruct a; cbn; stk_more. Qed.
    Lemma sim_compare c1 c2 r L1 L2 R1 R2 RL RR :
      rcmp c1 c2 RL RR -> roper RL L1 L2 -> roper RR R1 R2 ->
      sim eq (s_compare c1 r L1 R1) (s_compare c2 r L2 R2).
    Proof.
      intros (K1 & _ & Hc & _) HL HR. unfold s_compare.
      assert (E : involved L1 R1 = involved L2 R2).
      { destruct L1, L2; try contradiction; destruct R1, R2; try contradiction; reflexivity. }
      rewrite E. destruct (involved L2 R2); [|apply sim_undef].
      eapply sim_bind; [apply sim_operand, HL|intros; stk_more; apply stk_operand + (unfold s_relate; stk_more)|].
      intros x1 x2 Hx. eapply sim_bind; [apply sim_operand, HR|intros; unfold s_relate; stk_more|].
      intros y1 y2 Hy. unfold s_relate.
      destruct x1 as [a|], x2 as [a'|]; try contradiction; destruct y1 as [b|], y2 as [b'|];
        try contradiction; try (apply sim_ret; reflexivity).
      eapply sim_bind; [apply sim_user, Hc; [exact Hx|exact Hy]|intros; stk_more|].
      intros r1 r2 Hr. apply sim_res, Hr.
    Qed.
    Lemma sim_relate3 c1 c2 (RA RB : rep -> rep -> Prop) x1 x2 y1 y2 :
      (forall a b, sticky (c_three c2 a b)) ->
      (forall a a' b b', RA a a' -> RB b b' -> usim (rres eq) (c_three c1 a b) (c_three c2 a' b')) ->
      ropt RA x1 x2 -> ropt RB y1 y2 -> sim eq (s_relate3 c1 x1 y1) (s_relate3 c2 x2 y2).
    Proof.
      intros K Hc Hx Hy. unfold s_relate3.
      destruct x1 as [a|], x2 as [a'|]; try contradiction; destruct y1 as [b|], y2 as [b'|];
        try contradiction; try (apply sim_ret; reflexivity).
      eapply sim_bind; [apply sim_user, Hc; [exact Hx|exact Hy]|intros; stk_more|].
      intros r1 r2 Hr. apply sim_res, Hr.
    Qed.
    Lemma stk_relate3 (c : cmpops W2) x y : (forall a b, sticky (c_three c a b)) -> stk (s_relate3 c x y).
    Proof. intros K. unfold s_relate3. stk_more. Qed.
    Lemma sim_three g c1 c2 L1 L2 R1 R2 RL RR :
      rcmp c1 c2 RL RR -> roper RL L1 L2 -> roper RR R1 R2 ->
      sim eq (s_three g c1 L1 R1) (s_three g c2 L2 R2).
    Proof.
      intros (_ & K & _ & Hc & Hd) HL HR. 
      pose proof (sim_operand _ _ _ HL) as SL. pose proof (sim_operand _ _ _ HR) as SR.
      assert (D : forall x1 x2 y1 y2, ropt RL x1 x2 -> ropt RR y1 y2 ->
                  sim eq (s_relate3 c1 x1 y1) (s_relate3 c2 x2 y2)).
      { intros. eapply sim_relate3; eauto. }
      assert (F : forall x1 x2 y1 y2, ropt RL x1 x2 -> ropt RR y1 y2 ->
                  sim eq (o <-- s_relate3 c1 y1 x1 ;;; sret (reverse o))
                         (o <-- s_relate3 c2 y2 x2 ;;; sret (reverse o))).
      { intros. eapply sim_bind; [apply (sim_relate3 c1 c2 RR RL); eauto|intros; stk_more|].
        intros o o' <-. apply sim_ret. reflexivity. }
      assert (KR : forall x y : option rep, stk (s_relate3 c2 x y)) by (intros; apply stk_relate3, K).
      unfold s_three.
      destruct L1, L2; try contradiction; destruct R1, R2; try contradiction; try apply sim_undef;
        (eapply sim_bind; [exact SL|intros; stk_more; auto using stk_operand|]; intros x1 x2 Hx;
         eapply sim_bind; [exact SR|intros; stk_more; auto|]; intros y1 y2 Hy; auto).
      destruct g; auto.
    Qed.
    Lemma sim_hash h1 h2 i :
      (forall x, sticky (h2 x)) -> (forall c x, Rv i c x -> usim (rres eq) (h1 c) (h2 x)) ->
      sim eq (s_hash h1 i) (s_hash h2 i).
    Proof.
      intros K H. eapply sim_bind; [apply sim_contents|intros; stk_more|].
      intros [c|] [x|] Hc; try contradiction; [|apply sim_ret; reflexivity].
      eapply sim_bind; [apply sim_user, H, Hc|intros; stk_more|]. intros r1 r2 Hr. apply sim_res, Hr.
    Qed.

    Lemma sim_wrap {A B} (RA : A -> B -> Prop) (RB : obs -> obs -> Prop) m1 m2 f1 f2 :
      sim RA m1 m2 -> (forall a b, RA a b -> RB (f1 a) (f2 b)) ->
      sim RB (a <-- m1 ;;; sret (f1 a)) (b <-- m2 ;;; sret (f2 b)).
    Proof.
      intros H Hf. eapply sim_bind; [exact H|intros; stk_more|]. intros a b Hab. apply sim_ret, Hf, Hab.
    Qed.

    Lemma stk_var_drop i :
      stk (fun s => match objs s i with
                    | Some (SVar v) => (sdestroy pops2 i v ;;; sset i None) s
                    | _ => (SUndef, s)
                    end).
    Proof.
      intros t H. destruct (objs t i) as [[]|]; try exact H.
      revert t H. change (stk (sdestroy pops2 i v ;;; sset i None)). stk_more.
    Qed.

    Lemma sim_step o1 o2 :
      rop o1 o2 ->
      sim (robs o1) (sstep tid pops1 stor1 isv1 o1) (sstep tid pops2 stor2 isv2 o2).
    Proof.
      intros H. destruct o1, o2; cbn [rop] in H; try contradiction; cbn [sstep];
        unfold sunit, sbool, sval;
        repeat match type of H with
               | ?a = ?b => subst b
               | ?a = ?b /\ _ => let E := fresh in destruct H as (E & H); subst b
               end;
        try (eapply sim_wrap with (RA := eq); [|intros ? ? <-; reflexivity]).
      - apply sim_new, I.
      - apply sim_new, I.
      - eapply sim_bind; [apply sim_fresh|intros; stk_more|]. intros _ _ _.
        eapply sim_bind; [apply sim_init, H|intros; stk_more|]. intros a b Hab. apply sim_become, Hab.
      - apply sim_ctor_from; [intros T; rewrite (Rv_eq _ _ T); apply sim_copy|apply stk_copy].
      - apply sim_ctor_from; [intros T; rewrite (Rv_eq _ _ T); apply sim_move|apply stk_move].
      - apply sim_dtor.
      - apply sim_clear.
      - apply sim_assign, H.
      - apply sim_copy_assign.
      - apply sim_move_assign.
      - apply sim_emplace, H.
      - apply sim_clear.
      - apply sim_swap.
      - apply sim_std_swap.
      - eapply sim_bind; [apply sim_contents|intros; stk_more|].
        intros [c|] [x|] Hc; try contradiction; apply sim_ret; reflexivity.
      - eapply sim_bind; [apply sim_contents|intros; stk_more|].
        intros [c|] [x|] Hc; try contradiction; apply sim_ret; reflexivity.
      - apply sim_access, H.
      - eapply sim_wrap; [apply sim_value_or; [apply sim_copy|apply stk_copy|exact H]|].
        intros a b Hab. exact Hab.
      - eapply sim_wrap; [apply sim_value_or; [apply sim_move|apply stk_move|exact H]|].
        intros a b Hab. exact Hab.
      - apply sim_and_then, H.
      - apply sim_transform, H.
      - apply sim_or_else; apply H.
      - destruct H as (RL & RR & Hc & HL & HR).
        eapply sim_compare; eassumption.
      - destruct H as (RL & RR & Hc & HL & HR). eapply sim_three; eassumption.
      - apply sim_hash; apply H.
      - eapply sim_bind; [apply sim_fresh|intros; stk_more|]. intros _ _ _.
        destruct (isv2 i v0) eqn:S2; [|apply sim_undef]. rewrite (Hisv _ _ _ H S2).
        apply sim_set, H.
      - intros t1 t2 R B0. pose proof (rs_at _ _ i R) as Ho.
        destruct (objs t2 i) as [[o|v]|]; intros B1; try exact I.
        destruct (objs t1 i) as [[o'|v']|]; try contradiction.
        refine (sim_bind eq eq _ _ _ _ (sim_destroy _ _ _ Ho) _ _ t1 t2 R B0 B1).
        + intros; stk_more.
        + intros _ _ _. apply sim_set, I.
    Qed.

    Lemma stk_step_op o1 o2 : rop o1 o2 -> stk (sstep tid pops2 stor2 isv2 o2).
    Proof.
      intros H. destruct o1, o2; cbn [rop] in H; try contradiction; cbn [sstep];
        unfold sunit, sbool, sval; apply stk_bind; try (intros; apply stk_ret).
      all: repeat match type of H with
               | ?a = ?b => subst b
               | ?a = ?b /\ _ => let E := fresh in destruct H as (E & H); subst b
               end.
      all: unfold s_new, s_ctor_from, s_dtor, s_clear, s_assign, s_copy_assign, s_move_assign, s_emplace,
        s_swap, s_has, s_access, s_value_or, s_and_then, s_transform, s_or_else, s_hash, same.
      all: try apply stk_std_swap.
      all: try (stk_more; unfold s_clear, s_new; stk_more; fail).
      all: try (destruct H as (K & _); unfold s_new; stk_more; fail).
      - pose proof H as (Hi & _). stk_more. eapply stk_assign_existing; eassumption.
      - unfold s_compare. destruct H as (RL & RR & (K & _) & _).
        stk_more; try apply stk_operand. unfold s_relate. stk_more.
      - destruct H as (RL & RR & (_ & K & _) & _). unfold s_three.
        destruct L0; stk_more; try apply stk_operand; try (apply stk_relate3, K).
      - apply stk_var_drop.
    Qed.

    (** Whole histories. *)
    Lemma stk_run p1 p2 t :
      Forall2 rop p1 p2 -> bad t = true -> bad (snd (srun tid pops2 stor2 isv2 p2 t)) = true.
    Proof.
      intros Hpp. revert t. induction Hpp as [|o1 o2 p1 p2 Ho Hpp IH]; intros t B; cbn [srun]; [exact B|].
      pose proof (stk_step_op _ _ Ho t B) as K.
      destruct (sstep tid pops2 stor2 isv2 o2 t) as [[x|e|] t']; cbn [snd] in K; [| |exact K];
        specialize (IH t' K); destruct (srun tid pops2 stor2 isv2 p2 t') as [r t'']; exact IH.
    Qed.
    Lemma sim_run p1 p2 t1 t2 :
      Forall2 rop p1 p2 -> rs t1 t2 -> bad t2 = false ->
      bad (snd (srun tid pops2 stor2 isv2 p2 t2)) = false ->
      match srun tid pops2 stor2 isv2 p2 t2 with
      | (Some ys, t2') =>
          exists xs t1', srun tid pops1 stor1 isv1 p1 t1 = (Some xs, t1') /\ robs_all p1 xs ys /\ rs t1' t2'
      | (None, _) => True
      end.
    Proof.
      intros Hpp. revert t1 t2. induction Hpp as [|o1 o2 p1 p2 Ho Hpp IH]; intros t1 t2 R B0 B1; cbn [srun] in *.
      - exists [], t1. split; [reflexivity|]. split; [exact I|exact R].
      - pose proof (sim_step _ _ Ho t1 t2 R B0) as K.
        destruct (sstep tid pops2 stor2 isv2 o2 t2) as [[y|e|] t2']; [| |exact I]; cbn [snd] in K;
          (assert (B2 : bad t2' = false);
           [destruct (bad t2') eqn:B2; [|reflexivity];
            pose proof (stk_run _ _ _ Hpp B2) as B3;
            destruct (srun tid pops2 stor2 isv2 p2 t2') as [r t2'']; cbn [snd] in *; congruence|]).
        + destruct (K B2) as (x & t1' & -> & Hx & R'). specialize (IH t1' t2' R' B2).
          destruct (srun tid pops2 stor2 isv2 p2 t2') as [[ys|] t2'']; cbn in *; [|exact I].
          destruct (IH B1) as (xs & t1'' & -> & Hxs & R''). cbn. eexists _, _.
          split; [reflexivity|]. split; [split; assumption|exact R''].
        + destruct (K B2) as (t1' & -> & R'). specialize (IH t1' t2' R' B2).
          destruct (srun tid pops2 stor2 isv2 p2 t2') as [[ys|] t2'']; cbn in *; [|exact I].
          destruct (IH B1) as (xs & t1'' & -> & Hxs & R''). cbn. eexists _, _.
          split; [reflexivity|]. split; [split; [|exact Hxs]|exact R''].
          destruct o1; reflexivity.
    Qed.
  End Data.
End Relations.
