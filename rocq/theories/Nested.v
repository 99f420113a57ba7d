(** * Nested: optionals of optionals (C47)

    The payload of an optional may itself be a tiny optional.  Its special member
    functions are then the library's own code, running on the memory of the payload.
    This file builds the payload operations of such a type from the model of the library
    ([tiny_ops]), and the payload operations of std::optional<T> from the specification
    ([std_ops]), and shows that a tiny optional of tiny optionals behaves as a
    std::optional of std::optionals, for every depth of nesting, every history and every
    storage strategy of the innermost optional. *)

From Coq Require Import List NArith ZArith Bool Arith Lia.
From Verif Require Import Cells CellsFacts Machine Optional Program Spec Laws Refine Contract SpecTac Data.
From Verif Require Import Bits Manip Sample ExampleTac Noexcept.
Import ListNotations.

Local Arguments put : simpl never.
Local Arguments sub : simpl never.

Section Nested.
  Context {W : Type}.
  (** The world has room for a note that something went wrong inside of user code: a
      fault of the machine (tiny side), or a violation of the contract of an inner
      optional (std side).  [payops] cannot express these otherwise. *)
  Variable err : W -> bool.
  Variable mark : W -> W.
  Hypothesis err_mark : forall w, err (mark w) = true.
  Variable dbg : bool.

  (** ** A tiny optional as payload *)

  (** A program with optionals of type [T] only. *)
  Definition inner (T : optty W) : env W := MkEnv W (fun _ => T) (fun _ => 0) dbg.
  (** The optional whose memory contains [c]: the flag decides which objects are alive. *)
  Definition obj_region (T : optty W) (c : rep) : region :=
    match m_is_empty (ot_man T) (flag_cells (ot_dec T) c) with
    | Some true => MkRegion c true false
    | _ => MkRegion c (d_sep (ot_dec T)) true
    end.
  Definition mem2 (T : optty W) (a b : option rep) : loc -> option region :=
    fun i => match i with
             | 0 => option_map (obj_region T) a
             | 1 => option_map (obj_region T) b
             | _ => None
             end.
  Definition start2 (T : optty W) (a b : option rep) (w : W) : state W := MkState (mem2 T a b) w [].
  Definition cells_at (s : state W) (i : loc) : rep :=
    match mem s i with Some r => cells r | None => [] end.
  (** Run library code on one or two optionals, called 0 and 1. *)
  Definition tiny_run (T : optty W) (m : M W unit) (a b : option rep) (w : W)
    : (res unit * (rep * rep)) * W :=
    match m (start2 T a b w) with
    | (Ok _, s) => ((ROk tt, (cells_at s 0, cells_at s 1)), world s)
    | (Throw e, s) => ((RThrow e, (cells_at s 0, cells_at s 1)), world s)
    | (Dead _, s) => ((ROk tt, ([], [])), mark (world s))
    end.
  Definition value_of (r : res unit) (c : rep) : res rep :=
    match r with ROk _ => ROk c | RThrow e => RThrow e end.

  (** The special member functions of a tiny optional of type [T], with their noexcept
      specifications (optional.h:1179, 1236, 1293, 1656), and the swap that
      "using std::swap; swap(a, b)" finds for it.  [g]: it is the generic std::swap<T> of
      the standard library instead of the library's own (optional.h:1842-1855); SwapCall.v
      has when.  Its local variable is 2. *)
  Definition swap_code (g : bool) (T : optty W) (i j : loc) : M W unit :=
    if g then std_swap (inner T) i j 2 else swap (inner T) i j.
  Definition tiny_ops (g : bool) (T : optty W) : payops W :=
    let E := inner T in
    MkPayOps W
      (fun v w => let '((r, (c, _)), w') := tiny_run T (ctor_copy E 0 1) None (Some v) w in
                  (value_of r c, w'))
      (fun v w => let '((r, (c, d)), w') := tiny_run T (ctor_move E 0 1) None (Some v) w in
                  ((value_of r c, d), w'))
      (fun d v w => let '((r, (c, _)), w') := tiny_run T (assign_copy E 0 1) (Some d) (Some v) w in
                    ((r, c), w'))
      (fun d v w => tiny_run T (assign_move E 0 1) (Some d) (Some v) w)
      (fun v w => let '((r, (c, _)), w') := tiny_run T (assign_copy E 0 0) (Some v) None w in
                  ((r, c), w'))
      (fun v w => let '((r, (c, _)), w') := tiny_run T (assign_move E 0 0) (Some v) None w in
                  ((r, c), w'))
      (fun a b w => tiny_run T (swap_code g T 0 1) (Some a) (Some b) w)
      (fun v w => let '((r, (c, _)), w') := tiny_run T (swap_code g T 0 0) (Some v) None w in
                  ((r, c), w'))
      (fun v w => snd (tiny_run T (dtor E 0) (Some v) None w))
      false
      (po_nt_move (ot_ops T))
      (po_nt_massign (ot_ops T) && po_nt_move (ot_ops T))
      (if g then po_nt_move (ot_ops T) && (po_nt_massign (ot_ops T) && po_nt_move (ot_ops T))
       else po_nt_move (ot_ops T) && po_nt_swap (ot_ops T)).

  (** The optional type with such a payload. *)
  Definition nest (D : decomp) (F : manip) (g : bool) (T : optty W) : optty W :=
    MkOptTy W D F (tiny_ops g T).

  (** ** std::optional as payload *)

  (** Values of std::optional<T>, written as representations. *)
  Definition enc (o : option rep) : rep :=
    match o with None => [Atom 0] | Some v => Atom 1 :: v end.
  Definition dec_opt (x : rep) : option rep :=
    match x with Atom 1 :: v => Some v | _ => None end.
  Lemma dec_enc o : dec_opt (enc o) = o.
  Proof. destruct o; reflexivity. Qed.

  Section Std.
    Variable p : payops W.
    Variable stor : rep -> bool.   (* the contract of the inner optional *)
    Variable isv : rep -> bool.
    Definition sobjs2 (a b : option rep) : loc -> option sobj :=
      fun i => match i with
               | 0 => option_map (fun x => SOpt (dec_opt x)) a
               | 1 => option_map (fun x => SOpt (dec_opt x)) b
               | _ => None
               end.
    Definition enc_at (t : sstate W) (i : loc) : rep :=
      match objs t i with Some (SOpt o) => enc o | _ => [] end.
    Definition std_run2 (m : @S W unit) (a b : option rep) (w : W) : (res unit * (rep * rep)) * W :=
      match m (MkS (sobjs2 a b) w) with
      | (SOk _, t) => ((ROk tt, (enc_at t 0, enc_at t 1)), sworld t)
      | (SThrow e, t) => ((RThrow e, (enc_at t 0, enc_at t 1)), sworld t)
      | (SUndef, t) => ((ROk tt, ([], [])), mark (sworld t))
      end.
    Let tid : loc -> nat := fun _ => 0.
    Let pops : loc -> payops W := fun _ => p.
    Let st : loc -> rep -> bool := fun _ => stor.
    Let vl : loc -> rep -> bool := fun _ => isv.
    (** std::optional's own swap, resp. the generic one for comparison with a tiny
        optional that is swapped by it. *)
    Definition s_swap_code (g : bool) (i j : loc) : @S W unit :=
      if g then s_std_swap tid pops st vl i j 2 else s_swap tid pops st vl i j.
    Definition std_ops (g : bool) : payops W :=
      MkPayOps W
        (fun v w => let '((r, (c, _)), w') :=
                      std_run2 (s_ctor_from tid st (scopy pops 1) 0 1) None (Some v) w in
                    (value_of r c, w'))
        (fun v w => let '((r, (c, d)), w') :=
                      std_run2 (s_ctor_from tid st (smove pops st vl 1) 0 1) None (Some v) w in
                    ((value_of r c, d), w'))
        (fun d v w => let '((r, (c, _)), w') :=
                        std_run2 (s_copy_assign tid pops st vl 0 1) (Some d) (Some v) w in
                      ((r, c), w'))
        (fun d v w => std_run2 (s_move_assign tid pops st vl 0 1) (Some d) (Some v) w)
        (fun v w => let '((r, (c, _)), w') :=
                      std_run2 (s_copy_assign tid pops st vl 0 0) (Some v) None w in
                    ((r, c), w'))
        (fun v w => let '((r, (c, _)), w') :=
                      std_run2 (s_move_assign tid pops st vl 0 0) (Some v) None w in
                    ((r, c), w'))
        (fun a b w => std_run2 (s_swap_code g 0 1) (Some a) (Some b) w)
        (fun v w => let '((r, (c, _)), w') :=
                      std_run2 (s_swap_code g 0 0) (Some v) None w in
                    ((r, c), w'))
        (fun v w => snd (std_run2 (s_dtor pops 0) (Some v) None w))
        false
        (po_nt_move p)
        (po_nt_massign p && po_nt_move p)
        (if g then po_nt_move p && (po_nt_massign p && po_nt_move p) else po_nt_move p && po_nt_swap p).
  End Std.

  (** ** The relation *)

  (** [c] is the memory of a tiny optional of type [T] that contains what the
      std::optional [x] contains. *)
  Definition RO (T : optty W) (R : rep -> rep -> Prop) (c x : rep) : Prop :=
    length c = d_ssize (ot_dec T) /\
    exists o, x = enc o /\
    match o with
    | None => m_is_empty (ot_man T) (flag_cells (ot_dec T) c) = Some true
    | Some y => m_is_empty (ot_man T) (flag_cells (ot_dec T) c) = Some false /\
                R (sub 0 (d_psize (ot_dec T)) c) y
    end.

  (** *** Spec code keeps optionals in existence *)
  Definition is_opt (x : option sobj) : bool := match x with Some (SOpt _) => true | _ => false end.
  Definition keeps {A} (i : loc) (m : @S W A) : Prop :=
    forall t, is_opt (objs t i) = true ->
      match m t with (SUndef, _) => True | (_, t') => is_opt (objs t' i) = true end.
  Definition makes {A} (i : loc) (m : @S W A) : Prop :=
    forall t, match m t with (SOk _, t') => is_opt (objs t' i) = true | _ => True end.

  Lemma k_ret {A} i (a : A) : keeps i (sret a).
  Proof. intros t H. exact H. Qed.
  Lemma k_throw {A} i e : keeps i (@sthrow W A e).
  Proof. intros t H. exact H. Qed.
  Lemma k_undef {A} i : keeps i (@sundef W A).
  Proof. intros t H. exact I. Qed.
  Lemma k_bind {A B} i (m : @S W A) (k : A -> @S W B) :
    keeps i m -> (forall a, keeps i (k a)) -> keeps i (sbind m k).
  Proof.
    intros Hm Hk t H. specialize (Hm t H). unfold sbind. destruct (m t) as [[a|e|] t']; auto.
    apply Hk, Hm.
  Qed.
  Lemma k_user {A} i (f : W -> A * W) : keeps i (suser f).
  Proof. intros t H. unfold suser. destruct (f (sworld t)). exact H. Qed.
  Lemma k_res {A} i (r : res A) : keeps i (@sres W A r).
  Proof. destruct r; [apply k_ret|apply k_throw]. Qed.
  Lemma k_contents i j : keeps i (@contents W j).
  Proof. intros t H. unfold contents. destruct (objs t j) as [[]|]; try exact I. exact H. Qed.
  Lemma k_fresh i j : keeps i (@fresh W j).
  Proof. intros t H. unfold fresh. destruct (objs t j); [exact I|exact H]. Qed.
  Lemma k_read i j : keeps i (@sread W j).
  Proof. intros t H. unfold sread. destruct (objs t j) as [[[]|]|]; try exact I; exact H. Qed.
  Lemma k_set i j o : keeps i (@sset W j (Some (SOpt o))).
  Proof.
    intros t H. cbn. unfold upd. destruct (Nat.eqb j i); [reflexivity|exact H].
  Qed.
  Lemma k_become st i j o : keeps i (@become W st j o).
  Proof.
    destruct o as [v|]; cbn; [destruct (st j v); [apply k_set|apply k_undef]|apply k_set].
  Qed.
  Lemma k_write st vl i j v : keeps i (@swrite W st vl j v).
  Proof.
    intros t H. unfold swrite. destruct (objs t j) as [[[x|]|x]|] eqn:Hj; try exact I.
    - apply (k_become st i j (Some v)), H.
    - destruct (vl j v); [|exact I]. cbn. unfold upd. destruct (Nat.eqb_spec j i) as [->|]; [|exact H].
      rewrite Hj in H. discriminate.
  Qed.
  Ltac k_tac :=
    repeat match goal with
      | |- keeps _ (sbind _ _) => apply k_bind; [|intros ?]
      | |- keeps _ (sret _) => apply k_ret
      | |- keeps _ (sthrow _) => apply k_throw
      | |- keeps _ sundef => apply k_undef
      | |- keeps _ (suser _) => apply k_user
      | |- keeps _ (sres _) => apply k_res
      | |- keeps _ (contents _) => apply k_contents
      | |- keeps _ (fresh _) => apply k_fresh
      | |- keeps _ (sread _) => apply k_read
      | |- keeps _ (become _ _ _) => apply k_become
      | |- keeps _ (swrite _ _ _ _) => apply k_write
      | |- keeps _ (match ?x with _ => _ end) => destruct x
      end.
  Lemma k_copy i j p : keeps i (@scopy W p j).
  Proof. unfold scopy. k_tac. Qed.
  Lemma k_move i j p st vl : keeps i (@smove W p st vl j).
  Proof. unfold smove. k_tac. Qed.
  Lemma k_ctor_from i j k tid st (g : @S W rep) : keeps i g -> keeps i (s_ctor_from tid st g j k).
  Proof. intros Hg. unfold s_ctor_from, same. k_tac. exact Hg. Qed.
  Lemma k_clear i j p st : keeps i (@s_clear W p st j).
  Proof. unfold s_clear, sdestroy. k_tac. Qed.
  Lemma k_copy_assign i j k tid p st vl : keeps i (@s_copy_assign W tid p st vl j k).
  Proof. unfold s_copy_assign, same, sdestroy. k_tac; apply k_copy. Qed.
  Lemma k_move_assign i j k tid p st vl : keeps i (@s_move_assign W tid p st vl j k).
  Proof. unfold s_move_assign, same, sdestroy. k_tac; apply k_move. Qed.
  Lemma k_swap i j k tid p st vl : keeps i (@s_swap W tid p st vl j k).
  Proof. unfold s_swap, same. k_tac; first [apply k_move|apply k_clear]. Qed.

  (** The local variable of std::swap is not one of those that are kept. *)
  Lemma k_dtor_other i k p : k <> i -> keeps i (@s_dtor W p k).
  Proof.
    intros N. unfold s_dtor, sdestroy. k_tac. 1,2: intros t H; cbn; unfold upd.
    all: destruct (Nat.eqb_spec k i); [contradiction|exact H].
  Qed.
  Lemma k_on_throw {A} i (m : @S W A) h : keeps i m -> keeps i h -> keeps i (s_on_throw m h).
  Proof.
    intros Hm Hh t H. specialize (Hm t H). unfold s_on_throw. destruct (m t) as [[a|e|] t']; auto.
    specialize (Hh t' Hm). destruct (h t') as [[u|e'|] t'']; auto.
  Qed.
  Lemma k_std_swap i j k l tid p st vl : l <> i -> keeps i (@s_std_swap W tid p st vl j k l).
  Proof.
    intros N. unfold s_std_swap, same. destruct (Nat.eqb _ _); [|apply k_undef].
    apply k_bind; [apply k_contents|intros _]. apply k_bind; [apply k_ctor_from, k_move|intros _].
    apply k_bind; [|intros _; apply k_dtor_other, N].
    apply k_on_throw; [|apply k_dtor_other, N]. apply k_bind; [apply k_move_assign|intros _; apply k_move_assign].
  Qed.
  Lemma k_swap_code i j k p stor isv g : i < 2 -> keeps i (s_swap_code p stor isv g j k).
  Proof. intros N. destruct g; [apply k_std_swap; lia|apply k_swap]. Qed.

  Lemma m_bind {A B} i (m : @S W A) (k : A -> @S W B) : (forall a, makes i (k a)) -> makes i (sbind m k).
  Proof. intros Hk t. unfold sbind. destruct (m t) as [[a|e|] t']; auto. apply Hk. Qed.
  Lemma m_become st i o : makes i (@become W st i o).
  Proof.
    intros t. destruct o as [v|]; cbn; [destruct (st i v); cbn; [|exact I]|]; unfold upd;
      rewrite Nat.eqb_refl; reflexivity.
  Qed.
  Lemma m_ctor_from i j tid st (g : @S W rep) : makes i (s_ctor_from tid st g i j).
  Proof.
    unfold s_ctor_from, same. destruct (Nat.eqb _ _); [|intros t; exact I].
    apply m_bind. intros _. apply m_bind. intros [v|]; [|apply m_become].
    apply m_bind. intros x. apply m_become.
  Qed.

  (** ** One level of nesting *)

  Section Level.
    Variable T : optty W.
    Hypothesis HT : optty_ok T.
    Variable p2 : payops W.
    Variables stor2 isv2 : rep -> bool.
    Variable R : rep -> rep -> Prop.
    Hypothesis Hp : psim eq err R (ot_ops T) p2.
    Hypothesis Hk : psticky err p2.
    Hypothesis Hstor : forall c x, R c x -> stor2 x = true -> storable_in (ot_dec T) (ot_man T) c = true.
    Hypothesis Hisv : forall c x, R c x -> isv2 x = true -> length c = d_psize (ot_dec T).

    Let E : env W := inner T.
    Let tid : loc -> nat := fun _ => 0.
    Let pops : loc -> payops W := fun _ => p2.
    Let st : loc -> rep -> bool := fun _ => stor2.
    Let vl : loc -> rep -> bool := fun _ => isv2.
    Let RT : nat -> rep -> rep -> Prop := fun _ => R.

    Lemma HE : env_ok E.
    Proof. intros t. exact HT. Qed.

    (** What the memory contains. *)
    Definition contents1 (c : rep) : option rep :=
      match m_is_empty (ot_man T) (flag_cells (ot_dec T) c) with
      | Some true => None
      | _ => Some (sub 0 (d_psize (ot_dec T)) c)
      end.
    Definition sobjs1 (a b : option rep) : loc -> option sobj :=
      fun i => match i with
               | 0 => option_map (fun c => SOpt (contents1 c)) a
               | 1 => option_map (fun c => SOpt (contents1 c)) b
               | _ => None
               end.

    Lemma start_robj i c x :
      RO T R c x -> robj E i (Some (obj_region T c)) (Some (SOpt (contents1 c))).
    Proof.
      intros (L & o & -> & H). unfold robj, obj_region, contents1. destruct o as [y|].
      - destruct H as (H & _). rewrite H. exists c.
        split; [reflexivity|]. split; [exact L|]. split; [reflexivity|exact H].
      - rewrite H. exists c. split; [reflexivity|]. split; [exact L|exact H].
    Qed.
    Lemma start_rs i c x :
      RO T R c x -> rsobj tid RT i (SOpt (contents1 c)) (SOpt (dec_opt x)).
    Proof.
      intros (L & o & -> & H). rewrite dec_enc. unfold contents1. destruct o as [y|]; cbn.
      - destruct H as (-> & H). exact H.
      - rewrite H. exact I.
    Qed.

    Lemma start_rel a b a' b' w :
      ropt (RO T R) a a' -> ropt (RO T R) b b' ->
      rel E NoHole (start2 T a b w) (MkS (sobjs1 a b) w) /\
      rs eq tid RT (MkS (sobjs1 a b) w) (MkS (sobjs2 a' b') w).
    Proof.
      intros Ha Hb. split.
      - split; [reflexivity|]. split; [intros i []|]. intros [|[|j]]; cbn -[robj]; [| |reflexivity].
        + destruct a as [c|], a' as [x|]; try contradiction; [|reflexivity]. eapply start_robj, Ha.
        + destruct b as [c|], b' as [x|]; try contradiction; [|reflexivity]. eapply start_robj, Hb.
      - split; [reflexivity|]. intros [|[|j]]; cbn -[rsobj]; [| |exact I].
        + destruct a as [c|], a' as [x|]; try contradiction; [|exact I]. apply start_rs, Ha.
        + destruct b as [c|], b' as [x|]; try contradiction; [|exact I]. apply start_rs, Hb.
    Qed.

    (** The final states represent the same. *)
    Lemma final_rel s t1 t2 i o :
      rel E NoHole s t1 -> rs eq tid RT t1 t2 -> objs t2 i = Some (SOpt o) ->
      RO T R (cells_at s i) (enc o).
    Proof.
      intros Hr (_ & Hs) Ho. specialize (Hs i). rewrite Ho in Hs.
      destruct (objs t1 i) as [[o1|v]|] eqn:H1; try contradiction.
      pose proof (rel_robj E _ _ _ i Hr I) as Hm. rewrite H1 in Hm. unfold cells_at.
      destruct o1 as [c|], o as [x|]; try contradiction.
      - destruct Hm as (m & -> & L & Hv & He). cbn. split; [exact L|]. exists (Some x).
        split; [reflexivity|]. split; [exact He|]. change (d_psize (ot_dec T)) with (d_psize (dec E i)).
        rewrite Hv. exact Hs.
      - destruct Hm as (m & -> & L & He). cbn. split; [exact L|]. exists None. split; [reflexivity|exact He].
    Qed.

    Notation sim' := (sim eq err tid RT).

    Lemma Hp' : forall i, psim eq err (Rv tid RT i) (ops E i) (pops i).
    Proof. intros i. exact Hp. Qed.
    Lemma Hk' : forall i, psticky err (pops i).
    Proof. intros i. exact Hk. Qed.
    Lemma Hstor' : forall i c x, Rv tid RT i c x -> st i x = true -> storable E i c = true.
    Proof. intros i c x H1 H2. exact (Hstor c x H1 H2). Qed.
    Lemma Hisv' : forall i c x, Rv tid RT i c x -> vl i x = true -> is_value E i c = true.
    Proof. intros i c x H1 H2. apply Nat.eqb_eq. exact (Hisv c x H1 H2). Qed.

    (** Library code against std::optional with the other representation. *)
    Lemma run_rel (m : M W unit) sm1 sm2 a b a' b' w :
      refines E NoHole m sm1 -> sim' eq sm1 sm2 -> 
      ropt (RO T R) a a' -> ropt (RO T R) b b' -> err w = false ->
      err (snd (std_run2 sm2 a' b' w)) = false ->
      let '((r1, (c, d)), w1) := tiny_run T m a b w in
      let '((r2, (x, y)), w2) := std_run2 sm2 a' b' w in
      r1 = r2 /\ w1 = w2 /\
      exists u t, sm2 (MkS (sobjs2 a' b') w) = (u, t) /\ u <> SUndef /\
        (forall v, u = SOk v -> r2 = ROk tt) /\ (forall e, u = SThrow e -> r2 = RThrow e) /\
        (is_opt (objs t 0) = true -> RO T R c x) /\ (is_opt (objs t 1) = true -> RO T R d y).
    Proof.
      intros Hm Hs Ha Hb B0. destruct (start_rel a b a' b' w Ha Hb) as (R0 & R1).
      specialize (Hm _ _ R0). specialize (Hs _ _ R1 B0). unfold std_run2, tiny_run, agrees in *.
      destruct (sm2 (MkS (sobjs2 a' b') w)) as [[u|e|] t2]; cbn [snd] in *.
      - intros B1. destruct (Hs B1) as (a1 & t1 & E1 & _ & R2). rewrite E1 in Hm.
        destruct Hm as (s & -> & R3). split; [reflexivity|].
        split; [rewrite (rel_world E _ _ R3); apply R2|].
        eexists _, _. split; [reflexivity|]. split; [discriminate|]. split; [reflexivity|].
        split; [discriminate|].
        split; intros Ho; unfold enc_at;
          [destruct (objs t2 0) as [[o|]|] eqn:H0|destruct (objs t2 1) as [[o|]|] eqn:H0]; try discriminate;
          eapply final_rel; eassumption.
      - intros B1. destruct (Hs B1) as (t1 & E1 & R2). rewrite E1 in Hm.
        destruct Hm as (s & -> & R3). split; [reflexivity|].
        split; [rewrite (rel_world E _ _ R3); apply R2|].
        eexists _, _. split; [reflexivity|]. split; [discriminate|]. split; [discriminate|].
        split; [intros ? [= ->]; reflexivity|].
        split; intros Ho; unfold enc_at;
          [destruct (objs t2 0) as [[o|]|] eqn:H0|destruct (objs t2 1) as [[o|]|] eqn:H0]; try discriminate;
          eapply final_rel; eassumption.
      - intros B1. rewrite err_mark in B1. discriminate.
    Qed.

    (** The cells of optionals that survive. *)
    Lemma keep_at i (m : @S W unit) t u t' :
      keeps i m -> m t = (u, t') -> u <> SUndef -> is_opt (objs t i) = true -> is_opt (objs t' i) = true.
    Proof. intros K H N Ho. specialize (K t Ho). rewrite H in K. destruct u; auto. Qed.

    Ltac open_run H :=
      match type of H with
      | err (snd (std_run2 ?m ?a ?b ?w)) = false -> _ =>
          destruct (std_run2 m a b w) as [[r2 [x0 x1]] w2] eqn:E2
      end;
      match type of H with
      | _ -> let '_ := tiny_run T ?m ?a ?b ?w in _ =>
          destruct (tiny_run T m a b w) as [[r1 [c0 c1]] w1]
      end; cbn [fst snd] in *;
      let B1 := fresh "B1" in intros B1;
      destruct (H B1) as (-> & -> & u & t & Hu & Nu & H1 & H2 & H3 & H4).
    Ltac both K H :=
      match goal with
      | Hu : _ = (?u, ?t), Nu : ?u <> SUndef |- _ =>
          apply H; eapply keep_at; [apply K|exact Hu|exact Nu|reflexivity]
      end.

    Lemma refines_swap_code (g : bool) i j :
      refines E NoHole (swap_code g T i j)
        (if g then s_std_swap (e_tid E) (ops E) (storable E) (is_value E) i j 2
         else s_swap (e_tid E) (ops E) (storable E) (is_value E) i j).
    Proof. destruct g; [apply refines_std_swap|apply refines_swap]; exact HE. Qed.
    Lemma sim_swap_code (g : bool) i j :
      sim' eq (if g then s_std_swap (e_tid E) (ops E) (storable E) (is_value E) i j 2
               else s_swap (e_tid E) (ops E) (storable E) (is_value E) i j)
              (s_swap_code p2 stor2 isv2 g i j).
    Proof.
      destruct g.
      - apply (sim_std_swap eq err tid (ops E) pops (storable E) st (is_value E) vl RT Hp' Hk' Hstor' Hisv').
      - apply (sim_swap eq err tid (ops E) pops (storable E) st (is_value E) vl RT Hp' Hk' Hstor' Hisv').
    Qed.

    Theorem tiny_sim (g : bool) : psim eq err (RO T R) (tiny_ops g T) (std_ops p2 stor2 isv2 g).
    Proof.
      assert (NN : ropt (RO T R) None None) by exact I.
      assert (rr : forall r : res unit, rres eq r r) by (intros []; reflexivity).
      split.
      - intros c x Hc w ? <- B0. cbn -[ctor_copy s_ctor_from std_run2 tiny_run]. fold E tid st pops.
        pose proof (run_rel (ctor_copy E 0 1) _ (s_ctor_from tid st (scopy pops 1) 0 1) None (Some c) None (Some x) w
          (refines_copy_ctor E HE 0 1)
          (sim_ctor_from eq err tid (storable E) st RT Hstor' 0 1 _ _
             (fun _ => sim_copy eq err tid (ops E) pops RT Hp' Hk' 1) (stk_copy err pops Hk' 1)) NN Hc B0) as H.
        open_run H. split; cbn [fst snd]; [|reflexivity].
        pose proof (m_ctor_from 0 1 tid st (scopy pops 1) (MkS (sobjs2 None (Some x)) w)) as Hmk.
        rewrite Hu in Hmk. destruct u as [v|e|]; [| |congruence].
        + rewrite (H1 v eq_refl). cbn. apply H3, Hmk.
        + rewrite (H2 e eq_refl). reflexivity.
      - intros c x Hc w ? <- B0. cbn -[ctor_move s_ctor_from std_run2 tiny_run]. fold E tid st pops vl.
        pose proof (run_rel (ctor_move E 0 1) _ (s_ctor_from tid st (smove pops st vl 1) 0 1) None (Some c) None (Some x) w
          (refines_move_ctor E HE 0 1)
          (sim_ctor_from eq err tid (storable E) st RT Hstor' 0 1 _ _
             (fun _ => sim_move eq err tid (ops E) pops (storable E) st (is_value E) vl RT Hp' Hk' Hstor' Hisv' 1)
             (stk_move err pops st vl Hk' 1)) NN Hc B0) as H.
        open_run H. split; cbn [fst snd]; [|reflexivity]. split; cbn [fst snd].
        + pose proof (m_ctor_from 0 1 tid st (smove pops st vl 1) (MkS (sobjs2 None (Some x)) w)) as Hmk.
          rewrite Hu in Hmk. destruct u as [v|e|]; [| |congruence].
          * rewrite (H1 v eq_refl). cbn. apply H3, Hmk.
          * rewrite (H2 e eq_refl). reflexivity.
        + both (k_ctor_from 1 0 1 tid st _ (k_move 1 1 pops st vl)) H4.
      - intros d y c x Hd Hc w ? <- B0. cbn -[assign_copy s_copy_assign std_run2 tiny_run]. fold E tid st pops vl.
        pose proof (run_rel (assign_copy E 0 1) _ (s_copy_assign tid pops st vl 0 1) (Some d) (Some c) (Some y) (Some x) w
          (refines_copy_assign E HE 0 1)
          (sim_copy_assign eq err tid (ops E) pops (storable E) st (is_value E) vl RT Hp' Hk' Hstor' Hisv' 0 1) Hd Hc B0) as H.
        open_run H. split; cbn [fst snd]; [|reflexivity]. split; cbn [fst snd]; [apply rr|].
        both (k_copy_assign 0 0 1 tid pops st vl) H3.
      - intros d y c x Hd Hc w ? <- B0. cbn -[assign_move s_move_assign std_run2 tiny_run]. fold E tid st pops vl.
        pose proof (run_rel (assign_move E 0 1) _ (s_move_assign tid pops st vl 0 1) (Some d) (Some c) (Some y) (Some x) w
          (refines_move_assign E HE 0 1)
          (sim_move_assign eq err tid (ops E) pops (storable E) st (is_value E) vl RT Hp' Hk' Hstor' Hisv' 0 1) Hd Hc B0) as H.
        open_run H. split; cbn [fst snd]; [|reflexivity]. split; cbn [fst snd]; [apply rr|]. split; cbn [fst snd].
        + both (k_move_assign 0 0 1 tid pops st vl) H3.
        + both (k_move_assign 1 0 1 tid pops st vl) H4.
      - intros c x Hc w ? <- B0. cbn -[assign_copy s_copy_assign std_run2 tiny_run]. fold E tid st pops vl.
        pose proof (run_rel (assign_copy E 0 0) _ (s_copy_assign tid pops st vl 0 0) (Some c) None (Some x) None w
          (refines_copy_assign E HE 0 0)
          (sim_copy_assign eq err tid (ops E) pops (storable E) st (is_value E) vl RT Hp' Hk' Hstor' Hisv' 0 0) Hc NN B0) as H.
        open_run H. split; cbn [fst snd]; [|reflexivity]. split; cbn [fst snd]; [apply rr|].
        both (k_copy_assign 0 0 0 tid pops st vl) H3.
      - intros c x Hc w ? <- B0. cbn -[assign_move s_move_assign std_run2 tiny_run]. fold E tid st pops vl.
        pose proof (run_rel (assign_move E 0 0) _ (s_move_assign tid pops st vl 0 0) (Some c) None (Some x) None w
          (refines_move_assign E HE 0 0)
          (sim_move_assign eq err tid (ops E) pops (storable E) st (is_value E) vl RT Hp' Hk' Hstor' Hisv' 0 0) Hc NN B0) as H.
        open_run H. split; cbn [fst snd]; [|reflexivity]. split; cbn [fst snd]; [apply rr|].
        both (k_move_assign 0 0 0 tid pops st vl) H3.
      - intros d y c x Hd Hc w ? <- B0. cbn -[swap_code s_swap_code std_run2 tiny_run].
        pose proof (run_rel (swap_code g T 0 1) _ (s_swap_code p2 stor2 isv2 g 0 1) (Some d) (Some c) (Some y) (Some x) w
          (refines_swap_code g 0 1) (sim_swap_code g 0 1) Hd Hc B0) as H.
        open_run H. split; cbn [fst snd]; [|reflexivity]. split; cbn [fst snd]; [apply rr|]. split; cbn [fst snd].
        + both (k_swap_code 0 0 1 p2 stor2 isv2 g Nat.lt_0_2) H3.
        + both (k_swap_code 1 0 1 p2 stor2 isv2 g Nat.lt_1_2) H4.
      - intros c x Hc w ? <- B0. cbn -[swap_code s_swap_code std_run2 tiny_run].
        pose proof (run_rel (swap_code g T 0 0) _ (s_swap_code p2 stor2 isv2 g 0 0) (Some c) None (Some x) None w
          (refines_swap_code g 0 0) (sim_swap_code g 0 0) Hc NN B0) as H.
        open_run H. split; cbn [fst snd]; [|reflexivity]. split; cbn [fst snd]; [apply rr|].
        both (k_swap_code 0 0 0 p2 stor2 isv2 g Nat.lt_0_2) H3.
      - intros c x Hc w ? <- B0. cbn -[dtor s_dtor std_run2 tiny_run]. fold E tid st pops vl.
        pose proof (run_rel (dtor E 0) _ (s_dtor pops 0) (Some c) None (Some x) None w
          (refines_dtor E HE 0)
          (sim_dtor eq err tid (ops E) pops RT Hp' Hk' 0) Hc NN B0) as H.
        open_run H. split; reflexivity.
    Qed.

    (** The note is never erased. *)
    Lemma std_run2_sticky m a b : stk err m -> sticky err (std_run2 m a b).
    Proof.
      intros K w B. specialize (K (MkS (sobjs2 a b) w) B). unfold std_run2, bad in *.
      destruct (m _) as [[u|e|] t]; cbn [snd sworld] in *; auto.
    Qed.
    Theorem std_sticky g : psticky err (std_ops p2 stor2 isv2 g).
    Proof.
      pose proof (stk_copy err pops Hk') as K1. pose proof (stk_move err pops st vl Hk') as K2.
      pose proof (stk_clear err pops st Hk') as K3.
      assert (Kd : forall i v, stk err (sdestroy pops i v)) by (intros; apply stk_user, Hk).
      split; intros; intros w B; cbn -[s_ctor_from s_copy_assign s_move_assign s_swap_code s_dtor std_run2];
      match goal with |- context [std_run2 ?m ?a ?b w] =>
        assert (K : stk err m); [|pose proof (std_run2_sticky m a b K w B) as K';
          destruct (std_run2 m a b w) as [[r2 [x0 x1]] w2]; exact K'] end;
      fold tid st pops vl;
      try (unfold s_swap_code; destruct g;
           [exact (stk_std_swap err tid pops st vl Hk' _ _ _)|]);
      unfold s_ctor_from, s_copy_assign, s_move_assign, s_swap, s_dtor, same; cbn [Nat.eqb tid];
      repeat first
        [ apply K1 | apply K2 | apply K3 | apply Kd
        | match goal with
          | |- stk _ (sbind _ _) => apply stk_bind; [|intros ?]
          | |- stk _ (sret _) => apply stk_ret
          | |- stk _ sundef => apply stk_undef
          | |- stk _ (sres _) => apply stk_res
          | |- stk _ (sset _ _) => apply stk_set
          | |- stk _ (contents _) => apply stk_contents
          | |- stk _ (become _ _ _) => apply stk_become
          | |- stk _ (fresh _) => apply stk_fresh
          | |- stk _ (sread _) => apply stk_read
          | |- stk _ (swrite _ _ _ _) => apply stk_write
          | |- stk _ (suser _) => apply stk_user, Hk
          | |- stk _ (match ?x with _ => _ end) => destruct x
          end ].
    Qed.

    (** *** User code that works on the inner optional *)

    (** User code gets a reference to the inner optional and makes the calls [q] on it
        (it is variable 0; other variables are local), then computes a result from what
        it observed. *)
    Definition tiny_use (q : list (op W)) (g : list obs -> rep) : fn_use W :=
      fun c w => match run E q (start2 T (Some c) None w) with
                 | (inl xs, s) => ((ROk (g xs), cells_at s 0), world s)
                 | (inr _, s) => ((ROk [], []), mark (world s))
                 end.
    Definition std_use (q : list (op W)) (g : list obs -> rep) : fn_use W :=
      fun x w => match srun tid pops st vl q (MkS (sobjs2 (Some x) None) w) with
                 | (Some ys, t) =>
                     if is_opt (objs t 0) then ((ROk (g ys), enc_at t 0), sworld t)
                     else ((ROk [], []), mark (sworld t))
                 | (None, t) => ((ROk [], []), mark (sworld t))
                 end.
    (** User code creates an inner optional, by the calls [q] on the new variable 0; an
        exception ends this. *)
    Fixpoint threw (xs : list obs) : option exn :=
      match xs with
      | [] => None
      | ObThrow e :: _ => Some e
      | _ :: xs => threw xs
      end.
    Definition tiny_make (q : list (op W)) : ini W :=
      MkIni None true
        (fun _ w => match run E q (start2 T None None w) with
                    | (inl xs, s) =>
                        ((match threw xs with Some e => RThrow e | None => ROk (cells_at s 0) end, []), world s)
                    | (inr _, s) => ((ROk [], []), mark (world s))
                    end)
        false.
    Definition std_make (q : list (op W)) : ini W :=
      MkIni None true
        (fun _ w => match srun tid pops st vl q (MkS (sobjs2 None None) w) with
                    | (Some ys, t) =>
                        match threw ys with
                        | Some e => ((RThrow e, []), sworld t)
                        | None => if is_opt (objs t 0) then ((ROk (enc_at t 0), []), sworld t)
                                  else ((ROk [], []), mark (sworld t))
                        end
                    | (None, t) => ((ROk [], []), mark (sworld t))
                    end)
        false.

    (** The same calls on both sides. *)
    Definition same_calls : list (op W) -> list (op W) -> Prop := Forall2 (rop eq err tid RT).
    Definition same_result (q : list (op W)) (g1 g2 : list obs -> rep) : Prop :=
      forall xs ys, robs_all tid RT q xs ys -> g1 xs = g2 ys.

    Lemma inner_runs q1 q2 a b a' b' w :
      same_calls q1 q2 -> Forall op_ok q1 -> ropt (RO T R) a a' -> ropt (RO T R) b b' -> err w = false ->
      err (sworld (snd (srun tid pops st vl q2 (MkS (sobjs2 a' b') w)))) = false ->
      match srun tid pops st vl q2 (MkS (sobjs2 a' b') w) with
      | (Some ys, t2) =>
          exists xs s, run E q1 (start2 T a b w) = (inl xs, s) /\ robs_all tid RT q1 xs ys /\
            world s = sworld t2 /\
            forall i, is_opt (objs t2 i) = true -> RO T R (cells_at s i) (enc_at t2 i)
      | (None, _) => True
      end.
    Proof.
      intros Hq Ho Ha Hb B0 B1. destruct (start_rel a b a' b' w Ha Hb) as (R0 & R1).
      pose proof (sim_run eq err tid (ops E) pops (storable E) st (is_value E) vl RT Hp' Hk' Hstor' Hisv'
        q1 q2 _ _ Hq R1 B0 B1) as H.
      destruct (srun tid pops st vl q2 (MkS (sobjs2 a' b') w)) as [[ys|] t2]; [|exact I].
      destruct H as (xs & t1 & H1 & H2 & R2).
      pose proof (refines_run E HE q1 _ _ Ho R0) as H3.
      change (srun (e_tid E) (ops E) (storable E) (is_value E) q1 (MkS (sobjs1 a b) w)) with
        (srun tid (ops E) (storable E) (is_value E) q1 (MkS (sobjs1 a b) w)) in H3.
      rewrite H1 in H3. destruct H3 as (s & H3 & R3). exists xs, s.
      split; [exact H3|]. split; [exact H2|]. split; [rewrite (rel_world E _ _ R3); apply R2|].
      intros i Hi. unfold enc_at. destruct (objs t2 i) as [[o|v]|] eqn:Hti; try discriminate.
      eapply final_rel; eassumption.
    Qed.

    Theorem use_related q1 q2 g1 g2 c x :
      same_calls q1 q2 -> Forall op_ok q1 -> same_result q1 g1 g2 -> RO T R c x ->
      usim eq err (rpair (rres eq) (RO T R)) (tiny_use q1 g1 c) (std_use q2 g2 x).
    Proof.
      intros Hq Ho Hg Hc w ? <- B0. unfold tiny_use, std_use. intros B1.
      pose proof (inner_runs q1 q2 (Some c) None (Some x) None w Hq Ho Hc I B0) as H.
      destruct (srun tid pops st vl q2 (MkS (sobjs2 (Some x) None) w)) as [[ys|] t2];
        [|cbn in B1; rewrite err_mark in B1; discriminate].
      destruct (is_opt (objs t2 0)) eqn:H0; [|cbn in B1; rewrite err_mark in B1; discriminate].
      destruct (H B1) as (xs & s & -> & Hx & Hw & Hi). cbn [fst snd].
      split; [|exact Hw]. split; cbn [fst snd]; [apply Hg, Hx|apply Hi, H0].
    Qed.
    Theorem use_sticky q1 q2 g x : same_calls q1 q2 -> sticky err (std_use q2 g x).
    Proof.
      intros Hq w B. pose proof (stk_run eq err tid pops st vl RT Hk' q1 q2 (MkS (sobjs2 (Some x) None) w) Hq B) as K.
      unfold std_use, bad in *.
      destruct (srun tid pops st vl q2 (MkS (sobjs2 (Some x) None) w)) as [[ys|] t2]; [|apply err_mark].
      destruct (is_opt (objs t2 0)); [exact K|apply err_mark].
    Qed.

    Lemma robs_threw (q : list (op W)) xs ys : robs_all tid RT q xs ys -> threw xs = threw ys.
    Proof.
      revert xs ys. induction q as [|o q IH]; intros [|x xs] [|y ys]; cbn; try contradiction; [reflexivity|].
      intros (H & Hr). specialize (IH _ _ Hr).
      assert (x = y \/ (exists c v, x = ObVal c /\ y = ObVal v)) as [-> | (c & v & -> & ->)]
        by (destruct o, x, y; cbn in H; try (left; exact H); right; eauto).
      - destruct y; cbn; auto.
      - exact IH.
    Qed.
    Theorem make_related q1 q2 c x :
      same_calls q1 q2 -> Forall op_ok q1 ->
      usim eq err (rpair (rres (RO T R)) any) (i_fun (tiny_make q1) c) (i_fun (std_make q2) x).
    Proof.
      intros Hq Ho w ? <- B0. cbn [i_fun tiny_make std_make]. intros B1.
      pose proof (inner_runs q1 q2 None None None None w Hq Ho I I B0) as H.
      destruct (srun tid pops st vl q2 (MkS (sobjs2 None None) w)) as [[ys|] t2];
        [|cbn in B1; rewrite err_mark in B1; discriminate].
      assert (B2 : err (sworld t2) = false).
      { destruct (threw ys); [exact B1|]. destruct (is_opt (objs t2 0)); [exact B1|].
        cbn in B1. rewrite err_mark in B1. discriminate. }
      destruct (H B2) as (xs & s & -> & Hx & Hw & Hi). rewrite (robs_threw _ _ _ Hx).
      destruct (threw ys) as [e|]; cbn [fst snd]; [split; [split; [reflexivity|exact I]|exact Hw]|].
      destruct (is_opt (objs t2 0)) eqn:H0; [|cbn in B1; rewrite err_mark in B1; discriminate].
      split; [|exact Hw]. split; [apply Hi, H0|exact I].
    Qed.
    Theorem make_sticky q1 q2 x : same_calls q1 q2 -> sticky err (i_fun (std_make q2) x).
    Proof.
      intros Hq w B. pose proof (stk_run eq err tid pops st vl RT Hk' q1 q2 (MkS (sobjs2 None None) w) Hq B) as K.
      cbn [i_fun std_make]. unfold bad in K.
      destruct (srun tid pops st vl q2 (MkS (sobjs2 None None) w)) as [[ys|] t2]; [|apply err_mark].
      destruct (threw ys); [exact K|]. destruct (is_opt (objs t2 0)); [exact K|apply err_mark].
    Qed.

    (** *** What the API shows of the inner optional *)
    Lemma peek_inner c x w :
      RO T R c x ->
      match dec_opt x, peek E 0 (start2 T (Some c) None w) with
      | None, Some None => True
      | Some v, Some (Some d) => R d v
      | _, _ => False
      end.
    Proof.
      intros H. destruct (start_rel (Some c) None (Some x) None w H I) as (R0 & _ & R1).
      rewrite (peek_rel E _ _ 0 (contents1 c) R0 eq_refl). specialize (R1 0). cbn in R1.
      destruct (contents1 c), (dec_opt x); exact R1.
    Qed.
  End Level.

  (** The nothrow traits of a tiny optional are truthful. *)
  Lemma tiny_ops_ok g T : payops_ok (tiny_ops g T).
  Proof.
    assert (NX : forall (m : M W unit) a b w r, nx m -> fst (fst (tiny_run T m a b w)) = r -> no_throw r).
    { intros m a b w r H <-. unfold tiny_run. specialize (H (start2 T a b w)).
      destruct (m (start2 T a b w)) as [[u|e|f] s]; try exact I. exact (H e eq_refl). }
    assert (SW : forall i j (m : M W unit), nx m -> nx (same_type (inner T) i j m)).
    { intros i j m H. unfold same_type. destruct (Nat.eqb _ _); [exact H|apply nx_dead]. }
    assert (SC : forall i j,
              (if g then po_nt_move (ot_ops T) && (po_nt_massign (ot_ops T) && po_nt_move (ot_ops T))
               else po_nt_move (ot_ops T) && po_nt_swap (ot_ops T)) = true ->
              nx (swap_code g T i j)).
    { intros i j Hn. destruct g; apply SW, nx_noexcept; left; exact Hn. }
    split; cbn -[ctor_copy ctor_move assign_move swap_code tiny_run]; intros Hnt; intros.
    - discriminate.
    - assert (X : nx (ctor_move (inner T) 0 1)).
      { apply SW, nx_bind; [apply nx_alloc|]. intros _. apply nx_noexcept. left. exact Hnt. }
      specialize (NX _ None (Some v) w _ X eq_refl).
      destruct (tiny_run T (ctor_move (inner T) 0 1) None (Some v) w) as [[r [c d]] w']. destruct r; exact NX.
    - apply (NX (assign_move (inner T) 0 1) (Some d) (Some v) w _); [|reflexivity]. apply SW, nx_noexcept.
      left. exact Hnt.
    - assert (X : nx (assign_move (inner T) 0 0)) by (apply SW, nx_noexcept; left; exact Hnt).
      specialize (NX _ (Some v) None w _ X eq_refl).
      destruct (tiny_run T (assign_move (inner T) 0 0) (Some v) None w) as [[r [c d]] w']. exact NX.
    - apply (NX (swap_code g T 0 1) (Some a) (Some b) w _); [|reflexivity]. apply SC, Hnt.
    - assert (X : nx (swap_code g T 0 0)) by apply SC, Hnt.
      specialize (NX _ (Some v) None w _ X eq_refl).
      destruct (tiny_run T (swap_code g T 0 0) (Some v) None w) as [[r [c d]] w']. exact NX.
  Qed.

  (** ** Any number of levels *)

  (** optional<optional<...optional<P>...>>: the innermost type [T] with any lawful
      strategy, around it levels with a separate flag, the outermost first.  With each level: whether
      the optionals in it are swapped by the generic std::swap. *)
  Definition layers : Type := list (decomp * manip * bool).
  Fixpoint tower (T : optty W) (l : layers) : optty W :=
    match l with
    | [] => T
    | (D, F, g) :: l => nest D F g (tower T l)
    end.
  Fixpoint tower_ok (T : optty W) (l : layers) : Prop :=
    match l with
    | [] => optty_ok T
    | (D, F, _) :: l =>
        decomp_ok D /\ manip_ok D F /\ d_sep D = true /\ d_psize D = d_ssize (ot_dec (tower T l)) /\
        tower_ok T l
    end.
  (** std::optional<std::optional<...>> *)
  Definition tstor (T : optty W) (l : layers) (x : rep) : bool :=
    match l with [] => storable_in (ot_dec T) (ot_man T) x | _ => true end.
  Definition tisv (T : optty W) (l : layers) (x : rep) : bool :=
    match l with [] => Nat.eqb (length x) (d_psize (ot_dec T)) | _ => true end.
  Fixpoint tops (T : optty W) (l : layers) : payops W :=
    match l with
    | [] => ot_ops T
    | (_, g) :: l => std_ops (tops T l) (tstor T l) (tisv T l) g
    end.
  (** The payload of the tower as memory and as std::optional. *)
  Fixpoint RTow (T : optty W) (l : layers) : rep -> rep -> Prop :=
    match l with
    | [] => eq
    | _ :: l => RO (tower T l) (RTow T l)
    end.

  Lemma tower_optty T l : tower_ok T l -> optty_ok (tower T l).
  Proof.
    destruct l as [|((D & F) & g) l]; cbn; [auto|]. intros (H1 & H2 & _ & _ & _).
    split; cbn; [exact H1|exact H2|apply tiny_ops_ok].
  Qed.
  Lemma rres_refl {A} (r : res A) : rres eq r r.
  Proof. destruct r; reflexivity. Qed.
  Lemma psim_eq (p : payops W) : psim eq err eq p p.
  Proof.
    split; intros; subst; intros w ? <- _ _; (split; [|reflexivity]); repeat split; apply rres_refl.
  Qed.
  Lemma tower_stor T l c x :
    tower_ok T l -> RTow T l c x -> tstor T l x = true ->
    storable_in (ot_dec (tower T l)) (ot_man (tower T l)) c = true.
  Proof.
    destruct l as [|((D & F) & g) l]; cbn [tower_ok RTow tstor tower nest ot_dec ot_man]; [intros _ <- H; exact H|].
    intros (_ & _ & Hs & Hz & _) (L & _) _. unfold storable_in. rewrite Hs, Hz, L, Nat.eqb_refl. reflexivity.
  Qed.
  Lemma tower_isv T l c x :
    tower_ok T l -> RTow T l c x -> tisv T l x = true -> length c = d_psize (ot_dec (tower T l)).
  Proof.
    destruct l as [|((D & F) & g) l]; cbn [tower_ok RTow tisv tower nest ot_dec ot_man].
    - intros _ <- H. apply Nat.eqb_eq, H.
    - intros (_ & _ & Hs & Hz & _) (L & _) _. congruence.
  Qed.
  Lemma tower_sim T l :
    tower_ok T l -> psticky err (ot_ops T) ->
    psim eq err (RTow T l) (ot_ops (tower T l)) (tops T l) /\ psticky err (tops T l).
  Proof.
    intros HT Hb. induction l as [|((D & F) & g) l IH]; cbn [RTow tower tops].
    - split; [apply psim_eq|exact Hb].
    - pose proof HT as (_ & _ & _ & _ & HT'). destruct (IH HT') as (IH1 & IH2). split.
      + apply tiny_sim; auto.
        * apply tower_optty, HT'.
        * intros c x. apply tower_stor, HT'.
        * intros c x. apply tower_isv, HT'.
      + apply std_sticky. exact IH2.
  Qed.

  (** What the API shows of a nested optional. *)
  Inductive nested : Type :=
  | NVal (v : rep)
  | NOpt (o : option nested).
  (** ... of the payload of a tower: ask the optional in it with has_value() and
      operator*, and so on. *)
  Fixpoint view (T : optty W) (l : layers) (w : W) (c : rep) : option nested :=
    match l with
    | [] => Some (NVal c)
    | _ :: l =>
        match peek (inner (tower T l)) 0 (start2 (tower T l) (Some c) None w) with
        | Some None => Some (NOpt None)
        | Some (Some d) =>
            match view T l w d with Some n => Some (NOpt (Some n)) | None => None end
        | None => None
        end
    end.
  (** ... of std::optionals. *)
  Fixpoint sview (l : layers) (x : rep) : nested :=
    match l with
    | [] => NVal x
    | _ :: l => NOpt (option_map (sview l) (dec_opt x))
    end.
  Lemma view_related T l w c x : tower_ok T l -> RTow T l c x -> view T l w c = Some (sview l x).
  Proof.
    revert c x. induction l as [|((D & F) & g) l IH]; cbn [RTow view sview tower_ok].
    - intros c x _ <-. reflexivity.
    - intros c x (_ & _ & _ & _ & HT) H.
      pose proof (peek_inner (tower T l) (RTow T l) c x w H) as P.
      destruct (dec_opt x) as [v|];
        destruct (peek (inner (tower T l)) 0 (start2 (tower T l) (Some c) None w)) as [[d|]|]; try contradiction.
      + rewrite (IH d v HT P). reflexivity.
      + reflexivity.
  Qed.
End Nested.

(** ** Programs with nested optionals *)

Section Programs.
  Context {W : Type}.
  Variable err : W -> bool.
  Variable mark : W -> W.
  Variable dbg : bool.
  (** For each type of the program: the innermost optional and the levels around it. *)
  Variable base : nat -> optty W.
  Variable lay : nat -> layers.
  Variable tid : loc -> nat.

  (** The program with tiny optionals. *)
  Definition tiny_env : env W := MkEnv W (fun t => tower mark dbg (base t) (lay t)) tid dbg.
  (** The history with std::optionals of std::optionals. *)
  Definition std_nested (w : W) (p : list (op W)) : option (list obs) * sstate W :=
    srun tid (fun i => tops mark (base (tid i)) (lay (tid i)))
             (fun i => tstor (base (tid i)) (lay (tid i)))
             (fun i => tisv (base (tid i)) (lay (tid i))) p (sinit_state w).
  Definition rep_rel (t : nat) : rep -> rep -> Prop := RTow mark dbg (base t) (lay t).
  (** The same history, with client code that works on tiny resp. std::optionals. *)
  Definition same_history : list (op W) -> list (op W) -> Prop := Forall2 (rop eq err tid rep_rel).
  Definition same_obs : list (op W) -> list obs -> list obs -> Prop := robs_all tid rep_rel.
  (** What the API shows of the payload [c] of the optional [i], resp. of the value [x]. *)
  Definition view_of (i : loc) (w : W) (c : rep) : option nested :=
    view mark dbg (base (tid i)) (lay (tid i)) w c.
  Definition sview_of (i : loc) (x : rep) : nested := sview (lay (tid i)) x.
End Programs.

(** For every depth of nesting, every lawful strategy of the innermost optional and every
    history that std::optionals of std::optionals can execute within their contract: the
    tiny optionals show the same results and exceptions, make the same calls of user
    code, and at the end each optional shows the same at every level. *)
Theorem C47_nested :
  forall W (err : W -> bool) mark dbg base lay tid w p1 p2 ys t,
    (forall w, err (mark w) = true) ->
    (forall n, tower_ok mark dbg (base n) (lay n)) ->
    (forall n, psticky err (ot_ops (base n))) ->
    same_history err mark dbg base lay tid p1 p2 -> Forall op_ok p1 ->
    err w = false -> std_nested mark base lay tid w p2 = (Some ys, t) -> err (sworld t) = false ->
    exists xs s,
      run (tiny_env mark dbg base lay tid) p1 (init_state w) = (inl xs, s) /\
      same_obs mark dbg base lay tid p1 xs ys /\
      world s = sworld t /\
      forall i,
        match objs t i with
        | Some (SOpt None) => peek (tiny_env mark dbg base lay tid) i s = Some None
        | Some (SOpt (Some x)) =>
            exists c, peek (tiny_env mark dbg base lay tid) i s = Some (Some c) /\
                      forall w', view_of mark dbg base lay tid i w' c = Some (sview_of lay tid i x)
        | Some (SVar x) =>
            exists c, load_payload (tiny_env mark dbg base lay tid) i s = (Ok c, s) /\
                      forall w', view_of mark dbg base lay tid i w' c = Some (sview_of lay tid i x)
        | None => mem s i = None
        end.
Proof.
  intros W err mark dbg base lay tid w p1 p2 ys t Hm Hl Hb Hpp Ho B0 Hr B1.
  set (E := tiny_env mark dbg base lay tid).
  assert (HE' : env_ok E) by (intros n; apply tower_optty, Hl).
  pose proof (sim_run eq err tid (ops E) (fun i => tops mark (base (tid i)) (lay (tid i)))
    (storable E) (fun i => tstor (base (tid i)) (lay (tid i)))
    (is_value E) (fun i => tisv (base (tid i)) (lay (tid i)))
    (rep_rel mark dbg base lay)) as SR.
  specialize (SR (fun i => proj1 (tower_sim err mark Hm dbg _ _ (Hl (tid i)) (Hb (tid i))))).
  specialize (SR (fun i => proj2 (tower_sim err mark Hm dbg _ _ (Hl (tid i)) (Hb (tid i))))).
  specialize (SR (fun i c x => tower_stor mark dbg _ _ c x (Hl (tid i)))).
  assert (Hi : forall i c x, Rv tid (rep_rel mark dbg base lay) i c x ->
               tisv (base (tid i)) (lay (tid i)) x = true -> is_value E i c = true).
  { intros i c x H1 H2. apply Nat.eqb_eq. exact (tower_isv mark dbg _ _ c x (Hl (tid i)) H1 H2). }
  specialize (SR Hi p1 p2 (sinit_state w) (sinit_state w) Hpp).
  assert (R0 : rs eq tid (rep_rel mark dbg base lay) (sinit_state w) (sinit_state w))
    by (split; [reflexivity|intros i; exact I]).
  specialize (SR R0 B0). unfold std_nested in Hr. unfold bad in SR. rewrite Hr in SR. cbn [snd] in SR.
  destruct (SR B1) as (xs & t1 & H1 & H2 & Hw & Hobj).
  pose proof (refines_run E HE' p1 _ _ Ho (rel_init E w)) as H3.
  change (srun (e_tid E) (ops E) (storable E) (is_value E) p1 (sinit_state w)) with
    (srun tid (ops E) (storable E) (is_value E) p1 (sinit_state w)) in H3.
  rewrite H1 in H3. destruct H3 as (s & H3 & R3). exists xs, s.
  split; [exact H3|]. split; [exact H2|]. split; [rewrite (rel_world E _ _ R3); exact Hw|].
  intros i. specialize (Hobj i).
  destruct (objs t i) as [[[x|]|x]|] eqn:Hti; destruct (objs t1 i) as [[[c|]|c]|] eqn:Ht1; try contradiction.
  - exists c. split; [eapply peek_rel; eauto|]. intros w'. apply view_related; [apply Hl|exact Hobj].
  - eapply peek_rel; eauto.
  - exists c. split; [|intros w'; apply view_related; [apply Hl|exact Hobj]].
    pose proof (rel_robj E _ _ _ i R3 I) as Hri. rewrite Ht1 in Hri. destruct Hri as (Hmem & Hlen).
    unfold load_payload, bind, get_region. rewrite Hmem. cbn. rewrite <- Hlen, sub_full. reflexivity.
  - eapply rel_fresh; eauto.
Qed.

(** In particular the three states of optional<optional<...>> are kept apart. *)
Theorem C47_levels_apart :
  forall W (err : W -> bool) mark dbg base lay tid w p1 p2 ys t i D F g l o,
    (forall w, err (mark w) = true) ->
    (forall n, tower_ok mark dbg (base n) (lay n)) ->
    (forall n, psticky err (ot_ops (base n))) ->
    same_history err mark dbg base lay tid p1 p2 -> Forall op_ok p1 ->
    err w = false -> std_nested mark base lay tid w p2 = (Some ys, t) -> err (sworld t) = false ->
    lay (tid i) = (D, F, g) :: l -> objs t i = Some (SOpt o) ->
    exists xs s,
      run (tiny_env mark dbg base lay tid) p1 (init_state w) = (inl xs, s) /\
      let T := tower mark dbg (base (tid i)) l in
      let look_inside c := peek (inner dbg T) 0 (start2 T (Some c) None (world s)) in
      match option_map dec_opt o with
      | None =>   (* empty *)
          peek (tiny_env mark dbg base lay tid) i s = Some None
      | Some None =>   (* contains an empty optional *)
          exists c, peek (tiny_env mark dbg base lay tid) i s = Some (Some c) /\ look_inside c = Some None
      | Some (Some x) =>   (* contains an optional with the value x *)
          exists c d, peek (tiny_env mark dbg base lay tid) i s = Some (Some c) /\
            look_inside c = Some (Some d) /\
            view mark dbg (base (tid i)) l (world s) d = Some (sview l x)
      end.
Proof.
  intros W err mark dbg base lay tid w p1 p2 ys t i D F g l o Hm Hl Hb Hpp Ho B0 Hr B1 HL Hi.
  destruct (C47_nested _ _ _ _ _ _ _ _ _ _ _ _ Hm Hl Hb Hpp Ho B0 Hr B1) as (xs & s & H1 & _ & _ & H2).
  exists xs, s. split; [exact H1|]. specialize (H2 i). rewrite Hi in H2.
  destruct o as [x|]; cbn [option_map]; [|exact H2].
  destruct H2 as (c & H2 & H3). specialize (H3 (world s)). unfold view_of, sview_of in H3. rewrite HL in H3.
  cbn [view sview] in H3.
  destruct (peek (inner dbg (tower mark dbg (base (tid i)) l)) 0 _) as [[d|]|] eqn:Hpk; try discriminate.
  - destruct (view mark dbg (base (tid i)) l (world s) d) as [n|] eqn:Hv; [|discriminate].
    injection H3 as H3. destruct (dec_opt x) as [y|]; [|discriminate]. injection H3 as ->.
    exists c, d. auto.
  - injection H3 as H3. destruct (dec_opt x) as [y|]; [discriminate|]. exists c. auto.
Qed.

(** Client code that creates, inspects and modifies the inner optional with the API of
    the inner optional is of the kind that the theorems speak about. *)
Section Clients.
  Context {W : Type}.
  Variable err : W -> bool.
  Variable mark : W -> W.
  Hypothesis Hm : forall w, err (mark w) = true.
  Variable dbg : bool.
  Variable base : nat -> optty W.
  Variable lay : nat -> layers.
  Variable tid : loc -> nat.
  Variables (i : loc) (D : decomp) (F : manip) (g : bool) (l : layers).
  Hypothesis HL : lay (tid i) = (D, F, g) :: l.
  Hypothesis Hl : tower_ok mark dbg (base (tid i)) (lay (tid i)).
  Hypothesis Hb : psticky err (ot_ops (base (tid i))).

  Notation B := (base (tid i)).
  Notation T := (tower mark dbg (base (tid i)) l).
  Notation RT := (rep_rel mark dbg base lay).

  Lemma inner_ok : tower_ok mark dbg B l.
  Proof. rewrite HL in Hl. apply Hl. Qed.
  Lemma Rv_level : Rv tid RT i = RO T (RTow mark dbg B l).
  Proof. unfold Rv, rep_rel. rewrite HL. reflexivity. Qed.

  Theorem C47_client_make q1 q2 :
    same_calls err (RTow mark dbg B l) q1 q2 -> Forall op_ok q1 ->
    rini eq err tid RT i (tiny_make mark dbg T q1) (std_make mark (tops mark B l) (tstor B l) (tisv B l) q2).
  Proof.
    intros Hq Ho. destruct (tower_sim err mark Hm dbg _ _ inner_ok Hb) as (H1 & H2).
    split; [reflexivity|]. split; [reflexivity|]. split; [reflexivity|]. split.
    - intros x. eapply make_sticky; eauto.
    - intros c x cs xs _ _. rewrite Rv_level. cbn [back_rel back_more i_src i_more std_make].
      intros w ? <- B0 B1.
      destruct (fun A1 A2 A3 => make_related err mark Hm dbg T A1 (tops mark B l) (tstor B l) (tisv B l) _ H1 H2
        A2 A3 q1 q2 (joined c cs) (joined x xs) Hq Ho w w eq_refl B0 B1) as ((U1 & _) & U3).
      + apply tower_optty, inner_ok.
      + intros c' x'. apply tower_stor, inner_ok.
      + intros c' x'. apply tower_isv, inner_ok.
      + split; [split; [exact U1|split; exact I]|exact U3].
  Qed.
  Theorem C47_client_use q1 q2 g1 g2 cst :
    same_calls err (RTow mark dbg B l) q1 q2 -> Forall op_ok q1 ->
    same_result (RTow mark dbg B l) q1 g1 g2 ->
    rfn eq err tid RT eq i cst (tiny_use mark dbg T q1 g1)
        (std_use mark (tops mark B l) (tstor B l) (tisv B l) q2 g2).
  Proof.
    intros Hq Ho Hg. destruct (tower_sim err mark Hm dbg _ _ inner_ok Hb) as (H1 & H2).
    split.
    - intros x. eapply use_sticky; eauto.
    - intros c x Hc. rewrite Rv_level in *. intros w ? <- B0 B1.
      destruct (fun A1 A2 A3 => use_related err mark Hm dbg T A1 (tops mark B l) (tstor B l) (tisv B l) _ H1 H2
        A2 A3 q1 q2 g1 g2 c x Hq Ho Hg Hc w w eq_refl B0 B1) as ((U1 & U2) & U3).
      + apply tower_optty, inner_ok.
      + intros c' x'. apply tower_stor, inner_ok.
      + intros c' x'. apply tower_isv, inner_ok.
      + split; [split; [exact U1|]|exact U3]. destruct cst; [exact I|exact U2].
  Qed.
End Clients.

(** ** Example *)

(** The sample payloads with a world that has room for the note. *)
Definition nworld : Type := sworld_t * bool.
Definition nerr (w : nworld) : bool := snd w.
Definition nmark (w : nworld) : nworld := (fst w, true).
Definition lift {A} (f : sworld_t -> A * sworld_t) : nworld -> A * nworld :=
  fun w => let (a, w') := f (fst w) in (a, (w', snd w)).
Definition lift_ops (p : payops sworld_t) : payops nworld :=
  MkPayOps _
    (fun v => lift (po_copy p v)) (fun v => lift (po_move p v))
    (fun d v => lift (po_cassign p d v)) (fun d v => lift (po_massign p d v))
    (fun v => lift (po_self_cassign p v)) (fun v => lift (po_self_massign p v))
    (fun a b => lift (po_swap p a b)) (fun v => lift (po_self_swap p v))
    (fun v w => (po_dtor p v (fst w), snd w))
    (po_nt_copy p) (po_nt_move p) (po_nt_massign p) (po_nt_swap p).
Definition lift_ini (n : ini sworld_t) : ini nworld :=
  MkInis (i_src n) (i_const n) (fun v => lift (i_fun n v)) (i_nothrow n) (i_more n).
Definition lift_ty (T : optty sworld_t) : optty nworld := MkOptTy _ (ot_dec T) (ot_man T) (lift_ops (ot_ops T)).

Lemma lift_sticky {A} (f : sworld_t -> A * sworld_t) : sticky nerr (lift f).
Proof. intros w H. unfold lift. destruct (f (fst w)). exact H. Qed.
Lemma lift_psticky p : psticky nerr (lift_ops p).
Proof. split; intros; cbn; try apply lift_sticky. intros w H. exact H. Qed.
Lemma lift_fst {A} (f : sworld_t -> A * sworld_t) w : fst (lift f w) = fst (f (fst w)).
Proof. unfold lift. destruct (f (fst w)). reflexivity. Qed.
Lemma lift_ty_ok T : optty_ok T -> optty_ok (lift_ty T).
Proof.
  intros [H1 H2 H3]. split; [exact H1|exact H2|]. destruct H3.
  split; cbn; intros; rewrite lift_fst; auto.
Qed.

(** Types 0, 1, 2: optional<double>, optional<optional<double>>,
    optional<optional<optional<double>>>; type 3: an optional of the type whose flag is a
    sentinel value; variables 0-9 have type 0, and so on. *)
Definition n_base (t : nat) : optty nworld := if Nat.eqb t 3 then lift_ty ty_sen else lift_ty ty_dbl.
Definition l8 : decomp * manip * bool := (dec_separate 8 8, man_separate, true).
Definition l16 : decomp * manip * bool := (dec_separate 16 8, man_separate, true).
Definition l2 : decomp * manip * bool := (dec_separate 2 1, man_separate, false).
Definition n_lay (t : nat) : layers :=
  match t with 1 => [l8] | 2 => [l16; l8] | 3 => [l2] | _ => [] end.
Definition n_tid (i : loc) : nat := i / 10.

Lemma n_ok dbg t : tower_ok nmark dbg (n_base t) (n_lay t).
Proof.
  assert (Hd : optty_ok (lift_ty ty_dbl)) by apply lift_ty_ok, ty_dbl_ok.
  assert (Hs : optty_ok (lift_ty ty_sen)) by apply lift_ty_ok, ty_sen_ok.
  destruct t as [|[|[|[|t]]]]; cbn -[tower dec_separate man_separate lift_ty]; auto;
    repeat (split; [first [apply dec_separate_ok; lia | apply man_separate_ok | reflexivity]|]); assumption.
Qed.
Lemma n_sticky t : psticky nerr (ot_ops (n_base t)).
Proof. unfold n_base. destruct (Nat.eqb t 3); apply lift_psticky. Qed.

(** Client code: [mk]/[us] are tiny_make/tiny_use resp. std_make/std_use at the type. *)
Definition half (x : N) : ini nworld := lift_ini (mkBits 8 x).
Definition n_hist (mk : nat -> list (op nworld) -> ini nworld)
  (us : nat -> list (op nworld) -> fn_use nworld) : list (op nworld) :=
  [ ODefault 10;                                         (* empty *)
    OInPlace 11 (mk 1 [ODefault 0]);                     (* contains an empty optional *)
    OInPlace 12 (mk 1 [OInPlace 0 (half 5)]);            (* contains a value *)
    OCopyCtor 13 11; OCopyCtor 14 12; OCopyCtor 15 10;
    OSwap 13 14;                                         (* 13: value, 14: contains empty *)
    OCopyAssign 15 14;                                   (* 15: contains empty *)
    OAccess AccValue 15 false (us 1 [OEmplace 0 (half 7)]); (* 15.value().emplace(..) *)
    OAccess AccDeref 12 false (us 1 [OReset 0]);         (* 12->reset() *)
    OInPlace 30 (mk 3 [OInPlace 0 (lift_ini (mkP 4 2))]);
    OInPlace 31 (mk 3 [ODefault 0]);
    OMoveAssign 31 30 ].

Definition n_mk (t : nat) : list (op nworld) -> ini nworld :=
  std_make nmark (tops nmark (n_base t) (tl (n_lay t))) (tstor (n_base t) (tl (n_lay t)))
           (tisv (n_base t) (tl (n_lay t))).
Definition n_us (t : nat) (q : list (op nworld)) : fn_use nworld :=
  std_use nmark (tops nmark (n_base t) (tl (n_lay t))) (tstor (n_base t) (tl (n_lay t)))
          (tisv (n_base t) (tl (n_lay t))) q (fun _ => []).
Definition n_mk1 dbg (t : nat) : list (op nworld) -> ini nworld :=
  tiny_make nmark dbg (tower nmark dbg (n_base t) (tl (n_lay t))).
Definition n_us1 dbg (t : nat) (q : list (op nworld)) : fn_use nworld :=
  tiny_use nmark dbg (tower nmark dbg (n_base t) (tl (n_lay t))) q (fun _ => []).

Lemma base_ini (tid : loc -> nat) i n :
  i_src n = None -> i_more n = [] -> rini eq nerr tid (fun _ => eq) i (lift_ini n) (lift_ini n).
Proof.
  intros H M. split; [reflexivity|]. split; [reflexivity|]. split; [reflexivity|].
  split; [intros x; apply lift_sticky|].
  intros c x cs xs. cbn [i_src i_more lift_ini]. rewrite H, M. cbn.
  destruct cs, xs; try contradiction. intros (-> & ->) _ w ? <- _ _. split; [|reflexivity].
  split; [apply rres_refl|split; exact I].
Qed.

Example C47_example dbg :
  same_history nerr nmark dbg n_base n_lay n_tid (n_hist (n_mk1 dbg) (n_us1 dbg)) (n_hist n_mk n_us) /\
  Forall op_ok (n_hist (n_mk1 dbg) (n_us1 dbg)) /\
  (forall n, tower_ok nmark dbg (n_base n) (n_lay n)) /\
  (forall n, psticky nerr (ot_ops (n_base n))) /\
  exists ys t,
    std_nested nmark n_base n_lay n_tid (quiet, false) (n_hist n_mk n_us) = (Some ys, t) /\
    nerr (sworld t) = false /\
    objs t 10 = Some (SOpt None) /\
    objs t 11 = Some (SOpt (Some (enc None))) /\
    objs t 12 = Some (SOpt (Some (enc None))) /\
    objs t 13 = Some (SOpt (Some (enc (Some (word 8 5))))) /\
    objs t 15 = Some (SOpt (Some (enc (Some (word 8 7))))) /\
    objs t 31 = Some (SOpt (Some (enc (Some [Atom 4; Atom 2])))) /\
    objs t 30 = Some (SOpt (Some (enc (Some [Atom 99; Atom 2])))).
Proof.
  assert (Hmk : forall i t q D F g, n_tid i = t -> n_lay t = [(D, F, g)] ->
            same_calls nerr eq q q -> Forall op_ok q ->
            rini eq nerr n_tid (rep_rel nmark dbg n_base n_lay) i (n_mk1 dbg t q) (n_mk t q)).
  { intros i t q D F g <- HL Hq Ho. unfold n_mk1, n_mk. rewrite HL. cbn [tl].
    eapply (C47_client_make nerr nmark (fun _ => eq_refl) dbg n_base n_lay n_tid i D F g [] HL); auto.
    - apply n_ok.
    - apply n_sticky. }
  assert (Hus : forall i t q D F g cst, n_tid i = t -> n_lay t = [(D, F, g)] ->
            same_calls nerr eq q q -> Forall op_ok q ->
            rfn eq nerr n_tid (rep_rel nmark dbg n_base n_lay) eq i cst (n_us1 dbg t q) (n_us t q)).
  { intros i t q D F g cst <- HL Hq Ho. unfold n_us1, n_us. rewrite HL. cbn [tl].
    eapply (C47_client_use nerr nmark (fun _ => eq_refl) dbg n_base n_lay n_tid i D F g [] HL); auto.
    - apply n_ok.
    - apply n_sticky.
    - intros xs ys _. reflexivity. }
  split.
  { unfold same_history, n_hist.
    repeat (apply Forall2_cons; [cbn [rop]|]); [..|apply Forall2_nil]; repeat (split; [reflexivity|]);
      try reflexivity.
    all: first [eapply Hmk | eapply Hus]; try reflexivity.
    all: try (apply Forall2_cons; [|apply Forall2_nil]; cbn [rop]; try reflexivity;
              (split; [reflexivity|apply base_ini; reflexivity])).
    all: repeat apply Forall_cons; try apply Forall_nil; cbn; auto; intros H v w; first [exact I|discriminate]. }
  split.
  { unfold n_hist. repeat apply Forall_cons; try apply Forall_nil; cbn; auto; intros H; discriminate. }
  split; [apply n_ok|]. split; [apply n_sticky|].
  eexists _, _. split; [vm_compute; reflexivity|]. repeat split; vm_compute; reflexivity.
Qed.

(** The swap of the inner optionals.  If the inner type is tiny::optional, the outer swap
    of two engaged optionals exchanges the inner ones with the generic std::swap
    (SwapCall.v).  If that throws at its second move construction, the value is in
    neither of the inner optionals any more; with std::optional inside, the swap
    keeps which of the inner optionals are engaged. *)
Theorem C47_inner_swap_refuted :
  exists (lay : nat -> layers) w p e s c d,
    (forall n, tower_ok nmark true (n_base n) (lay n)) /\
    run (tiny_env nmark true n_base lay n_tid) p (init_state w) = (inl [ObUnit; ObUnit; ObThrow e], s) /\
    nth_error p 0 = Some (OInPlace 30 (tiny_make nmark true (lift_ty ty_sen) [OInPlace 0 (lift_ini (mkP 4 2))])) /\
    nth_error p 1 = Some (OInPlace 31 (tiny_make nmark true (lift_ty ty_sen) [ODefault 0])) /\
    nth_error p 2 = Some (OSwap 30 31) /\
    peek (tiny_env nmark true n_base lay n_tid) 30 s = Some (Some c) /\
    peek (tiny_env nmark true n_base lay n_tid) 31 s = Some (Some d) /\
    view_of nmark true n_base lay n_tid 30 w c = Some (NOpt None) /\
    view_of nmark true n_base lay n_tid 31 w d = Some (NOpt None).
Proof.
  exists (fun t => match t with 3 => [(dec_separate 2 1, man_separate, true)] | _ => [] end),
    (plan [None; None; Some 7], false),
    [OInPlace 30 (tiny_make nmark true (lift_ty ty_sen) [OInPlace 0 (lift_ini (mkP 4 2))]);
     OInPlace 31 (tiny_make nmark true (lift_ty ty_sen) [ODefault 0]);
     OSwap 30 31].
  eexists _, _, _, _. split.
  { assert (Hd : optty_ok (lift_ty ty_dbl)) by apply lift_ty_ok, ty_dbl_ok.
    assert (Hs : optty_ok (lift_ty ty_sen)) by apply lift_ty_ok, ty_sen_ok.
    intros [|[|[|[|t]]]]; cbn -[tower dec_separate man_separate lift_ty]; auto.
    repeat (split; [first [apply dec_separate_ok; lia | apply man_separate_ok | reflexivity]|]); assumption. }
  split; [vm_compute; reflexivity|]. do 3 (split; [reflexivity|]).
  do 3 (split; [vm_compute; reflexivity|]). vm_compute. reflexivity.
Qed.
