(** * Swallow: storing the sentinel anyway

    Storing a value that looks empty violates the library's contract (README 190; the
    debug build asserts, optional.h:1077-1079, 1130-1132).  In a release build nothing
    checks it.  This file states what then happens: every optional behaves like a
    std::optional that forgets such a value the moment it is stored, and the program goes
    on, over whole histories and on one memory of bytes. *)

From Coq Require Import List NArith ZArith Bool Arith Lia.
From Verif Require Import Cells Machine Optional Program Spec CellsFacts Laws Refine Contract.
From Verif Require Import Histories Bits Manip Sample Effects Threads Generic Flat ExampleTac.
Import ListNotations.

Local Arguments put : simpl never.
Local Arguments sub : simpl never.

(** ** std::optional with another way to store a value

    The functions of [Spec.v] that store something, for an arbitrary [become]. *)
Section Storing.
  Context {W : Type}.
  Variable tid : loc -> nat.
  Variable pops : loc -> payops W.
  Variable become : loc -> option rep -> @S W unit.
  Variable is_value : loc -> rep -> bool.

  Local Notation "x <-- m ;;; k" := (sbind m (fun x => k))
    (at level 61, m at next level, right associativity).
  Local Notation "m ;;; k" := (sbind m (fun _ => k))
    (at level 61, right associativity).

  (** [swrite] of [Spec.v]. *)
  Definition swrite' (i : loc) (v : rep) : @S W unit :=
    fun s => match objs s i with
             | Some (SOpt (Some _)) => become i (Some v) s
             | Some (SVar _) => if is_value i v then sset i (Some (SVar v)) s else (SUndef, s)
             | _ => (SUndef, s)
             end.
  (** [swrite_more] of [Spec.v]. *)
  Fixpoint swrite_more' (l : list (loc * bool)) (vs : list rep) : @S W unit :=
    match l, vs with
    | (j, c) :: l', v :: vs' => (if c then sret tt else swrite' j v) ;;; swrite_more' l' vs'
    | _, _ => sret tt
    end.
  (** [sinit] of [Spec.v]. *)
  Definition sinit' (n : ini W) : @S W rep :=
    src <-- (match i_src n with None => sret [] | Some j => sread j end) ;;;
    more <-- sread_more (i_more n) ;;;
    p <-- suser (i_fun n (joined src more)) ;;;
    (match i_src n with
     | None => sret tt
     | Some j => if i_const n then sret tt else swrite' j (fst (parted src more (snd p)))
     end) ;;;
    swrite_more' (i_more n) (snd (parted src more (snd p))) ;;;
    sres (fst p).
  (** [smove] of [Spec.v]. *)
  Definition smove' (j : loc) : @S W rep :=
    v <-- sread j ;;; p <-- suser (po_move (pops j) v) ;;;
    swrite' j (snd p) ;;; sres (fst p).
  (** [s_ctor_from] of [Spec.v]. *)
  Definition s_ctor_from' (get : @S W rep) (i j : loc) : @S W unit :=
    same tid i j
      (fresh i ;;;
       o <-- contents j ;;;
       match o with
       | None => become i None
       | Some _ => v <-- get ;;; become i (Some v)
       end).
  (** [s_clear] of [Spec.v]. *)
  Definition s_clear' (i : loc) : @S W unit :=
    o <-- contents i ;;;
    match o with
    | None => sret tt
    | Some v => sdestroy pops i v ;;; become i None
    end.
  (** [s_assign_existing] of [Spec.v]. *)
  Definition s_assign_existing' (i : loc) (a : arg W) : @S W unit :=
    match i_src (a_ini a) with
    | None =>
        d <-- sread i ;;;
        p <-- suser (a_assign a d []) ;;;
        swrite' i (fst (snd p)) ;;; sres (fst p)
    | Some j =>
        if Nat.eqb i j
        then d <-- sread i ;;; p <-- suser (a_self a d) ;;;
             swrite' i (snd p) ;;; sres (fst p)
        else d <-- sread i ;;; v <-- sread j ;;; p <-- suser (a_assign a d v) ;;;
             swrite' i (fst (snd p)) ;;;
             (if i_const (a_ini a) then sret tt else swrite' j (snd (snd p))) ;;;
             sres (fst p)
    end.
  (** [s_assign] of [Spec.v]. *)
  Definition s_assign' (i : loc) (a : arg W) : @S W unit :=
    o <-- contents i ;;;
    match o with
    | Some _ => s_assign_existing' i a
    | None => v <-- sinit' (a_ini a) ;;; become i (Some v)
    end.
  (** [s_copy_assign] of [Spec.v]. *)
  Definition s_copy_assign' (i j : loc) : @S W unit :=
    same tid i j
      (src <-- contents j ;;;
       dst <-- contents i ;;;
       match dst, src with
       | Some _, Some v =>
           if Nat.eqb i j
           then p <-- suser (po_self_cassign (pops j) v) ;;; swrite' i (snd p) ;;; sres (fst p)
           else d <-- sread i ;;; p <-- suser (po_cassign (pops j) d v) ;;;
                swrite' i (snd p) ;;; sres (fst p)
       | None, Some _ => v <-- scopy pops j ;;; become i (Some v)
       | Some d, None => sdestroy pops i d ;;; become i None
       | None, None => sret tt
       end).
  (** [s_move_assign] of [Spec.v]. *)
  Definition s_move_assign' (i j : loc) : @S W unit :=
    same tid i j
      (src <-- contents j ;;;
       dst <-- contents i ;;;
       match dst, src with
       | Some _, Some v =>
           if Nat.eqb i j
           then p <-- suser (po_self_massign (pops j) v) ;;; swrite' i (snd p) ;;; sres (fst p)
           else d <-- sread i ;;; p <-- suser (po_massign (pops j) d v) ;;;
                swrite' i (fst (snd p)) ;;; swrite' j (snd (snd p)) ;;; sres (fst p)
       | None, Some _ => v <-- smove' j ;;; become i (Some v)
       | Some d, None => sdestroy pops i d ;;; become i None
       | None, None => sret tt
       end).
  (** [s_emplace] of [Spec.v]. *)
  Definition s_emplace' (i : loc) (n : ini W) : @S W unit :=
    s_clear' i ;;; v <-- sinit' n ;;; become i (Some v).
  (** [s_swap] of [Spec.v]. *)
  Definition s_swap' (i j : loc) : @S W unit :=
    same tid i j
      (a <-- contents i ;;;
       b <-- contents j ;;;
       match a, b with
       | Some x, Some y =>
           if Nat.eqb i j
           then p <-- suser (po_self_swap (pops i) x) ;;; swrite' i (snd p) ;;; sres (fst p)
           else p <-- suser (po_swap (pops i) x y) ;;;
                swrite' i (fst (snd p)) ;;; swrite' j (snd (snd p)) ;;; sres (fst p)
       | Some _, None => v <-- smove' i ;;; become j (Some v) ;;; s_clear' i
       | None, Some _ => v <-- smove' j ;;; become i (Some v) ;;; s_clear' j
       | None, None => sret tt
       end).
  (** [s_std_swap] of [Spec.v]. *)
  Definition s_std_swap' (i j k : loc) : @S W unit :=
    same tid i j
      (_ <-- contents j ;;;
       s_ctor_from' (smove' i) k i ;;;
       s_on_throw (s_move_assign' i j ;;; s_move_assign' j k) (s_dtor pops k) ;;;
       s_dtor pops k).
  (** [s_access] of [Spec.v]. *)
  Definition s_access' (k : accessor) (i : loc) (c : bool) (f : fn_use W) : @S W rep :=
    o <-- contents i ;;;
    match o, k with
    | None, AccValue => sthrow BadOptionalAccess
    | None, _ => sundef
    | Some v, _ =>
        p <-- suser (f v) ;;;
        (if c then sret tt else swrite' i (snd p)) ;;;
        sres (fst p)
    end.
  (** [s_value_or] of [Spec.v]. *)
  Definition s_value_or' (get : @S W rep) (i : loc) (d : ini W) : @S W rep :=
    o <-- contents i ;;;
    match o with Some _ => get | None => sinit' d end.
  (** [s_new] of [Spec.v]. *)
  Definition s_new' (k : loc) (o : option rep) : @S W unit := fresh k ;;; become k o.
  (** [s_and_then] of [Spec.v]. *)
  Definition s_and_then' (k i : loc) (c : bool) (f : fn_opt W) : @S W unit :=
    o <-- contents i ;;;
    match o with
    | None => s_new' k None
    | Some v =>
        p <-- suser (f v) ;;;
        (if c then sret tt else swrite' i (snd p)) ;;;
        x <-- sres (fst p) ;;;
        s_new' k x
    end.
  (** [s_transform] of [Spec.v]. *)
  Definition s_transform' (k i : loc) (c : bool) (f : fn_use W) : @S W unit :=
    o <-- contents i ;;;
    match o with
    | None => s_new' k None
    | Some v =>
        fresh k ;;;
        p <-- suser (f v) ;;;
        (if c then sret tt else swrite' i (snd p)) ;;;
        x <-- sres (fst p) ;;;
        become k (Some x)
    end.
  (** [s_or_else] of [Spec.v]. *)
  Definition s_or_else' (k i : loc) (mv : bool) (f : W -> res (option rep) * W) : @S W unit :=
    same tid k i
      (o <-- contents i ;;;
       match o with
       | Some _ => fresh k ;;; v <-- (if mv then smove' i else scopy pops i) ;;; become k (Some v)
       | None => r <-- suser f ;;; x <-- sres r ;;; s_new' k x
       end).
  (** [sstep] of [Spec.v]. *)
  Definition sstep' (o : op W) : @S W obs :=
    match o with
    | ODefault i | ONullopt i => sunit (s_new' i None)
    | OInPlace i n => sunit (fresh i ;;; v <-- sinit' n ;;; become i (Some v))
    | OCopyCtor i j => sunit (s_ctor_from' (scopy pops j) i j)
    | OMoveCtor i j => sunit (s_ctor_from' (smove' j) i j)
    | ODtor i => sunit (s_dtor pops i)
    | OAssignNull i | OReset i => sunit (s_clear' i)
    | OAssign i a => sunit (s_assign' i a)
    | OCopyAssign i j => sunit (s_copy_assign' i j)
    | OMoveAssign i j => sunit (s_move_assign' i j)
    | OEmplace i n => sunit (s_emplace' i n)
    | OSwap i j => sunit (s_swap' i j)
    | OStdSwap i j k => sunit (s_std_swap' i j k)
    | OHasValue i | OBool i => sbool (s_has i)
    | OAccess k i c f => sval (s_access' k i c f)
    | OValueOrCopy i d => sval (s_value_or' (scopy pops i) i d)
    | OValueOrMove i d => sval (s_value_or' (smove' i) i d)
    | OAndThen k i c f => sunit (s_and_then' k i c f)
    | OTransform k i c f _ => sunit (s_transform' k i c f)
    | OOrElse k i mv f => sunit (s_or_else' k i mv f)
    | OCompare _ c r L R => sbool (s_compare c r L R)
    | OThreeWay g c L R => o <-- s_three g c L R ;;; sret (ObOrd o)
    | OHash h i => x <-- s_hash h i ;;; sret (ObHash x)
    | OVarNew i v => sunit (fresh i ;;; if is_value i v then sset i (Some (SVar v)) else sundef)
    | OVarDrop i =>
        sunit (fun s => match objs s i with
                        | Some (SVar v) => (sdestroy pops i v ;;; sset i None) s
                        | _ => (SUndef, s)
                        end)
    end.
  (** [srun] of [Spec.v]. *)
  Fixpoint srun' (p : list (op W)) (s : sstate W) : option (list obs) * sstate W :=
    match p with
    | [] => (Some [], s)
    | o :: p' =>
        match sstep' o s with
        | (SOk x, s') =>
            let (r, s'') := srun' p' s' in (option_map (cons x) r, s'')
        | (SThrow e, s') =>
            let (r, s'') := srun' p' s' in (option_map (cons (ObThrow e)) r, s'')
        | (SUndef, s') => (None, s')
        end
    end.
End Storing.

(** With the [become] of [Spec.v] they are its functions. *)
Theorem sstep_become W tid pops storable isv (o : op W) :
  sstep' tid pops (become storable) isv o = sstep tid pops storable isv o.
Proof. destruct o; reflexivity. Qed.
Theorem srun_become W tid pops storable isv p (s : sstate W) :
  srun' tid pops (become storable) isv p s = srun tid pops storable isv p s.
Proof.
  revert s. induction p as [|o p IH]; intros s; [reflexivity|].
  cbn [srun' srun]. rewrite sstep_become.
  destruct (sstep tid pops storable isv o s) as [[x|e|] s']; rewrite ?IH; reflexivity.
Qed.

Section Swallow.
  Context {W : Type}.
  Variable E : env W.

  (** A value of the payload type whose bytes, where the flag is, say "empty". *)
  Definition empties (i : loc) (v : rep) : bool :=
    Nat.eqb (length v) (d_psize (dec E i)) && negb (d_sep (dec E i)) &&
    match m_is_empty (man E i) (flag_cells (dec E i) v) with Some b => b | None => false end.
  (** Storing: such a value is forgotten at once (its destructor will not run). *)
  Definition forgets (i : loc) (o : option rep) : @S W unit :=
    match o with
    | Some v =>
        if storable E i v then sset i (Some (SOpt (Some v)))
        else if empties i v then sset i (Some (SOpt None)) else sundef
    | None => sset i (Some (SOpt None))
    end.
  (** The history [p] with such optionals. *)
  Definition swallow_run (w : W) (p : list (op W)) : option (list obs) * sstate W :=
    srun' (e_tid E) (ops E) forgets (is_value E) p (sinit_state w).
End Swallow.

(** ** A machine between the two

    The library on objects instead of bytes: storage that holds no object yet, an optional
    with or without a value, a variable.  Storing decides what the optional is from then
    on. *)
Inductive aob : Type :=
| ARaw (ready : bool)    (* storage; [ready]: the flag has been told that a value comes *)
| AOpt (o : option rep)
| AVar (v : rep).
Record astate (W : Type) : Type := MkA { aobj : loc -> option aob; aworld : W }.
Arguments MkA {W} _ _.
Arguments aobj {W} _ _.
Arguments aworld {W} _.

Section Middle.
  Context {W : Type}.
  Variable E : env W.
  Local Notation psize i := (d_psize (dec E i)).

  Definition a_set (i : loc) (x : option aob) : @G (astate W) unit := fun a =>
    (Ok tt, MkA (upd (aobj a) i x) (aworld a)).
  Definition a_put (i : loc) (v : rep) : @G (astate W) unit :=
    if storable E i v then a_set i (Some (AOpt (Some v)))
    else if empties E i v then a_set i (Some (AOpt None)) else dead' IllTyped.
  Definition a_call (A : Type) (g : W -> A * W) : @G (astate W) A := fun a =>
    let (x, w) := g (aworld a) in (Ok x, MkA (aobj a) w).
  Definition a_dtor (i : loc) (v : rep) : @G (astate W) unit :=
    a_call unit (fun w => (tt, po_dtor (ops E i) v w)).

  Definition mid : prims W (astate W) := {|
    p_call := a_call;
    p_alloc := fun i a => match aobj a i with
                          | None => a_set i (Some (ARaw false)) a
                          | Some _ => (Dead NoStorage, a)
                          end;
    p_dealloc := fun i a => match aobj a i with
                            | Some _ => a_set i None a
                            | None => (Dead NoStorage, a)
                            end;
    p_load := fun i a => match aobj a i with
                         | Some (AOpt (Some v)) | Some (AVar v) => (Ok v, a)
                         | _ => (Dead NoObject, a)
                         end;
    p_store := fun i v a => match aobj a i with
                            | Some (AOpt (Some _)) => a_put i v a
                            | Some (AVar _) =>
                                if is_value E i v then a_set i (Some (AVar v)) a
                                else (Dead IllTyped, a)
                            | _ => (Dead NoObject, a)
                            end;
    p_begin := fun i v a => match aobj a i with
                            | Some (ARaw true) => a_put i v a
                            | _ => (Dead LifetimeError, a)
                            end;
    p_end := fun i a => match aobj a i with
                        | Some (AOpt (Some v)) =>
                            bind' (a_dtor i v) (fun _ => a_set i (Some (ARaw false))) a
                        | _ => (Dead NoObject, a)
                        end;
    p_is_empty := fun i a => match aobj a i with
                             | Some (AOpt o) =>
                                 (Ok (match o with None => true | Some _ => false end), a)
                             | _ => (Dead NoObject, a)
                             end;
    p_init := fun i a => match aobj a i with
                         | Some (ARaw _) => a_set i (Some (AOpt None)) a
                         | _ => (Dead LifetimeError, a)
                         end;
    p_invalidate := fun i a => match aobj a i with
                               | Some (AOpt None) => a_set i (Some (ARaw true)) a
                               | _ => (Dead NoObject, a)
                               end;
    p_var_new := fun i v a => match aobj a i with
                              | None => if is_value E i v then a_set i (Some (AVar v)) a
                                        else (Dead IllTyped, a)
                              | Some _ => (Dead NoStorage, a)
                              end;
    p_var_drop := fun i a => match aobj a i with
                             | Some (AVar v) =>
                                 bind' (a_dtor i v) (fun _ => a_set i None) a
                             | _ => (Dead NoObject, a)
                             end
  |}.
End Middle.

(** ** Bytes behave like that machine *)
Section Bytes.
  Context {W : Type}.
  Variable E : env W.
  Variable base : loc -> nat.
  Variable junk : W -> nat -> rep -> rep -> rep.
  Hypothesis HE : env_ok E.
  Hypothesis HM : env_mono E.
  Hypothesis HP : placed E base.
  Hypothesis HJ : junk_ok junk.
  Local Notation F := (flat E base junk).
  Local Notation psize i := (d_psize (dec E i)).
  Local Notation ssize i := (d_ssize (dec E i)).
  Local Notation flag m i := (rd (base i + d_foff (dec E i)) (d_fsize (dec E i)) m).

  (** What the bytes of variable [i] show. *)
  Definition looks (i : loc) (m : nat -> cell) (x : aob) : Prop :=
    match x with
    | ARaw ready =>
        ready = true -> d_sep (dec E i) = true -> m_is_empty (man E i) (flag m i) = Some false
    | AOpt None => m_is_empty (man E i) (flag m i) = Some true
    | AOpt (Some v) =>
        rd (base i) (psize i) m = v /\ m_is_empty (man E i) (flag m i) = Some false
    | AVar v => rd (base i) (psize i) m = v
    end.
  Definition behind (a : astate W) (f : fstate W) : Prop :=
    aworld a = fworld f /\ forall i x, aobj a i = Some x -> looks i (bytes f) x.
  Local Notation fl := (fun (_ : loc) (_ : astate W) => True).
  Local Notation SIM := (SIM behind hard).
  Local Notation flo := (flo fl).

  Lemma flo_any o (a : astate W) : flo o a.
  Proof. destruct o; exact I. Qed.

  Lemma looks_ext i x m m' :
    looks i m x -> (forall z, base i <= z < base i + ssize i -> m z = m' z) -> looks i m' x.
  Proof.
    intros H Hz. pose proof (dec_ok E HE i) as O. pose proof (do_pay _ O). pose proof (do_flag _ O).
    assert (A : rd (base i) (psize i) m = rd (base i) (psize i) m')
      by (apply rd_ext; intros z Hi; apply Hz; lia).
    assert (B : flag m i = flag m' i) by (apply rd_ext; intros z Hi; apply Hz; lia).
    destruct x as [b|[v|]|v]; cbn in *; rewrite <- ?A, <- ?B; exact H.
  Qed.
  Lemma behind_set a f i x m' w :
    behind a f -> (forall y, x = Some y -> looks i m' y) ->
    (forall z, z < base i \/ base i + ssize i <= z -> m' z = bytes f z) ->
    behind (MkA (upd (aobj a) i x) w) (MkF m' w).
  Proof.
    intros (Hw & Hs) Hx Ho. split; [reflexivity|]. cbn [aobj bytes].
    intros j y. unfold upd. destruct (Nat.eqb_spec i j) as [<-|Hn]; [apply Hx|].
    intros Hj. apply (looks_ext j y (bytes f)); [apply Hs, Hj|].
    intros z Hz. symmetry. apply Ho. destruct (HP i j Hn); lia.
  Qed.
  Lemma storable_len i v : storable E i v = true -> length v = psize i.
  Proof.
    unfold storable, storable_in. intros H. apply andb_prop in H. apply Nat.eqb_eq, (proj1 H).
  Qed.
  Lemma empties_len i v : empties E i v = true -> length v = psize i.
  Proof.
    unfold empties. intros H. apply andb_prop in H. destruct H as [H _]. apply andb_prop in H.
    apply Nat.eqb_eq, (proj1 H).
  Qed.
  (** Where the flag is after [v] has been written over the payload. *)
  Lemma flag_inside i v m : length v = psize i -> d_sep (dec E i) = false ->
    flag (wr (base i) v m) i = flag_cells (dec E i) v.
  Proof.
    intros Hv Hs. pose proof (do_inpl _ (dec_ok E HE i) Hs).
    rewrite <- (rd_sub (base i) (psize i)) by lia. rewrite rd_wr_same by exact Hv. reflexivity.
  Qed.
  Lemma flag_behind i v m : length v = psize i -> d_sep (dec E i) = true ->
    flag (wr (base i) v m) i = flag m i.
  Proof.
    intros Hv Hs. pose proof (do_sep _ (dec_ok E HE i) Hs).
    apply rd_ext. intros z Hz. apply wr_out. lia.
  Qed.
  Lemma put_ok i v a f x :
    behind a f -> aobj a i = Some x ->
    (d_sep (dec E i) = true -> m_is_empty (man E i) (flag (bytes f) i) = Some false) ->
    match a_put E i v a with
    | (Ok u, a') => exists f', f_store E base i v f = (Ok u, f') /\ behind a' f'
    | (Throw _, _) => False
    | (Dead d, _) => hard d = false
    end.
  Proof.
    intros Hr Hx Hsep. pose proof (do_pay _ (dec_ok E HE i)) as Hpay. unfold a_put.
    destruct (storable E i v) eqn:Hst; [|destruct (empties E i v) eqn:Hem]; cbn; [| |reflexivity].
    - pose proof (storable_len i v Hst) as Hl. eexists. split; [reflexivity|].
      rewrite firstn_all2 by lia. destruct Hr as (Hw & Hs). rewrite <- Hw.
      apply (behind_set a f); [split; [exact Hw|exact Hs]| |intros z Hz; apply wr_out; lia].
      intros y [= <-]. cbn. split; [apply rd_wr_same, Hl|].
      destruct (d_sep (dec E i)) eqn:Hd.
      + rewrite flag_behind by assumption. auto.
      + rewrite flag_inside by assumption. unfold storable, storable_in in Hst.
        apply andb_prop in Hst. destruct Hst as [_ Hst]. rewrite Hd in Hst. cbn in Hst.
        destruct (m_is_empty (man E i) (flag_cells (dec E i) v)) as [[|]|]; congruence.
    - pose proof (empties_len i v Hem) as Hl. eexists. split; [reflexivity|].
      rewrite firstn_all2 by lia. destruct Hr as (Hw & Hs). rewrite <- Hw.
      apply (behind_set a f); [split; [exact Hw|exact Hs]| |intros z Hz; apply wr_out; lia].
      intros y [= <-]. cbn. unfold empties in Hem. apply andb_prop in Hem. destruct Hem as [Hem Hb].
      apply andb_prop in Hem. destruct Hem as [_ Hd].
      apply negb_true_iff in Hd. rewrite flag_inside by assumption.
      destruct (m_is_empty (man E i) (flag_cells (dec E i) v)) as [[|]|]; congruence.
  Qed.

  Lemma B_call o A (g : W -> A * W) :
    SIM (flo o) (p_call (mid E) A g) (p_call F A g) (fun _ => flo o) (flo o).
  Proof.
    intros a f (Hw & Hs) _. cbn. unfold a_call, f_call. rewrite <- Hw.
    destruct (g (aworld a)) as [x w]. eexists. split; [reflexivity|].
    split; [split; [reflexivity|exact Hs]|apply flo_any].
  Qed.
  Lemma B_load o i : SIM (flo o) (p_load (mid E) i) (p_load F i) (fun _ => flo o) (flo o).
  Proof.
    intros a f Hr _. cbn. pose proof (proj2 Hr i) as Hs.
    destruct (aobj a i) as [[b|[v|]|v]|]; cbn; try discriminate; specialize (Hs _ eq_refl); cbn in Hs;
      (exists f; split; [|split; [exact Hr|apply flo_any]]; unfold f_load).
    - rewrite (proj1 Hs). reflexivity.
    - rewrite Hs. reflexivity.
  Qed.
  Lemma B_var i v a f x :
    behind a f -> aobj a i = x -> is_value E i v = true ->
    exists f', f_store E base i v f = (Ok tt, f') /\
      behind (MkA (upd (aobj a) i (Some (AVar v))) (aworld a)) f'.
  Proof.
    intros (Hw & Hs) Hx Hv. apply Nat.eqb_eq in Hv. pose proof (do_pay _ (dec_ok E HE i)).
    eexists. split; [reflexivity|]. rewrite firstn_all2 by lia. rewrite <- Hw.
    apply (behind_set a f); [split; [exact Hw|exact Hs]| |intros z Hz; apply wr_out; lia].
    intros y [= <-]. cbn. apply rd_wr_same, Hv.
  Qed.
  Lemma B_store o i v :
    SIM (flo o) (p_store (mid E) i v) (p_store F i v) (fun _ => flo o) (flo o).
  Proof.
    intros a f Hr _. cbn [p_store mid flat]. pose proof (proj2 Hr i) as Hs.
    destruct (aobj a i) as [[b|[d|]|d]|] eqn:Ha; try discriminate; specialize (Hs _ eq_refl); cbn in Hs.
    - pose proof (put_ok i v a f _ Hr Ha (fun _ => proj2 Hs)) as K.
      destruct (a_put E i v a) as [[u|e|d0] a']; [|contradiction|rewrite K; discriminate].
      destruct K as (f' & K1 & K2). exists f'. split; [exact K1|]. split; [exact K2|apply flo_any].
    - destruct (is_value E i v) eqn:Hv; [|discriminate]. cbn.
      destruct (B_var i v a f _ Hr Ha Hv) as (f' & K1 & K2). exists f'. split; [exact K1|].
      split; [exact K2|apply flo_any].
  Qed.
  Lemma B_alloc i : SIM all1 (p_alloc (mid E) i) (p_alloc F i) (fun _ _ => True) all1.
  Proof.
    intros a f Hr _. cbn [p_alloc mid flat]. destruct (aobj a i) eqn:Ha; [discriminate|]. cbn.
    destruct (f_write_eq base junk HJ i 0 (indets (ssize i)) f) as (y & -> & Hb).
    pose proof (below_len _ _ Hb) as Hy. rewrite length_indets in Hy. rewrite Nat.add_0_r.
    eexists. split; [reflexivity|]. split; [|exact I]. rewrite <- (proj1 Hr).
    apply (behind_set a f); [exact Hr| |intros z Hz; apply wr_out; lia].
    intros x [= <-]. cbn. discriminate.
  Qed.
  Lemma B_dealloc i : SIM all1 (p_dealloc (mid E) i) (p_dealloc F i) (fun _ => all1) all1.
  Proof.
    intros a f Hr _. cbn. destruct (aobj a i) eqn:Ha; [|discriminate]. cbn.
    exists f. split; [reflexivity|]. split; [|exact I]. destruct f as [m w]. destruct Hr as (Hw & Hs).
    cbn in Hw. rewrite Hw. apply (behind_set a (MkF m w)); [split; assumption|discriminate|reflexivity].
  Qed.
  Lemma B_begin i v :
    SIM (fun _ => True) (p_begin (mid E) i v) (p_begin F i v) (fun _ => all1) (fun _ => True).
  Proof.
    intros a f Hr _. cbn [p_begin mid flat]. pose proof (proj2 Hr i) as Hs.
    destruct (aobj a i) as [[[|]|o|d]|] eqn:Ha; try discriminate; specialize (Hs _ eq_refl); cbn in Hs.
    pose proof (put_ok i v a f _ Hr Ha (Hs eq_refl)) as K.
    destruct (a_put E i v a) as [[u|e|d0] a']; [|contradiction|rewrite K; discriminate].
    destruct K as (f' & K1 & K2). exists f'. split; [exact K1|]. split; [exact K2|exact I].
  Qed.
  Lemma B_end i : SIM (fun _ => True) (p_end (mid E) i) (p_end F i) (fun _ _ => True) all1.
  Proof.
    intros a f Hr _. cbn [p_end mid flat]. pose proof (proj2 Hr i) as Hs.
    destruct (aobj a i) as [[b|[v|]|d]|] eqn:Ha; try discriminate; specialize (Hs _ eq_refl); cbn in Hs.
    unfold bind', a_dtor, a_call, a_set, f_dtor, f_load, bind', f_call. cbn beta iota zeta.
    rewrite (proj1 Hs). cbn [aobj aworld].
    set (w' := po_dtor (ops E i) v (fworld f)).
    destruct (f_write_eq base junk HJ i 0 (indets (psize i)) (MkF (bytes f) w')) as (y & -> & Hb).
    pose proof (below_len _ _ Hb) as Hy. rewrite length_indets in Hy. rewrite Nat.add_0_r.
    eexists. split; [reflexivity|]. split; [|exact I]. cbn [bytes fworld].
    rewrite (proj1 Hr). pose proof (do_pay _ (dec_ok E HE i)).
    apply (behind_set a f); [exact Hr| |intros z Hz; apply wr_out; lia].
    intros x [= <-]. cbn. discriminate.
  Qed.
  Lemma B_is_empty i : SIM all1 (p_is_empty (mid E) i) (p_is_empty F i) (fun _ _ => True) all1.
  Proof.
    intros a f Hr _. cbn. pose proof (proj2 Hr i) as Hs.
    destruct (aobj a i) as [[b|[v|]|d]|] eqn:Ha; try discriminate; specialize (Hs _ eq_refl); cbn in Hs;
      (exists f; split; [|split; [exact Hr|exact I]]; unfold f_flag).
    - rewrite (proj2 Hs). reflexivity.
    - rewrite Hs. reflexivity.
  Qed.
  Lemma B_flag i x b (g : rep -> rep) a f :
    behind a f ->
    (length (g (flag (bytes f) i)) = d_fsize (dec E i)) ->
    (forall c, below (g (flag (bytes f) i)) c ->
       looks i (wr (base i + d_foff (dec E i)) c (bytes f)) x) -> b = tt ->
    exists f', f_write base junk i (d_foff (dec E i)) (g (f_flag E base i f)) f = (Ok b, f') /\
      behind (MkA (upd (aobj a) i (Some x)) (aworld a)) f'.
  Proof.
    intros Hr Hl Hx ->. pose proof (do_flag _ (dec_ok E HE i)).
    destruct (f_write_eq base junk HJ i (d_foff (dec E i)) (g (f_flag E base i f)) f) as (y & -> & Hb).
    pose proof (below_len _ _ Hb) as Hy. unfold f_flag in *. eexists. split; [reflexivity|].
    rewrite <- (proj1 Hr). apply (behind_set a f); [exact Hr| |intros z Hz; apply wr_out; lia].
    intros x' [= <-]. apply Hx, Hb.
  Qed.
  Lemma flag_now i c (m : nat -> cell) : length c = d_fsize (dec E i) ->
    flag (wr (base i + d_foff (dec E i)) c m) i = c.
  Proof. apply rd_wr_same. Qed.
  Lemma B_init i : SIM (fun _ => True) (p_init (mid E) i) (p_init F i) (fun _ => all1) all1.
  Proof.
    intros a f Hr _. cbn [p_init mid flat].
    destruct (aobj a i) as [[r|o|d]|] eqn:Ha; try discriminate. cbn.
    pose proof (man_ok E HE i) as M. pose proof (length_rd (base i + d_foff (dec E i)) (d_fsize (dec E i)) (bytes f)) as L.
    pose proof (mo_init_len _ _ M _ L) as HL.
    destruct (B_flag i (AOpt None) tt (m_init (man E i)) a f Hr HL) as (f' & K1 & K2); [|reflexivity|].
    - intros c Hc. cbn. rewrite flag_now by (rewrite <- (below_len _ _ Hc); exact HL).
      apply (mm_is_empty _ (mono E HM i) _ _ true Hc). apply (mo_init _ _ M _ L).
    - exists f'. split; [exact K1|]. split; [exact K2|exact I].
  Qed.
  Lemma B_invalidate i : SIM all1 (p_invalidate (mid E) i) (p_invalidate F i) (fun _ _ => True) all1.
  Proof.
    intros a f Hr _. cbn [p_invalidate mid flat].
    destruct (aobj a i) as [[r|[v|]|d]|] eqn:Ha; try discriminate. cbn.
    pose proof (man_ok E HE i) as M. pose proof (length_rd (base i + d_foff (dec E i)) (d_fsize (dec E i)) (bytes f)) as L.
    pose proof (mo_inval_len _ _ M _ L) as HL.
    destruct (B_flag i (ARaw true) tt (m_inval (man E i)) a f Hr HL) as (f' & K1 & K2); [|reflexivity|].
    - intros c Hc. cbn. intros _ Hd. rewrite flag_now by (rewrite <- (below_len _ _ Hc); exact HL).
      apply (mm_is_empty _ (mono E HM i) _ _ false Hc). apply (mo_inval _ _ M _ L Hd).
    - exists f'. split; [exact K1|]. split; [exact K2|exact I].
  Qed.
  Lemma B_var_new i v : SIM all1 (p_var_new (mid E) i v) (p_var_new F i v) (fun _ => all1) all1.
  Proof.
    intros a f Hr _. cbn [p_var_new mid flat]. destruct (aobj a i) eqn:Ha; [discriminate|].
    destruct (is_value E i v) eqn:Hv; [|discriminate]. cbn.
    destruct (B_var i v a f _ Hr Ha Hv) as (f' & K1 & K2). exists f'. split; [exact K1|].
    split; [exact K2|exact I].
  Qed.
  Lemma B_var_drop i : SIM all1 (p_var_drop (mid E) i) (p_var_drop F i) (fun _ => all1) all1.
  Proof.
    intros a f Hr _. cbn [p_var_drop mid flat]. pose proof (proj2 Hr i) as Hs.
    destruct (aobj a i) as [[b|o|v]|] eqn:Ha; try discriminate; specialize (Hs _ eq_refl); cbn in Hs.
    unfold bind', a_dtor, a_call, a_set, f_dtor, f_load, bind', f_call. cbn beta iota zeta.
    rewrite Hs. cbn [aobj aworld]. rewrite (proj1 Hr). eexists. split; [reflexivity|]. split; [|exact I].
    apply (behind_set a f); [exact Hr|discriminate|reflexivity].
  Qed.

  Lemma bytes_run p a f : behind a f ->
    match run' E (mid E) p a with
    | (inl obs, a') => exists f', run' E F p f = (inl obs, f') /\ behind a' f'
    | (inr d, _) => hard d = true -> exists f', run' E F p f = (inr d, f')
    end.
  Proof.
    intros Hr. exact (sim_run E (mid E) F behind fl hard (fun _ => True) B_call
      (fun o i _ => B_load o i) (fun o i v _ => B_store o i v) (fun i _ => B_alloc i)
      (fun i _ => B_dealloc i) (fun i v _ => B_begin i v) (fun i _ => B_end i)
      (fun i _ => B_is_empty i) (fun i _ => B_init i) (fun i _ => B_invalidate i)
      (fun i v _ => B_var_new i v) (fun i _ => B_var_drop i) p (fun _ _ _ _ => I) a f Hr).
  Qed.
End Bytes.
