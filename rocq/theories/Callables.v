(** * Callables: monadic operations whose callables use the library (C60)

    In [Optional.v] the callable of and_then, transform and or_else is a function of the
    payload and the world.  Here it is a piece of client code ([Clients.v]): it may
    create, modify, reset and destroy optionals, including the one on which the operation
    was called, loop, throw, call functions and use the monadic operations again. *)

From Coq Require Import List NArith ZArith Bool Arith Lia.
From Verif Require Import Cells CellsFacts Machine Optional Program Spec Laws Refine Contract
  Effects Frame Lifetime Bits Manip Sample Histories ExampleTac Clients.
Import ListNotations.

(** ** The operations, as their C++ source, with client code as callable *)

Section Code.
  Context {W L : Type}.
  (** The client's local state has room for the result of has_value(). *)
  Variable get : L -> bool.
  Variable put : bool -> L -> L.

  (** and_then (optional.h:1680-1731): [if (has_value()) return std::invoke(f, **this);
      else return ReturnTypeOfF();].  [body] is the body of the callable, it creates the
      result [k]; it refers to the payload by accesses to [i]. *)
  Definition code_and_then (k i : L -> loc) (body : stmt W L) : stmt W L :=
    CSeq (CCall (fun l _ => OHasValue (i l)) (fun x l => put (yes x) l))
         (CIf get body (CCall (fun l _ => ODefault (k l)) (fun _ l => l))).
  (** or_else (optional.h:1817-1837, 2250-2270): [return *this ? *this : f()], [mv] for the
      overload for rvalues. *)
  Definition code_or_else (k i : L -> loc) (mv : bool) (body : stmt W L) : stmt W L :=
    CSeq (CCall (fun l _ => OHasValue (i l)) (fun x l => put (yes x) l))
         (CIf get
            (CCall (fun l _ => if mv then OMoveCtor (k l) (i l) else OCopyCtor (k l) (i l)) (fun _ l => l))
            body).
End Code.

(** ** The model of the member functions is this code *)

(** Local state of the code: the result of has_value() and what the callable returned. *)
Record frame : Type := MkF { f_has : bool; f_val : rep }.
Definition f_put (b : bool) (l : frame) : frame := MkF b (f_val l).
(** An optional value returned by the callable, as one representation. *)
Definition pack (o : option rep) : rep := match o with Some v => Byte 1 :: v | None => [] end.
Definition full (v : rep) : bool := match v with [] => false | _ => true end.
Definition packed {W} (f : fn_opt W) : fn_use W :=
  fun v w => let '(r, v', w') := f v w in
    ((match r with ROk o => ROk (pack o) | RThrow e => RThrow e end, v'), w').

Section Members.
  Context {W : Type}.
  (** The callable's result: [return optional(in_place, v)] or [return {}]. *)
  Definition return_it (k : loc) : stmt W frame :=
    CIf (fun l => full (f_val l))
        (CCall (fun l _ => OInPlace k (const_ini (tl (f_val l)))) (fun _ l => l))
        (CCall (fun _ _ => ODefault k) (fun _ l => l)).
  (** The callable [f]: uses the payload, then returns. *)
  Definition callable (k i : loc) (c : bool) (f : fn_opt W) : stmt W frame :=
    CSeq (CCall (fun _ _ => OAccess AccDeref i c (packed f)) (fun x l => MkF (f_has l) (got x)))
         (return_it k).
  Definition producer (k : loc) (r : res (option rep)) : stmt W frame :=
    match r with
    | RThrow e => CThrow (fun _ => e)
    | ROk o => CSeq (CLet (fun l _ => MkF (f_has l) (pack o))) (return_it k)
    end.
End Members.

(** The same outcome and the same final state. *)
Definition same_end {L St} (a : out obs * St) (b : flow L * St) : Prop :=
  match a, b with
  | (Ok _, s), (FNorm _, s') => s = s'
  | (Throw e, s), (FExn e' _, s') => e = e' /\ s = s'
  | (Dead _, s), (FBad, s') => s = s'
  | _, _ => False
  end.

(** The same for any machine in which the calls are composed like this. *)
Section Abstract.
  Context {W : Type}.
  Variable call : op W -> M W obs.
  Variable procs : nat -> stmt W frame.
  Variables (k i : loc) (c : bool) (f : fn_opt W).
  Variable has : M W bool.
  Variables (deref dflt copy_ move_ : M W unit) (load : M W rep) (store : rep -> M W unit).
  Variable inp : rep -> M W unit.
  Hypothesis H1 : forall s, call (OHasValue i) s = bool_ has s.
  Hypothesis H2 : forall g s,
    call (OAccess AccDeref i c g) s =
    val_ (deref ;; v <- load ;; p <- Machine.call (g v) ;;
          (if c then ret tt else store (snd p)) ;; lift_res (fst p)) s.
  Hypothesis H3 : forall s, call (ODefault k) s = unit_ dflt s.
  Hypothesis H4 : forall u s, call (OInPlace k (const_ini u)) s = unit_ (inp u) s.
  Hypothesis H5 : forall s, call (OCopyCtor k i) s = unit_ copy_ s.
  Hypothesis H6 : forall s, call (OMoveCtor k i) s = unit_ move_ s.

  Let build (o : option rep) : M W unit := match o with None => dflt | Some v => inp v end.
  Ltac go := cbn; rewrite ?H1, ?H2, ?H3, ?H4, ?H5, ?H6; unfold unit_, bool_, val_, bind, ret; cbn.
  Ltac fin :=
    go; match goal with |- _ = _ => reflexivity | |- _ /\ _ => split; reflexivity | |- _ => idtac end.
  Ltac last :=
    match goal with
    | |- context [inp ?u ?x] => destruct (inp u x) as [[?|?|?] ?]
    | |- context [dflt ?x] => destruct (dflt x) as [[?|?|?] ?]
    | _ => idtac
    end; fin.

  Lemma abs_and_then n l s :
    same_end
      (unit_ (b <- has ;;
              if b
              then deref ;; v <- load ;; p <- Machine.call (f v) ;;
                   (if c then ret tt else store (snd p)) ;; o <- lift_res (fst p) ;; build o
              else dflt) s)
      (exec call world procs (8 + n)
         (code_and_then f_has f_put (fun _ => k) (fun _ => i) (callable k i c f)) l s).
  Proof.
    go. destruct (has s) as [[[|]|e|e] s1]; fin; [|last].
    destruct (deref s1) as [[[]|e|e] s2]; fin.
    destruct (load s2) as [[v|e|e] s3]; fin.
    unfold Machine.call, packed. destruct (f v (world s3)) as [[r v'] w']. go.
    set (s4 := MkState _ _ _).
    destruct c; [|destruct (store v' s4) as [[[]|e|e] s5]; fin];
      (destruct r as [[u|]|e]; fin); last.
  Qed.
  Lemma abs_or_else n l (mv : bool) (r : res (option rep)) s :
    same_end
      (unit_ (b <- has ;;
              if b then (if mv then move_ else copy_)
              else x <- Machine.call (fun w => (r, w)) ;; o <- lift_res x ;; build o) s)
      (exec call world procs (8 + n)
         (code_or_else f_has f_put (fun _ => k) (fun _ => i) mv (producer k r)) l s).
  Proof.
    destruct mv, r as [[u|]|e]; go; (destruct (has s) as [[[|]|e0|e0] s1]; fin);
      try (destruct (move_ s1) as [[?|?|?] ?]; fin; fail);
      try (destruct (copy_ s1) as [[?|?|?] ?]; fin; fail);
      unfold Machine.call; go;
      (replace (MkState (mem s1) (world s1) (trace s1)) with s1 by (destruct s1; reflexivity)); fin; last.
  Qed.
End Abstract.

(** C60: and_then, in every state, even outside of the contract. *)
Theorem C60_and_then_is_its_code :
  forall W (E : env W) procs n k i c f l s,
    same_end (step E (OAndThen k i c f) s)
      (exec_tiny E procs (8 + n)
         (code_and_then f_has f_put (fun _ => k) (fun _ => i) (callable k i c f)) l s).
Proof.
  intros W E procs n k i c f l s.
  apply (abs_and_then (step E) procs k i c f (has_value E i) (op_deref E i) (ctor_default E k)
           (load_payload E i) (store_payload E i) (fun u => ctor_in_place E k (const_ini u)));
    reflexivity.
Qed.

(** C60: or_else, whose result has the type of the optional (optional.h:1821-1824). *)
Theorem C60_or_else_is_its_code :
  forall W (E : env W) procs n k i mv r l s,
    e_tid E k = e_tid E i ->
    same_end (step E (OOrElse k i mv (fun w => (r, w))) s)
      (exec_tiny E procs (8 + n)
         (code_or_else f_has f_put (fun _ => k) (fun _ => i) mv (producer k r)) l s).
Proof.
  intros W E procs n k i mv r l s Ht. unfold exec_tiny.
  pose proof (abs_or_else (step E) procs k i (has_value E i) (ctor_default E k) (ctor_copy E k i)
                (ctor_move E k i) (fun u => ctor_in_place E k (const_ini u))) as A.
  cbn [step]. unfold or_else, same_type. rewrite Ht, Nat.eqb_refl. apply A; reflexivity.
Qed.

(** ** More steps do not change the end of a program *)

Section Fuel.
  Context {W L St : Type}.
  Variable call : op W -> St -> out obs * St.
  Variable look : St -> W.
  Variable procs : nat -> stmt W L.
  Notation ex := (exec call look procs).

  Lemma exec_more n : forall c l s,
    match ex n c l s with (FMore, _) => True | r => ex (Datatypes.S n) c l s = r end.
  Proof.
    induction n as [|n IH]; intros c l s; [exact I|].
    set (N := Datatypes.S n).
    destruct c as [|g|o k|c1 c2|b c1 c2|b c1|c h|e|i v ci c|i v ci c|p arg ret].
    - reflexivity.
    - reflexivity.
    - unfold N. cbn [exec]. destruct (call _ s) as [[x|e|f] s']; reflexivity.
    - unfold N at 1. cbn [exec]. pose proof (IH c1 l s) as A. fold N in A.
      destruct (ex n c1 l s) as [[l1|e l1| |] s1]; try exact I; rewrite A; try reflexivity. apply IH.
    - unfold N at 1. cbn [exec]. destruct (b l); apply IH.
    - unfold N at 1. cbn [exec]. destruct (b l); [|reflexivity].
      pose proof (IH c1 l s) as A. fold N in A.
      destruct (ex n c1 l s) as [[l1|e l1| |] s1]; try exact I; rewrite A; try reflexivity. apply IH.
    - unfold N at 1. cbn [exec]. pose proof (IH c l s) as A. fold N in A.
      destruct (ex n c l s) as [[l1|e l1| |] s1]; try exact I; rewrite A; try reflexivity. apply IH.
    - reflexivity.
    - unfold N at 1. cbn [exec]. pose proof (IH ci l s) as A. fold N in A.
      destruct (ex n ci l s) as [[l1|e l1| |] s1]; try exact I; rewrite A; try reflexivity.
      pose proof (IH c l1 s1) as B. fold N in B.
      destruct (ex n c l1 s1) as [[l2|e l2| |] s2]; try exact I; rewrite B; try reflexivity;
        destruct (call (closing v (i l)) s2) as [[x|x|x] s3]; reflexivity.
    - unfold N at 1. cbn [exec]. pose proof (IH ci l s) as A. fold N in A.
      destruct (ex n ci l s) as [[l1|e l1| |] s1]; try exact I; rewrite A; try reflexivity.
      pose proof (IH c l1 s1) as B. fold N in B.
      destruct (ex n c l1 s1) as [[l2|e l2| |] s2]; try exact I; rewrite B; try reflexivity;
        destruct (call (closing v (i l)) s2) as [[x|x|x] s3]; reflexivity.
    - unfold N at 1. cbn [exec]. pose proof (IH (procs p) (arg l) s) as A. fold N in A.
      destruct (ex n (procs p) (arg l) s) as [[l1|e l1| |] s1]; try exact I; rewrite A; reflexivity.
  Qed.
  Lemma exec_le n m c l s f u :
    n <= m -> ex n c l s = (f, u) -> f <> FMore -> ex m c l s = (f, u).
  Proof.
    intros Hm H Hf. induction Hm as [|m Hm IH]; [exact H|].
    pose proof (exec_more m c l s) as A. rewrite IH in A. destruct f; congruence.
  Qed.
End Fuel.

(** ** States that differ only as functions *)

Section Alike.
  Context {W : Type}.
  Definition alike (t t' : sstate W) : Prop :=
    sworld t = sworld t' /\ forall j, objs t j = objs t' j.
  Lemma alike_refl t : alike t t.
  Proof. split; auto. Qed.

  Variable tid : loc -> nat.
  Variable pops : loc -> payops W.
  Variable stor isv : loc -> rep -> bool.

  Definition even {A} (m : @S W A) : Prop :=
    forall t t', alike t t' ->
      match m t, m t' with (r, u), (r', u') => r = r' /\ alike u u' end.
  Lemma v_ret {A} (x : A) : even (sret x).
  Proof. intros t t' H. split; auto. Qed.
  Lemma v_throw {A} e : even (@sthrow W A e).
  Proof. intros t t' H. split; auto. Qed.
  Lemma v_undef {A} : even (@sundef W A).
  Proof. intros t t' H. split; auto. Qed.
  Lemma v_bind {A B} (m : @S W A) (k : A -> @S W B) :
    even m -> (forall x, even (k x)) -> even (sbind m k).
  Proof.
    intros Hm Hk t t' H. unfold sbind. pose proof (Hm t t' H) as A0.
    destruct (m t) as [r u], (m t') as [r' u']. destruct A0 as (<- & A0).
    destruct r as [x|x|]; [exact (Hk x u u' A0)|auto|auto].
  Qed.
  Lemma v_user {A} (f : W -> A * W) : even (suser f).
  Proof.
    intros t t' (H & G). unfold suser. rewrite H. destruct (f (sworld t')). split; [reflexivity|].
    split; [reflexivity|exact G].
  Qed.
  Lemma v_res {A} (r : res A) : even (sres r).
  Proof. destruct r; [apply v_ret|apply v_throw]. Qed.
  Lemma v_set i x : even (sset i x).
  Proof.
    intros t t' (H & G). split; [reflexivity|]. split; [exact H|]. cbn. intros j. unfold upd.
    destruct (Nat.eqb _ _); auto.
  Qed.
  Lemma v_contents i : even (contents i).
  Proof.
    intros t t' H. unfold contents. rewrite (proj2 H).
    destruct (objs t' i) as [[o|v]|]; split; auto.
  Qed.
  Lemma v_become i o : even (become stor i o).
  Proof.
    unfold become. destruct o as [v|]; [destruct (stor i v)|]; first [apply v_set|apply v_undef].
  Qed.
  Lemma v_fresh i : even (fresh i).
  Proof. intros t t' H. unfold fresh. rewrite (proj2 H). destruct (objs t' i); split; auto. Qed.
  Lemma v_read i : even (sread i).
  Proof.
    intros t t' H. unfold sread. rewrite (proj2 H). destruct (objs t' i) as [[[v|]|v]|]; split; auto.
  Qed.
  Lemma v_write i v : even (swrite stor isv i v).
  Proof.
    intros t t' H. unfold swrite. rewrite (proj2 H). destruct (objs t' i) as [[[u|]|u]|]; try (split; auto; fail).
    - exact (v_become i (Some v) t t' H).
    - destruct (isv i v); [|split; auto]. exact (v_set i _ t t' H).
  Qed.
  Lemma v_on_throw {A} (m : @S W A) q : even m -> even q -> even (s_on_throw m q).
  Proof.
    intros Hm Hq t t' H. unfold s_on_throw. pose proof (Hm t t' H) as A0.
    destruct (m t) as [r u], (m t') as [r' u']. destruct A0 as (<- & A0).
    destruct r as [x|x|]; auto. pose proof (Hq u u' A0) as B.
    destruct (q u) as [r2 u2], (q u') as [r2' u2']. destruct B as (<- & B).
    destruct r2; auto.
  Qed.

  Ltac v1 :=
    first
      [ apply v_ret | apply v_throw | apply v_undef | apply v_user | apply v_res | apply v_set
      | apply v_contents | apply v_become | apply v_fresh | apply v_read | apply v_write
      | apply v_on_throw | apply v_bind; [|intros ?]
      | match goal with |- even (match ?x with _ => _ end) => destruct x end
      | progress unfold same ].
  Ltac v := repeat v1.
  Lemma v_read_more l : even (sread_more l).
  Proof. induction l as [|[i c] l IH]; cbn [sread_more]; v. exact IH. Qed.
  Lemma v_write_more l : forall vs, even (swrite_more stor isv l vs).
  Proof. induction l as [|[i c] l IH]; intros [|x vs]; cbn [swrite_more]; v; apply IH. Qed.
  Lemma v_init n : even (sinit stor isv n).
  Proof. unfold sinit. v; first [apply v_read_more|apply v_write_more]. Qed.
  Lemma v_dtor i : even (s_dtor pops i).
  Proof. unfold s_dtor, sdestroy. v. Qed.

  Lemma v_var_drop i : even (sstep tid pops stor isv (OVarDrop i)).
  Proof.
    cbn [sstep]. unfold sunit. apply v_bind; [|intros _; apply v_ret].
    intros t t' H. rewrite (proj2 H). destruct (objs t' i) as [[o|v]|]; try (split; auto; fail).
    assert (K : even (sbind (sdestroy pops i v) (fun _ => sset i None))) by (unfold sdestroy; v).
    exact (K t t' H).
  Qed.
  Lemma v_three g c x y : even (s_three g c x y).
  Proof. unfold s_three. destruct x, y, g; cbn [s_operand]; unfold s_relate3; v. Qed.
  Lemma even_step o : even (sstep tid pops stor isv o).
  Proof.
    destruct o; try apply v_var_drop; cbn [sstep]; unfold sunit, sbool, sval;
      try (apply v_bind; [apply v_three|intros ?; apply v_ret]; fail);
      unfold s_std_swap, s_new, s_ctor_from, s_dtor, s_clear, s_assign, s_assign_existing,
        s_copy_assign, s_move_assign, s_emplace, s_swap, s_has, s_access, s_value_or, s_and_then,
        s_transform, s_or_else, s_compare, s_operand, s_relate, s_hash, s_new, s_ctor_from,
        s_copy_assign, s_move_assign, s_dtor, s_clear, scopy, smove, sdestroy;
      repeat first [apply v_init|v1].
  Qed.
End Alike.

(** ** Chaining and nesting *)

(** [refac a b]: [b] is [a] after some number of rewritings, anywhere in the program, of

      o.and_then(f).and_then(g)     into     o.and_then([&](auto & x) { return f(x).and_then(g); })

    [t] names the temporary f(x).  [get] and [put] do not interfere with the names. *)
Record scratch {L} (get : L -> bool) (put : bool -> L -> L) (names : list (L -> loc)) : Prop :=
  MkScratch {
    sc_get : forall b l, get (put b l) = b;
    sc_put : forall b b' l, put b (put b' l) = put b l;
    sc_names : forall x, In x names -> forall b l, x (put b l) = x l }.

Inductive refac {W L} : stmt W L -> stmt W L -> Prop :=
| R_skip : refac CSkip CSkip
| R_let f : refac (CLet f) (CLet f)
| R_call o k : refac (CCall o k) (CCall o k)
| R_seq a a' b b' : refac a a' -> refac b b' -> refac (CSeq a b) (CSeq a' b')
| R_if c a a' b b' : refac a a' -> refac b b' -> refac (CIf c a b) (CIf c a' b')
| R_while c a a' : refac a a' -> refac (CWhile c a) (CWhile c a')
| R_try a a' h h' : refac a a' -> (forall e, refac (h e) (h' e)) -> refac (CTry a h) (CTry a' h')
| R_throw e : refac (CThrow e) (CThrow e)
| R_block i v a a' b b' : refac a a' -> refac b b' -> refac (CBlock i v a b) (CBlock i v a' b')
| R_result i v a a' b b' : refac a a' -> refac b b' -> refac (CResult i v a b) (CResult i v a' b')
| R_proc p arg ret : refac (CProc p arg ret) (CProc p arg ret)
| R_chain get put i t k f f' g g' :
    scratch get put [i; t; k] -> refac f f' -> refac g g' ->
    refac
      (CBlock t false (code_and_then get put t i f) (code_and_then get put k t g))
      (code_and_then get put k i (CBlock t false f' (code_and_then get put k t g'))).

Lemma refac_ok {W L} (c c' : stmt W L) : refac c c' -> stmt_ok c -> stmt_ok c'.
Proof. induction 1; cbn; try tauto. firstorder. Qed.

Section Refactor.
  Context {W L : Type}.
  Variable E : env W.
  Variables procs procs' : nat -> stmt W L.
  Hypothesis Hprocs : forall p, refac (procs p) (procs' p).

  Lemma call_alike o t t' :
    alike t t' ->
    match std_call E o t, std_call E o t' with (r, u), (r', u') => r = r' /\ alike u u' end.
  Proof.
    intros H. pose proof (even_step (e_tid E) (ops E) (storable E) (is_value E) o t t' H) as A.
    unfold std_call. destruct (sstep _ _ _ _ o t) as [r u], (sstep _ _ _ _ o t') as [r' u'].
    destruct A as (<- & A). destruct r; auto.
  Qed.

  Definition over (f : flow L) : Prop := match f with FNorm _ | FExn _ _ => True | _ => False end.
  Lemma over_more f : over f -> f <> FMore.
  Proof. destruct f; intros []; discriminate. Qed.
  Notation ex := (exec (std_call E) sworld procs).
  Notation ex' := (exec (std_call E) sworld procs').
  Lemma up m M c l t f u : ex' m c l t = (f, u) -> over f -> m <= M -> ex' M c l t = (f, u).
  Proof. intros H Hf Hm. exact (exec_le _ _ _ m M _ _ _ _ _ Hm H (over_more f Hf)). Qed.

  Definition some (o : option rep) : bool := match o with Some _ => true | None => false end.
  Lemma call_has i t :
    std_call E (OHasValue i) t =
    match objs t i with
    | Some (SOpt o) => (Ok (ObBool (some o)), t)
    | _ => (Dead NoObject, t)
    end.
  Proof. unfold std_call. cbn. unfold sbool, s_has, sbind, contents. destruct (objs t i) as [[o|v]|]; reflexivity. Qed.
  Lemma call_default i t :
    std_call E (ODefault i) t =
    match objs t i with
    | None => (Ok ObUnit, MkS (upd (objs t) i (Some (SOpt None))) (sworld t))
    | Some _ => (Dead NoObject, t)
    end.
  Proof. unfold std_call. cbn. unfold sunit, s_new, sbind, fresh. destruct (objs t i); reflexivity. Qed.
  Lemma call_dtor_none i t :
    objs t i = Some (SOpt None) ->
    std_call E (ODtor i) t = (Ok ObUnit, MkS (upd (objs t) i None) (sworld t)).
  Proof. intros H. unfold std_call. cbn. unfold sunit, s_dtor, sbind, contents. rewrite H. reflexivity. Qed.

  (** The rewritten program ends in the same way. *)
  Lemma refac_run n : forall c c' l t t' f u,
    refac c c' -> alike t t' -> ex n c l t = (f, u) -> over f ->
    exists m u', ex' m c' l t' = (f, u') /\ alike u u'.
  Proof.
    induction n as [n IH] using (well_founded_induction Wf_nat.lt_wf).
    destruct n as [|n]; intros c c' l t t' f u R A H Hf; [inversion H; subst; destruct Hf|].
    assert (Hn : n < Datatypes.S n) by lia.
    assert (Hw : sworld t = sworld t') by apply A.
    destruct R as [|g|o k|a a' b b' Ra Rb|b x x' y y' Rx Ry|b x x' Rx|x x' h h' Rx Rh|e
                  |i v a a' b b' Ra Rb|i v a a' b b' Ra Rb|p arg ret
                  |get put i tm k q q' g g' Hs Rf Rg].
    - exists 1, t'. inversion H; subst. split; [reflexivity|exact A].
    - exists 1, t'. inversion H; subst. split; [cbn; rewrite Hw; reflexivity|exact A].
    - cbn [exec] in H. rewrite Hw in H. pose proof (call_alike (o l (sworld t')) t t' A) as B.
      destruct (std_call E (o l (sworld t')) t) as [r1 u1] eqn:H1.
      destruct (std_call E (o l (sworld t')) t') as [r2 u2] eqn:H2. destruct B as (<- & B).
      destruct r1; inversion H; subst; try (destruct Hf; fail);
        exists 1, u2; (split; [cbn; rewrite H2; reflexivity|exact B]).
    - cbn [exec] in H. destruct (ex n a l t) as [[l1|e l1| |] t1] eqn:H1.
      + destruct (IH n Hn _ _ _ _ _ _ _ Ra A H1 I) as (m1 & t1' & G1 & A1).
        destruct (IH n Hn _ _ _ _ _ _ _ Rb A1 H Hf) as (m2 & t2' & G2 & A2).
        exists (Datatypes.S (m1 + m2)), t2'. split; [|exact A2]. cbn [exec].
        rewrite (up _ (m1 + m2) _ _ _ _ _ G1 I) by lia. apply (up _ _ _ _ _ _ _ G2 Hf). lia.
      + inversion H; subst. destruct (IH n Hn _ _ _ _ _ _ _ Ra A H1 I) as (m1 & t1' & G1 & A1).
        exists (Datatypes.S m1), t1'. split; [|exact A1]. cbn [exec]. rewrite G1. reflexivity.
      + inversion H; subst. destruct Hf.
      + inversion H; subst. destruct Hf.
    - cbn [exec] in H. destruct (b l) eqn:Hb.
      + destruct (IH n Hn _ _ _ _ _ _ _ Rx A H Hf) as (m1 & t1' & G1 & A1).
        exists (Datatypes.S m1), t1'. split; [|exact A1]. cbn [exec]. rewrite Hb. exact G1.
      + destruct (IH n Hn _ _ _ _ _ _ _ Ry A H Hf) as (m1 & t1' & G1 & A1).
        exists (Datatypes.S m1), t1'. split; [|exact A1]. cbn [exec]. rewrite Hb. exact G1.
    - cbn [exec] in H. destruct (b l) eqn:Hb.
      2: { inversion H; subst. exists 1, t'. split; [cbn; rewrite Hb; reflexivity|exact A]. }
      destruct (ex n x l t) as [[l1|e l1| |] t1] eqn:H1.
      + destruct (IH n Hn _ _ _ _ _ _ _ Rx A H1 I) as (m1 & t1' & G1 & A1).
        destruct (IH n Hn _ _ _ _ _ _ _ (R_while b _ _ Rx) A1 H Hf) as (m2 & t2' & G2 & A2).
        exists (Datatypes.S (m1 + m2)), t2'. split; [|exact A2]. cbn [exec]. rewrite Hb.
        rewrite (up _ (m1 + m2) _ _ _ _ _ G1 I) by lia. apply (up _ _ _ _ _ _ _ G2 Hf). lia.
      + inversion H; subst. destruct (IH n Hn _ _ _ _ _ _ _ Rx A H1 I) as (m1 & t1' & G1 & A1).
        exists (Datatypes.S m1), t1'. split; [|exact A1]. cbn [exec]. rewrite Hb, G1. reflexivity.
      + inversion H; subst. destruct Hf.
      + inversion H; subst. destruct Hf.
    - cbn [exec] in H. destruct (ex n x l t) as [[l1|e l1| |] t1] eqn:H1.
      + inversion H; subst. destruct (IH n Hn _ _ _ _ _ _ _ Rx A H1 I) as (m1 & t1' & G1 & A1).
        exists (Datatypes.S m1), t1'. split; [|exact A1]. cbn [exec]. rewrite G1. reflexivity.
      + destruct (IH n Hn _ _ _ _ _ _ _ Rx A H1 I) as (m1 & t1' & G1 & A1).
        destruct (IH n Hn _ _ _ _ _ _ _ (Rh e) A1 H Hf) as (m2 & t2' & G2 & A2).
        exists (Datatypes.S (m1 + m2)), t2'. split; [|exact A2]. cbn [exec].
        rewrite (up _ (m1 + m2) _ _ _ _ _ G1 I) by lia. apply (up _ _ _ _ _ _ _ G2 Hf). lia.
      + inversion H; subst. destruct Hf.
      + inversion H; subst. destruct Hf.
    - exists 1, t'. inversion H; subst. split; [reflexivity|exact A].
    - cbn [exec] in H. destruct (ex n a l t) as [[l1|e l1| |] t1] eqn:H1.
      + destruct (IH n Hn _ _ _ _ _ _ _ Ra A H1 I) as (m1 & t1' & G1 & A1).
        destruct (ex n b l1 t1) as [r2 t2] eqn:H2.
        assert (Hr2 : over r2) by (destruct r2; try exact I; inversion H; subst; destruct Hf).
        destruct (IH n Hn _ _ _ _ _ _ _ Rb A1 H2 Hr2) as (m2 & t2' & G2 & A2).
        pose proof (call_alike (closing v (i l)) t2 t2' A2) as B.
        destruct (std_call E (closing v (i l)) t2) as [r3 t3] eqn:H3.
        destruct (std_call E (closing v (i l)) t2') as [r3' t3'] eqn:H3'. destruct B as (<- & B).
        exists (Datatypes.S (m1 + m2)), t3'.
        assert (K : (f, u) = (r2, t3) /\ exists y, r3 = Ok y).
        { destruct r2, r3; inversion H; subst; try (destruct Hf; fail); eauto. }
        destruct K as (K & y & ->). inversion K; subst. split; [|exact B]. cbn [exec].
        rewrite (up _ (m1 + m2) _ _ _ _ _ G1 I) by lia.
        rewrite (up _ (m1 + m2) _ _ _ _ _ G2 Hr2) by lia. rewrite H3'.
        destruct r2; try (destruct Hr2; fail); reflexivity.
      + inversion H; subst. destruct (IH n Hn _ _ _ _ _ _ _ Ra A H1 I) as (m1 & t1' & G1 & A1).
        exists (Datatypes.S m1), t1'. split; [|exact A1]. cbn [exec]. rewrite G1. reflexivity.
      + inversion H; subst. destruct Hf.
      + inversion H; subst. destruct Hf.
    - cbn [exec] in H. destruct (ex n a l t) as [[l1|e l1| |] t1] eqn:H1.
      + destruct (IH n Hn _ _ _ _ _ _ _ Ra A H1 I) as (m1 & t1' & G1 & A1).
        destruct (ex n b l1 t1) as [r2 t2] eqn:H2.
        assert (Hr2 : over r2) by (destruct r2; try exact I; inversion H; subst; destruct Hf).
        destruct (IH n Hn _ _ _ _ _ _ _ Rb A1 H2 Hr2) as (m2 & t2' & G2 & A2).
        destruct r2 as [l2|e l2| |]; try (destruct Hr2; fail).
        { inversion H; subst. exists (Datatypes.S (m1 + m2)), t2'. split; [|exact A2]. cbn [exec].
          rewrite (up _ (m1 + m2) _ _ _ _ _ G1 I) by lia.
          rewrite (up _ (m1 + m2) _ _ _ _ _ G2 I) by lia. reflexivity. }
        pose proof (call_alike (closing v (i l)) t2 t2' A2) as B.
        destruct (std_call E (closing v (i l)) t2) as [r3 t3] eqn:H3.
        destruct (std_call E (closing v (i l)) t2') as [r3' t3'] eqn:H3'. destruct B as (<- & B).
        destruct r3; inversion H; subst; try (destruct Hf; fail).
        exists (Datatypes.S (m1 + m2)), t3'. split; [|exact B]. cbn [exec].
        rewrite (up _ (m1 + m2) _ _ _ _ _ G1 I) by lia.
        rewrite (up _ (m1 + m2) _ _ _ _ _ G2 I) by lia. rewrite H3'. reflexivity.
      + inversion H; subst. destruct (IH n Hn _ _ _ _ _ _ _ Ra A H1 I) as (m1 & t1' & G1 & A1).
        exists (Datatypes.S m1), t1'. split; [|exact A1]. cbn [exec]. rewrite G1. reflexivity.
      + inversion H; subst. destruct Hf.
      + inversion H; subst. destruct Hf.
    - cbn [exec] in H. destruct (ex n (procs p) (arg l) t) as [r1 t1] eqn:H1.
      assert (Hr1 : over r1) by (destruct r1; try exact I; inversion H; subst; destruct Hf).
      destruct (IH n Hn _ _ _ _ _ _ _ (Hprocs p) A H1 Hr1) as (m1 & t1' & G1 & A1).
      exists (Datatypes.S m1), t1'. cbn [exec]. rewrite G1.
      destruct r1; inversion H; subst; try (destruct Hr1; fail); auto.
    - (* the chain *)
      destruct Hs as [Sg Sp Sn].
      assert (Ni : forall b l, i (put b l) = i l) by (apply Sn; cbn; auto).
      assert (Nt : forall b l, tm (put b l) = tm l) by (apply Sn; cbn; auto).
      assert (Nk : forall b l, k (put b l) = k l) by (apply Sn; cbn; auto).
      clear Sn. destruct n as [|n]; [inversion H; subst; destruct Hf|].
      destruct n as [|n]; [inversion H; subst; destruct Hf|].
      change (ex (Datatypes.S (Datatypes.S (Datatypes.S n)))
                (CBlock tm false (code_and_then get put tm i q) (code_and_then get put k tm g)) l t)
        with (match ex (Datatypes.S (Datatypes.S n)) (code_and_then get put tm i q) l t with
              | (FNorm l1, s1) =>
                  let (r, s2) := ex (Datatypes.S (Datatypes.S n)) (code_and_then get put k tm g) l1 s1 in
                  match r with
                  | FNorm _ | FExn _ _ =>
                      match std_call E (ODtor (tm l)) s2 with
                      | (Ok _, s3) => (r, s3)
                      | (_, s3) => (FBad, s3)
                      end
                  | _ => (r, s2)
                  end
              | r => r
              end) in H.
      assert (X : ex (Datatypes.S (Datatypes.S n)) (code_and_then get put tm i q) l t =
                  match objs t (i l) with
                  | Some (SOpt (Some _)) => ex n q (put true l) t
                  | Some (SOpt None) => ex n (CCall (fun l _ => ODefault (tm l)) (fun _ l => l)) (put false l) t
                  | _ => (FBad, t)
                  end).
      { unfold code_and_then. cbn [exec]. rewrite call_has.
        destruct (objs t (i l)) as [[[v|]|v]|]; try reflexivity; cbn [some yes]; rewrite Sg; reflexivity. }
      rewrite X in H. clear X.
      assert (Y : forall m c, ex' (Datatypes.S (Datatypes.S m)) (code_and_then get put k i c) l t' =
                  match objs t' (i l) with
                  | Some (SOpt (Some _)) => ex' m c (put true l) t'
                  | Some (SOpt None) => ex' m (CCall (fun l _ => ODefault (k l)) (fun _ l => l)) (put false l) t'
                  | _ => (FBad, t')
                  end).
      { intros m c. unfold code_and_then. cbn [exec]. rewrite call_has.
        destruct (objs t' (i l)) as [[[v|]|v]|]; try reflexivity; cbn [some yes]; rewrite Sg; reflexivity. }
      rewrite <- (proj2 A) in Y.
      destruct (objs t (i l)) as [[[v|]|v]|] eqn:Hi; try (inversion H; subst; destruct Hf; fail).
      + (* the first callable runs *)
        assert (Rg' : refac (code_and_then get put k tm g) (code_and_then get put k tm g'))
          by (repeat constructor; exact Rg).
        assert (K : exists m u', ex' m (CBlock tm false q' (code_and_then get put k tm g')) (put true l) t' = (f, u') /\ alike u u').
        { destruct (ex n q (put true l) t) as [[l1|e l1| |] t1] eqn:H1;
            try (inversion H; subst; destruct Hf; fail).
          - assert (L1 : n < Datatypes.S (Datatypes.S (Datatypes.S n))) by lia.
            destruct (IH n L1 _ _ _ _ _ _ _ Rf A H1 I) as (m1 & t1' & G1 & A1).
            destruct (ex (Datatypes.S (Datatypes.S n)) (code_and_then get put k tm g) l1 t1) as [r2 t2] eqn:H2.
            assert (Hr2 : over r2) by (destruct r2; try exact I; inversion H; subst; destruct Hf).
            destruct (IH (Datatypes.S (Datatypes.S n)) Hn _ _ _ _ _ _ _ Rg' A1 H2 Hr2) as (m2 & t2' & G2 & A2).
            pose proof (call_alike (ODtor (tm l)) t2 t2' A2) as B.
            destruct (std_call E (ODtor (tm l)) t2) as [r3 t3] eqn:H3.
            destruct (std_call E (ODtor (tm l)) t2') as [r3' t3'] eqn:H3'. destruct B as (<- & B).
            exists (Datatypes.S (m1 + m2)), t3'.
            assert (K : (f, u) = (r2, t3) /\ exists y, r3 = Ok y).
            { destruct r2, r3; inversion H; subst; try (destruct Hf; fail); eauto. }
            destruct K as (K & y & ->). inversion K; subst. split; [|exact B]. cbn [exec].
            rewrite (up _ (m1 + m2) _ _ _ _ _ G1 I) by lia.
            rewrite (up _ (m1 + m2) _ _ _ _ _ G2 Hr2) by lia. unfold closing. rewrite Nt, H3'.
            destruct r2; try (destruct Hr2; fail); reflexivity.
          - inversion H; subst.
            assert (L1 : n < Datatypes.S (Datatypes.S (Datatypes.S n))) by lia.
            destruct (IH n L1 _ _ _ _ _ _ _ Rf A H1 I) as (m1 & t1' & G1 & A1).
            exists (Datatypes.S m1), t1'. split; [|exact A1]. cbn [exec]. rewrite G1. reflexivity. }
        destruct K as (m & u' & K & B). exists (Datatypes.S (Datatypes.S m)), u'.
        split; [|exact B]. rewrite Y. exact K.
      + (* there is nothing *)
        destruct n as [|n]; [inversion H; subst; destruct Hf|].
        cbn [exec] in H. rewrite call_default, Nt in H.
        destruct (objs t (tm l)) eqn:Ht; [inversion H; subst; destruct Hf|].
        cbn [code_and_then] in H. unfold code_and_then in H. cbn [exec] in H. rewrite call_has in H.
        cbn [objs sworld] in H. rewrite Nt in H. unfold upd in H at 1. rewrite Nat.eqb_refl in H.
        cbn [some yes] in H. rewrite Sg, Sp in H. cbn [exec] in H. rewrite call_default, Nk in H.
        cbn [objs sworld] in H.
        destruct (upd (objs t) (tm l) (Some (SOpt None)) (k l)) eqn:Hk; [inversion H; subst; destruct Hf|].
        assert (Hne : k l <> tm l).
        { intros X. rewrite X in Hk. unfold upd in Hk. rewrite Nat.eqb_refl in Hk. discriminate. }
        assert (Hk' : objs t (k l) = None).
        { unfold upd in Hk. destruct (Nat.eqb_spec (k l) (tm l)); [contradiction|].
          destruct (Nat.eqb_spec (tm l) (k l)); [congruence|exact Hk]. }
        set (t2 := MkS _ _) in H.
        assert (H2 : objs t2 (tm l) = Some (SOpt None)).
        { unfold t2. cbn. unfold upd. rewrite Nat.eqb_refl.
          destruct (Nat.eqb_spec (k l) (tm l)); [contradiction|].
          destruct (Nat.eqb_spec (tm l) (k l)); [congruence|reflexivity]. }
        rewrite (call_dtor_none _ _ H2) in H. inversion H; subst.
        exists 3, (MkS (upd (objs t') (k l) (Some (SOpt None))) (sworld t')). split.
        * rewrite (Y 1). cbn [exec]. rewrite call_default, Nk, <- (proj2 A), Hk'. reflexivity.
        * split; [exact Hw|]. intros j. unfold t2. cbn. unfold upd.
          rewrite <- (proj2 A).
          repeat (match goal with |- context [Nat.eqb ?a ?b] => destruct (Nat.eqb_spec a b) end); congruence.
  Qed.
End Refactor.

(** C60: in a program that is defined with std::optional and ends, any number of chained
    calls of and_then, in functions and callables too, may be rewritten into nested ones:
    the callables may be any code whatsoever.  With tiny optionals both versions end in the
    same way with the same local state, and the user's code and all optionals are left in
    the same state. *)
Theorem C60_chain_or_nest :
  forall W L (E : env W) (procs procs' : nat -> stmt W L) n c c' l w f t,
    env_ok E -> (forall p, stmt_ok (procs p)) -> stmt_ok c ->
    refac c c' -> (forall p, refac (procs p) (procs' p)) ->
    exec_std E procs n c l (sinit_state w) = (f, t) -> over f ->
    exists m s s',
      exec_tiny E procs n c l (init_state w) = (f, s) /\
      exec_tiny E procs' m c' l (init_state w) = (f, s') /\
      world s = sworld t /\ world s' = sworld t /\
      (forall i o, objs t i = Some (SOpt o) -> peek E i s = Some o /\ peek E i s' = Some o) /\
      (forall i, objs t i = None -> mem s i = None /\ mem s' i = None).
Proof.
  intros W L E procs procs' n c c' l w f t HE Hp Hc R Rp H Hf.
  destruct (refac_run E procs procs' Rp n _ _ _ _ _ _ _ R (alike_refl (sinit_state w)) H Hf) as (m & u & G & A).
  assert (Hb : f <> FBad) by (destruct f; [discriminate|discriminate|destruct Hf|destruct Hf]).
  destruct (C59_no_program_can_tell W L E procs n c l w f t HE Hp Hc H Hb) as (s & H1 & H2 & H3 & H4 & _).
  destruct (C59_no_program_can_tell W L E procs' m c' l w f u HE
              (fun p => refac_ok _ _ (Rp p) (Hp p)) (refac_ok _ _ R Hc) G Hb) as (s' & G1 & G2 & G3 & G4 & _).
  destruct A as (Aw & Ao).
  exists m, s, s'. split; [exact H1|]. split; [exact G1|]. split; [exact H2|]. split; [congruence|]. split.
  - intros i o Hi. split; [apply H3, Hi|]. apply G3. rewrite <- Ao. exact Hi.
  - intros i Hi. split; [apply H4, Hi|]. apply G4. rewrite <- Ao. exact Hi.
Qed.

(** A callable that resets the optional on which and_then was called, then calls and_then
    on another optional with a callable that throws, and catches the exception. *)
Section Example_.
  Definition at_ (n : nat) : frame -> loc := fun _ => n.
  Definition one (o : op sworld_t) : stmt sworld_t frame := CCall (fun _ _ => o) (fun _ l => l).
  Definition reenter : stmt sworld_t frame :=
    CSeq (one (OInPlace 0 (mkP 5 6)))
   (CSeq (one (OInPlace 2 (mkP 7 8)))
         (code_and_then f_has f_put (at_ 1) (at_ 0)
            (CSeq (one (OReset 0))
               (CTry (code_and_then f_has f_put (at_ 1) (at_ 2) (CThrow (fun _ => UserExn 4)))
                     (fun _ => one (OCopyCtor 1 2)))))).
  (** first(x) = a copy of *0; second resets its argument and returns a new value. *)
  Definition first_ : stmt sworld_t frame := one (OCopyCtor 2 0).
  Definition second_ : stmt sworld_t frame := CSeq (one (OReset 2)) (one (OInPlace 1 (mkP 3 1))).
  Definition chained : stmt sworld_t frame :=
    CSeq (one (OInPlace 0 (mkP 5 6)))
         (CBlock (at_ 2) false (code_and_then f_has f_put (at_ 2) (at_ 0) first_)
                               (code_and_then f_has f_put (at_ 1) (at_ 2) second_)).
  Definition nested : stmt sworld_t frame :=
    CSeq (one (OInPlace 0 (mkP 5 6)))
         (code_and_then f_has f_put (at_ 1) (at_ 0)
            (CBlock (at_ 2) false first_ (code_and_then f_has f_put (at_ 1) (at_ 2) second_))).
End Example_.

Example C60_example dbg :
  (match exec_tiny (sample dbg) (fun _ => CSkip) 20 reenter (MkF false []) (init_state quiet) with
   | (FNorm _, s) => peek (sample dbg) 0 s = Some None /\ peek (sample dbg) 1 s = peek (sample dbg) 2 s /\
                     exists v, peek (sample dbg) 1 s = Some (Some v)
   | _ => False
   end) /\
  stmt_ok reenter /\ stmt_ok chained /\ refac chained nested /\
  (match exec_std (sample dbg) (fun _ => CSkip) 20 chained (MkF false []) (sinit_state quiet) with
   | (FNorm _, t) => objs t 0 <> None /\ objs t 1 <> None /\ objs t 2 = None
   | _ => False
   end) /\
  (match exec_tiny (sample dbg) (fun _ => CSkip) 20 chained (MkF false []) (init_state quiet),
         exec_tiny (sample dbg) (fun _ => CSkip) 20 nested (MkF false []) (init_state quiet) with
   | (FNorm _, s), (FNorm _, s') =>
       peek (sample dbg) 1 s = peek (sample dbg) 1 s' /\ mem s 2 = None /\ mem s' 2 = None
   | _, _ => False
   end) /\
  e_tid (sample dbg) 1 = e_tid (sample dbg) 0.
Proof.
  split. { destruct dbg; vm_compute; repeat split; eexists; reflexivity. }
  split. { cbn. repeat split; intros; try discriminate. }
  split. { cbn. repeat split; intros; try discriminate. }
  split.
  { unfold chained, nested. apply R_seq; [apply R_call|]. apply R_chain.
    - split; try reflexivity. intros x [<-|[<-|[<-|[]]]]; reflexivity.
    - apply R_call.
    - apply R_seq; apply R_call. }
  split. { destruct dbg; vm_compute; repeat split; discriminate. }
  split; [|reflexivity]. destruct dbg; vm_compute; auto.
Qed.
