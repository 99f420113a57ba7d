(** * Worlds: user code that itself uses optionals, to any depth (C69)

    In the other files the code of the user behind the payload types (constructors,
    assignments, swap, destructors, comparisons, hash functions, callables) is an arbitrary
    function on the state of the user's world.  Here that world itself contains tiny
    optionals: caches, registries, nodes on the heap, whose payload types may again have user code
    that uses further optionals, and so on.  The same source program is run once with tiny
    optionals on all levels and once with std::optional on all levels. *)

From Coq Require Import List NArith ZArith Bool Arith Lia.
From Verif Require Import Cells CellsFacts Machine Optional Program Spec Laws Refine Contract SpecTac
  Effects Frame Lifetime Bits Manip Sample Histories ExampleTac Clients Data.
Import ListNotations.

Notation Suc := Datatypes.S.

(** ** Source code *)

(** The calls of Program.v and the descriptions of types of Machine.v, with user code written
    in some language [M]: [M A] is code that returns an [A]. *)
Section Source.
  Variable M : Type -> Type.

  (** [ini] (Machine.v): "construct a payload from these arguments" (optional.h:1043-1114). *)
  Record cini : Type := MkCini {
    n_src : option loc;
    n_const : bool;
    n_fun : rep -> M (res rep * rep)%type;
    n_nothrow : bool;
    n_more : list (loc * bool)
  }.
  (** [arg] (Machine.v): the argument of operator= (optional.h:1116-1133). *)
  Record carg : Type := MkCarg {
    g_ini : cini;
    g_assign : rep -> rep -> M (res unit * (rep * rep))%type;
    g_self : rep -> M (res unit * rep)%type
  }.
  (** [cmpops] (Optional.v): the comparisons of the payload types (optional.h:2437-2763). *)
  Record ccmp : Type := MkCcmp {
    p_rel : relop -> rep -> rep -> M (res bool);
    p_three : rep -> rep -> M (res ordering)
  }.
  (** [payops] (Machine.v): the special member functions of the payload type and its traits,
      as used in optional.h:978-1147. *)
  Record cpay : Type := MkCpay {
    y_copy : rep -> M (res rep);
    y_move : rep -> M (res rep * rep)%type;
    y_cassign : rep -> rep -> M (res unit * rep)%type;
    y_massign : rep -> rep -> M (res unit * (rep * rep))%type;
    y_self_cassign : rep -> M (res unit * rep)%type;
    y_self_massign : rep -> M (res unit * rep)%type;
    y_swap : rep -> rep -> M (res unit * (rep * rep))%type;
    y_self_swap : rep -> M (res unit * rep)%type;
    y_dtor : rep -> M unit;
    y_nt_copy : bool;
    y_nt_move : bool;
    y_nt_massign : bool;
    y_nt_swap : bool
  }.
  (** [optty] (optional.h:1390-1391) and [env] (Machine.v). *)
  Record cty : Type := MkCty { ct_dec : decomp; ct_man : manip; ct_pay : cpay }.
  Record cenv : Type := MkCenv { ce_tys : nat -> cty; ce_tid : loc -> nat; ce_dbg : bool }.
  (** [op] (Program.v): the calls of the API (optional.h:1390-1842, 2437-2809). *)
  Inductive cop : Type :=
  | PDefault (i : loc)
  | PNullopt (i : loc)
  | PInPlace (i : loc) (n : cini)
  | PCopyCtor (i j : loc)
  | PMoveCtor (i j : loc)
  | PDtor (i : loc)
  | PAssignNull (i : loc)
  | PAssign (i : loc) (a : carg)
  | PCopyAssign (i j : loc)
  | PMoveAssign (i j : loc)
  | PEmplace (i : loc) (n : cini)
  | PReset (i : loc)
  | PSwap (i j : loc)
  | PStdSwap (i j k : loc)
  | PHasValue (i : loc)
  | PBool (i : loc)
  | PAccess (k : accessor) (i : loc) (cst : bool) (f : rep -> M (res rep * rep)%type)
  | PValueOrCopy (i : loc) (d : cini)
  | PValueOrMove (i : loc) (d : cini)
  | PAndThen (k i : loc) (cst : bool) (f : rep -> M (res (option rep) * rep)%type)
  | PTransform (k i : loc) (cst : bool) (f : rep -> M (res rep * rep)%type) (nt : bool)
  | POrElse (k i : loc) (mv : bool) (f : M (res (option rep)))
  | PCompare (rt : route) (c : ccmp) (r : relop) (L R : operand)
  | PThreeWay (gcc : bool) (c : ccmp) (L R : operand)
  | PHash (h : rep -> M (res N)) (i : loc)
  | PVarNew (i : loc) (v : rep)
  | PVarDrop (i : loc).

  (** Code that uses the optionals with these types: it computes, makes calls, which may
      depend on all it saw before, and does other work on the world [M] works on.
      An exception that a call throws is passed to [k] (which may pass it on). *)
  Inductive code (A : Type) : Type :=
  | Done (a : A)
  | Call (o : cop) (k : obs -> code A)
  | Work (m : M obs) (k : obs -> code A).
End Source.
Arguments n_src {M} _. Arguments n_const {M} _. Arguments n_fun {M} _ _.
Arguments n_nothrow {M} _. Arguments n_more {M} _. Arguments MkCini {M} _ _ _ _ _.
Arguments g_ini {M} _. Arguments g_assign {M} _ _ _. Arguments g_self {M} _ _.
Arguments p_rel {M} _ _ _ _. Arguments p_three {M} _ _ _.
Arguments y_copy {M} _ _. Arguments y_move {M} _ _. Arguments y_cassign {M} _ _ _.
Arguments y_massign {M} _ _ _. Arguments y_self_cassign {M} _ _. Arguments y_self_massign {M} _ _.
Arguments y_swap {M} _ _ _. Arguments y_self_swap {M} _ _. Arguments y_dtor {M} _ _.
Arguments y_nt_copy {M} _. Arguments y_nt_move {M} _. Arguments y_nt_massign {M} _.
Arguments y_nt_swap {M} _. Arguments MkCpay {M} _ _ _ _ _ _ _ _ _ _ _ _ _.
Arguments ct_dec {M} _. Arguments ct_man {M} _. Arguments ct_pay {M} _. Arguments MkCty {M} _ _ _.
Arguments ce_tys {M} _ _. Arguments ce_tid {M} _ _. Arguments ce_dbg {M} _. Arguments MkCenv {M} _ _ _.
Arguments PDefault {M} i. Arguments PNullopt {M} i. Arguments PInPlace {M} i n.
Arguments PCopyCtor {M} i j. Arguments PMoveCtor {M} i j. Arguments PDtor {M} i.
Arguments PAssignNull {M} i. Arguments PAssign {M} i a. Arguments PCopyAssign {M} i j.
Arguments PMoveAssign {M} i j. Arguments PEmplace {M} i n. Arguments PReset {M} i.
Arguments PSwap {M} i j. Arguments PStdSwap {M} i j k. Arguments PHasValue {M} i.
Arguments PBool {M} i. Arguments PAccess {M} k i cst f. Arguments PValueOrCopy {M} i d.
Arguments PValueOrMove {M} i d. Arguments PAndThen {M} k i cst f. Arguments PTransform {M} k i cst f nt.
Arguments POrElse {M} k i mv f. Arguments PCompare {M} rt c r L R. Arguments PThreeWay {M} gcc c L R.
Arguments PHash {M} h i. Arguments PVarNew {M} i v. Arguments PVarDrop {M} i.
Arguments Done {M A} a. Arguments Call {M A} o k. Arguments Work {M A} m k.

(** ** Execution *)

(** User code in [M] runs on a world [W]: then types and calls are those of Machine.v and
    Program.v. *)
Section Translate.
  Context {M : Type -> Type} {W : Type}.
  Variable I : forall A, M A -> W -> A * W.

  (** As for [cini] etc. above. *)
  Definition t_ini (n : cini M) : ini W :=
    MkInis (n_src n) (n_const n) (fun x => I _ (n_fun n x)) (n_nothrow n) (n_more n).
  Definition t_arg (a : carg M) : arg W :=
    MkArg (t_ini (g_ini a)) (fun d x => I _ (g_assign a d x)) (fun d => I _ (g_self a d)).
  Definition t_cmp (c : ccmp M) : cmpops W :=
    MkCmp W (fun r a b => I _ (p_rel c r a b)) (fun a b => I _ (p_three c a b)).
  Definition t_pay (p : cpay M) : payops W :=
    MkPayOps W (fun v => I _ (y_copy p v)) (fun v => I _ (y_move p v))
      (fun d v => I _ (y_cassign p d v)) (fun d v => I _ (y_massign p d v))
      (fun v => I _ (y_self_cassign p v)) (fun v => I _ (y_self_massign p v))
      (fun a b => I _ (y_swap p a b)) (fun v => I _ (y_self_swap p v))
      (fun v w => snd (I _ (y_dtor p v) w))
      (y_nt_copy p) (y_nt_move p) (y_nt_massign p) (y_nt_swap p).
  Definition t_env (e : cenv M) : env W :=
    MkEnv W (fun t => MkOptTy W (ct_dec (ce_tys e t)) (ct_man (ce_tys e t)) (t_pay (ct_pay (ce_tys e t))))
      (ce_tid e) (ce_dbg e).
  Definition t_op (o : cop M) : op W :=
    match o with
    | PDefault i => ODefault i
    | PNullopt i => ONullopt i
    | PInPlace i n => OInPlace i (t_ini n)
    | PCopyCtor i j => OCopyCtor i j
    | PMoveCtor i j => OMoveCtor i j
    | PDtor i => ODtor i
    | PAssignNull i => OAssignNull i
    | PAssign i a => OAssign i (t_arg a)
    | PCopyAssign i j => OCopyAssign i j
    | PMoveAssign i j => OMoveAssign i j
    | PEmplace i n => OEmplace i (t_ini n)
    | PReset i => OReset i
    | PSwap i j => OSwap i j
    | PStdSwap i j k => OStdSwap i j k
    | PHasValue i => OHasValue i
    | PBool i => OBool i
    | PAccess k i c f => OAccess k i c (fun v => I _ (f v))
    | PValueOrCopy i n => OValueOrCopy i (t_ini n)
    | PValueOrMove i n => OValueOrMove i (t_ini n)
    | PAndThen k i c f => OAndThen k i c (fun v => I _ (f v))
    | PTransform k i c f nt => OTransform k i c (fun v => I _ (f v)) nt
    | POrElse k i mv f => OOrElse k i mv (I _ f)
    | PCompare rt c r L R => OCompare rt (t_cmp c) r L R
    | PThreeWay g c L R => OThreeWay g (t_cmp c) L R
    | PHash h i => OHash (fun v => I _ (h v)) i
    | PVarNew i v => OVarNew i v
    | PVarDrop i => OVarDrop i
    end.
End Translate.

(** Every call and every type of the model can be written. *)
Definition plain {W} : forall A, (W -> A * W) -> W -> A * W := fun _ m => m.
Theorem C69_every_call_can_be_written :
  forall W (o : op W), exists c : cop (fun A => W -> A * W), t_op plain c = o.
Proof.
  intros W.
  assert (Hi : forall n : ini W, exists m : cini (fun A => W -> A * W), t_ini plain m = n).
  { intros [a b c d e]. exists (MkCini a b c d e). reflexivity. }
  assert (Ha : forall n : arg W, exists m : carg (fun A => W -> A * W), t_arg plain m = n).
  { intros [n b c]. destruct (Hi n) as (m & <-). exists (MkCarg _ m b c). reflexivity. }
  assert (Hc : forall n : cmpops W, exists m : ccmp (fun A => W -> A * W), t_cmp plain m = n).
  { intros [a b]. exists (MkCcmp _ a b). reflexivity. }
  intros o. destruct o.
  all: try (destruct (Hi n) as (m & <-)); try (destruct (Hi d) as (m & <-)); try (destruct (Ha a) as (m & <-));
    try (destruct (Hc c) as (m & <-)).
  - exists (PDefault i). reflexivity.
  - exists (PNullopt i). reflexivity.
  - exists (PInPlace i m). reflexivity.
  - exists (PCopyCtor i j). reflexivity.
  - exists (PMoveCtor i j). reflexivity.
  - exists (PDtor i). reflexivity.
  - exists (PAssignNull i). reflexivity.
  - exists (PAssign i m). reflexivity.
  - exists (PCopyAssign i j). reflexivity.
  - exists (PMoveAssign i j). reflexivity.
  - exists (PEmplace i m). reflexivity.
  - exists (PReset i). reflexivity.
  - exists (PSwap i j). reflexivity.
  - exists (PStdSwap i j k). reflexivity.
  - exists (PHasValue i). reflexivity.
  - exists (PBool i). reflexivity.
  - exists (PAccess k i cst f). reflexivity.
  - exists (PValueOrCopy i m). reflexivity.
  - exists (PValueOrMove i m). reflexivity.
  - exists (PAndThen k i cst f). reflexivity.
  - exists (PTransform k i cst f nt). reflexivity.
  - exists (POrElse k i mv f). reflexivity.
  - exists (PCompare rt m r L R). reflexivity.
  - exists (PThreeWay gcc m L R). reflexivity.
  - exists (PHash h i). reflexivity.
  - exists (PVarNew i v). reflexivity.
  - exists (PVarDrop i). reflexivity.
Qed.
Theorem C69_every_type_can_be_written :
  forall W (E : env W), exists e : cenv (fun A => W -> A * W),
    e_tid (t_env plain e) = e_tid E /\ e_dbg (t_env plain e) = e_dbg E /\
    forall t, e_tys (t_env plain e) t = e_tys E t.
Proof.
  intros W E.
  exists (MkCenv (fun t => MkCty (ot_dec (e_tys E t)) (ot_man (e_tys E t))
     (let p := ot_ops (e_tys E t) in
      @MkCpay (fun A => W -> A * W) (po_copy p) (po_move p) (po_cassign p) (po_massign p) (po_self_cassign p) (po_self_massign p)
        (po_swap p) (po_self_swap p) (fun v w => (tt, po_dtor p v w))
        (po_nt_copy p) (po_nt_move p) (po_nt_massign p) (po_nt_swap p))) (e_tid E) (e_dbg E)).
  split; [reflexivity|]. split; [reflexivity|]. intros t. cbn. destruct (e_tys E t) as [D F p].
  destruct p. reflexivity.
Qed.

(** Which user code a type or a call contains: all of it satisfies [P]. *)
Section All.
  Context {M : Type -> Type}.
  Variable P : forall A, M A -> Prop.
  Definition ini_all (n : cini M) : Prop := forall x, P _ (n_fun n x).
  Definition arg_all (a : carg M) : Prop :=
    ini_all (g_ini a) /\ (forall d x, P _ (g_assign a d x)) /\ (forall d, P _ (g_self a d)).
  Definition cmp_all (c : ccmp M) : Prop :=
    (forall r a b, P _ (p_rel c r a b)) /\ (forall a b, P _ (p_three c a b)).
  Record pay_all (p : cpay M) : Prop := {
    al_copy : forall v, P _ (y_copy p v);
    al_move : forall v, P _ (y_move p v);
    al_cassign : forall d v, P _ (y_cassign p d v);
    al_massign : forall d v, P _ (y_massign p d v);
    al_self_cassign : forall v, P _ (y_self_cassign p v);
    al_self_massign : forall v, P _ (y_self_massign p v);
    al_swap : forall d v, P _ (y_swap p d v);
    al_self_swap : forall v, P _ (y_self_swap p v);
    al_dtor : forall v, P _ (y_dtor p v)
  }.
  Definition env_all (e : cenv M) : Prop := forall t, pay_all (ct_pay (ce_tys e t)).
  Definition op_all (o : cop M) : Prop :=
    match o with
    | PInPlace _ n | PEmplace _ n | PValueOrCopy _ n | PValueOrMove _ n => ini_all n
    | PAssign _ a => arg_all a
    | PAccess _ _ _ f => forall v, P _ (f v)
    | PAndThen _ _ _ f => forall v, P _ (f v)
    | PTransform _ _ _ f _ => forall v, P _ (f v)
    | POrElse _ _ _ f => P _ f
    | PCompare _ c _ _ _ | PThreeWay _ c _ _ => cmp_all c
    | PHash h _ => forall v, P _ (h v)
    | _ => True
    end.
End All.

(** The same types and calls with user code interpreted in two worlds: if the user code does
    the same, so do the types and the calls, in the sense of Data.v. *)
Section Both.
  Context {M : Type -> Type} {W1 W2 : Type}.
  Variable RW : W1 -> W2 -> Prop.
  Variable err : W2 -> bool.
  Variable I1 : forall A, M A -> W1 -> A * W1.
  Variable I2 : forall A, M A -> W2 -> A * W2.
  Variable P : forall A, M A -> Prop.
  Variable e : cenv M.
  Hypothesis IH1 : forall A (c : M A), P A c -> usim RW err eq (I1 A c) (I2 A c).
  Hypothesis IH2 : forall A (c : M A), P A c -> sticky err (I2 A c).
  Hypothesis HA : env_all P e.

  Notation tid := (ce_tid e).
  Notation RT := (fun _ : nat => @eq rep).

  Lemma usim_weak {A B} (RA RB : A -> B -> Prop) f1 f2 :
    (forall a b, RA a b -> RB a b) -> usim RW err RA f1 f2 ->
    usim RW err RB f1 f2.
  Proof. intros H U w v R B0 B1. destruct (U w v R B0 B1) as (U1 & U2). auto. Qed.

  Lemma rres_refl {A} (r : res A) : rres eq r r.
  Proof. destruct r; reflexivity. Qed.
  Lemma ropt_refl {A} (o : option A) : ropt eq o o.
  Proof. destruct o; reflexivity. Qed.
  Lemma more_eq (tid : loc -> nat) l : forall cs xs, more_rel tid (fun _ => eq) l cs xs -> cs = xs /\ length l = length xs.
  Proof.
    induction l as [|[j k] l IH]; intros [|c cs] [|x xs] H; try contradiction; [auto|].
    destruct H as (Hc & H). destruct (IH _ _ H) as (-> & L). rewrite Hc. cbn. auto.
  Qed.
  Lemma parted_len xs : forall x y, length (snd (parted x xs y)) = length xs.
  Proof.
    induction xs as [|x' xs IH]; intros x y; cbn; [reflexivity|].
    specialize (IH x' (skipn (length x) y)). destruct (parted x' xs _) as [a b]. cbn in *. auto.
  Qed.
  Lemma back_refl (tid : loc -> nat) l : forall cs, length l <= length cs -> back_more tid (fun _ => eq) l cs cs.
  Proof.
    induction l as [|[j k] l IH]; intros [|c cs] H; cbn in *; try exact I; try lia.
    split; [destruct k; [exact I|reflexivity]|apply IH; lia].
  Qed.

  Lemma u_eq {A} (RA : A -> A -> Prop) (c : M A) :
    (forall a, RA a a) -> P A c -> usim RW err RA (I1 A c) (I2 A c).
  Proof. intros H Hc. eapply usim_weak; [|apply IH1, Hc]. intros a b <-. apply H. Qed.

  Lemma l_pay i : psim RW err (Rv tid RT i) (ops (t_env I1 e) i) (ops (t_env I2 e) i).
  Proof.
    destruct (HA (tid i)).
    split; intros; repeat match goal with H : Rv _ _ _ _ _ |- _ => cbv [Rv] in H; subst end;
      [refine (u_eq (rres eq) _ _ (al_copy0 x))
      |refine (u_eq (rpair (rres eq) eq) _ _ (al_move0 x))
      |refine (u_eq (rpair (rres eq) eq) _ _ (al_cassign0 y x))
      |refine (u_eq (rpair (rres eq) (rpair eq eq)) _ _ (al_massign0 y x))
      |refine (u_eq (rpair (rres eq) eq) _ _ (al_self_cassign0 x))
      |refine (u_eq (rpair (rres eq) eq) _ _ (al_self_massign0 x))
      |refine (u_eq (rpair (rres eq) (rpair eq eq)) _ _ (al_swap0 y x))
      |refine (u_eq (rpair (rres eq) eq) _ _ (al_self_swap0 x))|].
    1-8: intros a; repeat split; apply rres_refl.
    - intros w v R B0 B1. cbn [fst snd] in *. split; [reflexivity|].
      apply (IH1 _ _ (al_dtor0 x) w v R B0 B1).
  Qed.
  Lemma l_sticky i : psticky err (ops (t_env I2 e) i).
  Proof.
    destruct (HA (tid i)). split; intros; try (apply IH2; auto).
  Qed.

  Lemma l_ini i (m : cini M) :
    ini_all P m -> rini RW err tid RT i (t_ini I1 m) (t_ini I2 m).
  Proof.
    intros H. split; [reflexivity|]. split; [reflexivity|]. split; [reflexivity|].
    split; [intros x; apply IH2, H|].
    intros c x cs xs Hc Hm. apply more_eq in Hm as (-> & L).
    assert (c = x) as -> by (cbn in Hc; destruct (n_src m); [exact Hc|destruct Hc; congruence]).
    refine (u_eq _ (n_fun m (joined x xs)) _ (H _)). intros a. split; [apply rres_refl|]. split.
    - unfold back_rel. cbn. destruct (n_src m); [destruct (n_const m)|]; auto. reflexivity.
    - apply back_refl. rewrite parted_len, L. lia.
  Qed.
  Lemma l_cmp (c : ccmp M) :
    cmp_all P c -> rcmp RW err (t_cmp I1 c) (t_cmp I2 c) eq eq.
  Proof.
    intros (H1 & H2). split; [intros r a b; exact (IH2 _ _ (H1 r a b))|]. split; [intros a b; exact (IH2 _ _ (H2 a b))|].
    split; [intros r a a' b b' <- <-; refine (u_eq _ _ _ (H1 r a b))|split; intros a a' b b' <- <-;
      [refine (u_eq _ _ _ (H2 a b))|refine (u_eq _ _ _ (H2 b a))]]; intros; apply rres_refl.
  Qed.
  Lemma l_oper (o : operand) : roper tid RT eq o o.
  Proof. destruct o; cbn; auto. apply ropt_refl. Qed.

  Lemma l_op (o : cop M) :
    op_all P o -> rop RW err tid RT (t_op I1 o) (t_op I2 o).
  Proof.
    intros H. destruct o; cbn [t_op rop op_all] in *; try (split; [reflexivity|]; apply l_ini, H);
      repeat match goal with |- ?a = ?b /\ _ => split; [reflexivity|] end; auto.
    - split; [apply l_ini, H|]. destruct H as (_ & H1 & H2).
      split; [intros d x; exact (IH2 _ _ (H1 d x))|]. split; [intros d; exact (IH2 _ _ (H2 d))|]. split.
      + intros d y c x Hd Hc. cbv [Rv] in Hd. subst d.
        assert (c = x) as ->
          by (cbn in Hc; destruct (n_src (g_ini a)); [exact Hc|destruct Hc; congruence]).
        refine (u_eq _ _ _ (H1 y x)). intros q. split; [apply rres_refl|]. split; [reflexivity|].
        unfold back_rel. cbn. destruct (n_src (g_ini a)); [destruct (n_const (g_ini a))|]; auto. reflexivity.
      + intros d y Hd. cbv [Rv] in Hd. subst d. refine (u_eq _ _ _ (H2 y)).
        intros q. split; [apply rres_refl|reflexivity].
    - split; [intros x; exact (IH2 _ _ (H x))|]. intros c x Hc. cbv [Rv] in Hc. subst c.
      refine (u_eq _ _ _ (H x)). intros q. split; [apply rres_refl|destruct cst; [exact I|reflexivity]].
    - split; [intros x; exact (IH2 _ _ (H x))|]. intros c x Hc. cbv [Rv] in Hc. subst c.
      refine (u_eq _ _ _ (H x)). intros q. split; [|destruct cst; [exact I|reflexivity]].
      destruct (fst q) as [v|]; cbn; [apply ropt_refl|reflexivity].
    - split; [intros x; exact (IH2 _ _ (H x))|]. intros c x Hc. cbv [Rv] in Hc. subst c.
      refine (u_eq _ _ _ (H x)). intros q. split; [apply rres_refl|destruct cst; [exact I|reflexivity]].
    - split; [exact (IH2 _ _ H)|]. refine (u_eq _ _ _ H).
      intros [v|]; cbn; [apply ropt_refl|reflexivity].
    - exists eq, eq. split; [apply l_cmp, H|]. split; apply l_oper.
    - exists eq, eq. split; [apply l_cmp, H|]. split; apply l_oper.
    - split; [intros x; exact (IH2 _ _ (H x))|]. intros c x Hc. cbv [Rv] in Hc. subst c.
      refine (u_eq _ _ _ (H x)). intros; apply rres_refl.
    - reflexivity.
  Qed.

  Lemma l_robs (o : op W1) x y : robs tid RT o x y -> x = y.
  Proof. destruct o; cbn; auto; destruct x, y; auto; cbv [Rv]; congruence. Qed.

  (** One call to std::optional. *)
  Lemma both_call (o : cop M) t1 t2 :
    op_all P o -> rs RW tid RT t1 t2 -> err (sworld t2) = false ->
    match std_call (t_env I2 e) (t_op I2 o) t2 with
    | (Dead _, _) => True
    | (r, t2') => err (sworld t2') = false ->
        exists t1', std_call (t_env I1 e) (t_op I1 o) t1 = (r, t1') /\ rs RW tid RT t1' t2'
    end.
  Proof.
    intros Ha Q B.
    assert (C := sim_step RW err tid (ops (t_env I1 e)) (ops (t_env I2 e))
                (storable (t_env I1 e)) (storable (t_env I2 e)) (is_value (t_env I1 e)) (is_value (t_env I2 e))
                RT l_pay l_sticky
                (fun i c x (E : c = x) => match E in _ = y return storable (t_env I2 e) i y = true -> storable (t_env I1 e) i c = true
                                          with eq_refl => fun H => H end)
                (fun i c x (E : c = x) => match E in _ = y return is_value (t_env I2 e) i y = true -> is_value (t_env I1 e) i c = true
                                          with eq_refl => fun H => H end)
                _ _ (l_op o Ha) t1 t2 Q B).
    unfold std_call. unfold bad in *. change (e_tid (t_env I1 e)) with tid. change (e_tid (t_env I2 e)) with tid.
    destruct (sstep tid (ops (t_env I2 e)) (storable (t_env I2 e)) (is_value (t_env I2 e)) (t_op I2 o) t2)
      as [[x|ex|] t2']; cbn [snd] in *; [| |exact I]; intros B2; specialize (C B2).
    - destruct C as (x' & t1' & -> & E & Q'). apply l_robs in E. subst x'. eauto.
    - destruct C as (t1' & -> & Q'). eauto.
  Qed.

  Lemma both_sticky (o : cop M) t :
    op_all P o -> err (sworld t) = true ->
    err (sworld (snd (std_call (t_env I2 e) (t_op I2 o) t))) = true.
  Proof.
    intros Ha B. pose proof (stk_step_op RW err tid (ops (t_env I2 e)) (storable (t_env I2 e)) (is_value (t_env I2 e))
      RT l_sticky _ _ (l_op o Ha) t B) as K. unfold std_call, bad in *.
    change (e_tid (t_env I2 e)) with tid.
    destruct (sstep tid _ _ _ _ t) as [[x|ex|] t2]; exact K.
  Qed.
End Both.

Section Levels.
  Variable W0 : Type.

  (** User code of level 0 works on a world [W0] without optionals; user code of level [n + 1]
      uses optionals the user code of which is of level [n]. *)
  Fixpoint lang (n : nat) : Type -> Type :=
    match n with
    | 0 => fun A => W0 -> A * W0
    | Suc n => code (lang n)
    end.

  (** The types of the optionals on each level. *)
  Variable types : forall n, cenv (lang n).

  (** The worlds: the optionals of a level are on top of the world that their user code
      works on.  The flag says that a call had undefined behaviour. *)
  Fixpoint tworld (n : nat) : Type :=
    match n with 0 => W0 | Suc n => (state (tworld n) * bool)%type end.
  Fixpoint sworlds (n : nat) : Type :=
    match n with 0 => W0 | Suc n => (sstate (sworlds n) * bool)%type end.

  (** With tiny optionals on all levels. *)
  Fixpoint tiny (n : nat) : forall A, lang n A -> tworld n -> A * tworld n :=
    match n with
    | 0 => fun A m => m
    | Suc n => fun A =>
        fix go (c : code (lang n) A) (w : state (tworld n) * bool) :=
          match c with
          | Done a => (a, w)
          | Call o k =>
              match step (t_env (tiny n) (types n)) (t_op (tiny n) o) (fst w) with
              | (Ok x, s) => go (k x) (s, snd w)
              | (Throw e, s) => go (k (ObThrow e)) (s, snd w)
              | (Dead _, s) => go (k ObUnit) (s, true)
              end
          | Work m k =>
              let (x, w') := tiny n _ m (world (fst w)) in
              go (k x) (MkState (mem (fst w)) w' (trace (fst w)), snd w)
          end
    end.
  Definition tiny_env (n : nat) : env (tworld n) := t_env (tiny n) (types n).

  (** With std::optional on all levels. *)
  Fixpoint std (n : nat) : forall A, lang n A -> sworlds n -> A * sworlds n :=
    match n with
    | 0 => fun A m => m
    | Suc n => fun A =>
        fix go (c : code (lang n) A) (w : sstate (sworlds n) * bool) :=
          match c with
          | Done a => (a, w)
          | Call o k =>
              match std_call (t_env (std n) (types n)) (t_op (std n) o) (fst w) with
              | (Ok x, s) => go (k x) (s, snd w)
              | (Throw e, s) => go (k (ObThrow e)) (s, snd w)
              | (Dead _, s) => go (k ObUnit) (s, true)
              end
          | Work m k =>
              let (x, w') := std n _ m (sworld (fst w)) in
              go (k x) (MkS (objs (fst w)) w', snd w)
          end
    end.
  Definition std_env (n : nat) : env (sworlds n) := t_env (std n) (types n).

  (** Some call on some level had undefined behaviour, or stored a sentinel. *)
  Fixpoint violated (n : nat) : sworlds n -> bool :=
    match n with
    | 0 => fun _ => false
    | Suc n => fun w => snd w || violated n (sworld (fst w))
    end.
  (** The beginning: no optionals. *)
  Fixpoint tstart (n : nat) (w : W0) : tworld n :=
    match n with 0 => w | Suc n => (init_state (tstart n w), false) end.
  Fixpoint sstart (n : nat) (w : W0) : sworlds n :=
    match n with 0 => w | Suc n => (sinit_state (sstart n w), false) end.

  (** On all levels: no call had undefined behaviour (which includes reads of uninitialised
      memory and violated lifetimes), has_value() and operator* show the same of all
      optionals, and all payloads ever constructed were destroyed exactly once, except for those
      that still exist; in [W0] everything is equal. *)
  Definition existing (x : option sobj) : nat :=
    match x with Some (SOpt (Some _)) | Some (SVar _) => 1 | _ => 0 end.
  Fixpoint looks_same (n : nat) : tworld n -> sworlds n -> Prop :=
    match n with
    | 0 => fun w v => w = v
    | Suc n => fun w v =>
        snd w = false /\
        (forall i o, objs (fst v) i = Some (SOpt o) -> peek (tiny_env n) i (fst w) = Some o) /\
        (forall i, life_of i (trace (fst w)) <> None /\
           count (is_pay_abandoned i) (trace (fst w)) = 0 /\
           count (is_pay_begin i) (trace (fst w)) =
             count (is_pay_end i) (trace (fst w)) + existing (objs (fst v) i)) /\
        looks_same n (world (fst w)) (sworld (fst v))
    end.

  (** Operations declared nothrow do not throw, in all the code. *)
  Fixpoint code_ok (n : nat) : forall A, lang n A -> Prop :=
    match n with
    | 0 => fun A _ => True
    | Suc n => fun A =>
        fix go (c : code (lang n) A) : Prop :=
          match c with
          | Done _ => True
          | Call o k => op_ok (t_op (tiny n) o) /\ op_all (code_ok n) o /\ forall x, go (k x)
          | Work m k => code_ok n _ m /\ forall x, go (k x)
          end
    end.
  Definition types_ok (n : nat) : Prop :=
    forall k, k < n -> env_ok (tiny_env k) /\ env_all (code_ok k) (types k).

  (** ** Proof *)

  (** The relation between the worlds. *)
  Fixpoint corr (n : nat) : tworld n -> sworlds n -> Prop :=
    match n with
    | 0 => fun w v => w = v
    | Suc n => fun w v =>
        snd w = false /\ accounted (tiny_env n) (fst w) /\
        exists t, rel (tiny_env n) NoHole (fst w) t /\
                  rs (corr n) (ce_tid (types n)) (fun _ => eq) t (fst v)
    end.

  Section Step.
    Variable n : nat.
    (** The user code of level [n] does the same. *)
    Hypothesis IH1 : forall A (c : lang n A), code_ok n A c -> usim (corr n) (violated n) eq (tiny n A c) (std n A c).
    Hypothesis IH2 : forall A (c : lang n A), code_ok n A c -> sticky (violated n) (std n A c).
    Hypothesis HE : env_ok (tiny_env n).
    Hypothesis HA : env_all (code_ok n) (types n).

    (** One call. *)
    Lemma l_call (o : cop (lang n)) s b (v : sworlds (Suc n)) :
      op_ok (t_op (tiny n) o) -> op_all (code_ok n) o ->
      corr (Suc n) (s, b) v -> violated (Suc n) v = false ->
      match std_call (std_env n) (t_op (std n) o) (fst v) with
      | (Dead _, _) => True
      | (r, t) => violated n (sworld t) = false ->
          exists s', step (tiny_env n) (t_op (tiny n) o) s = (r, s') /\ corr (Suc n) (s', b) (t, snd v)
      end.
    Proof.
      intros Ho Ha (Hb & Hl & t1 & R & Q) B.
      assert (Hl2 := step_accounted (tiny_env n) (t_op (tiny n) o) s Hl). cbn [fst snd] in *. cbn in B. apply orb_false_iff in B as (_ & B).
      assert (D := refines_step (tiny_env n) HE _ Ho s t1 R).
      assert (C := both_call (corr n) (violated n) (tiny n) (std n) (code_ok n) (types n) IH1 IH2 HA o t1 (fst v) Ha Q B).
      fold (std_env n) (tiny_env n) in C. unfold agrees in D.
      destruct (std_call (std_env n) (t_op (std n) o) (fst v)) as [[x|e|f] t2]; [| |exact I]; intros B2; specialize (C B2).
      all: destruct C as (t1' & C & Q').
      all: unfold std_call in C;
        destruct (sstep (e_tid (tiny_env n)) _ _ _ _ t1) as [[x'|e'|] t1'']; try discriminate C;
        injection C as E1 E2; rewrite E1, E2 in D.
      all: destruct D as (s' & D & R'); exists s'; split; [exact D|]; split; [exact Hb|];
        split; [rewrite D in Hl2; exact Hl2|]; exists t1'; split; [exact R'|exact Q'].
    Qed.

    Lemma l_call_sticky (o : cop (lang n)) t :
      op_all (code_ok n) o -> violated n (sworld t) = true ->
      violated n (sworld (snd (std_call (std_env n) (t_op (std n) o) t))) = true.
    Proof. exact (both_sticky (corr n) (violated n) (tiny n) (std n) (code_ok n) (types n) IH1 IH2 HA o t). Qed.
  End Step.

  Lemma world_rel {W} (E : env W) s t w :
    rel E NoHole s t -> rel E NoHole (MkState (mem s) w (trace s)) (MkS (objs t) w).
  Proof. intros (_ & A & R). split; [reflexivity|]. split; [exact A|exact R]. Qed.

  Lemma tiny_call n A o (k : obs -> lang (Suc n) A) (w : tworld (Suc n)) :
    tiny (Suc n) A (Call o k) w =
    match step (tiny_env n) (t_op (tiny n) o) (fst w) with
    | (Ok x, s) => tiny (Suc n) A (k x) (s, snd w)
    | (Throw e, s) => tiny (Suc n) A (k (ObThrow e)) (s, snd w)
    | (Dead _, s) => tiny (Suc n) A (k ObUnit) (s, true)
    end.
  Proof. reflexivity. Qed.
  Lemma std_calls n A o (k : obs -> lang (Suc n) A) (w : sworlds (Suc n)) :
    std (Suc n) A (Call o k) w =
    match std_call (std_env n) (t_op (std n) o) (fst w) with
    | (Ok x, s) => std (Suc n) A (k x) (s, snd w)
    | (Throw e, s) => std (Suc n) A (k (ObThrow e)) (s, snd w)
    | (Dead _, s) => std (Suc n) A (k ObUnit) (s, true)
    end.
  Proof. reflexivity. Qed.
  Lemma tiny_work n A (m : lang n obs) (k : obs -> lang (Suc n) A) s b x w :
    tiny n obs m (world s) = (x, w) ->
    tiny (Suc n) A (Work m k) (s, b) = tiny (Suc n) A (k x) (MkState (mem s) w (trace s), b).
  Proof. intros H. cbn. rewrite H. reflexivity. Qed.
  Lemma std_work n A (m : lang n obs) (k : obs -> lang (Suc n) A) t b x w :
    std n obs m (sworld t) = (x, w) ->
    std (Suc n) A (Work m k) (t, b) = std (Suc n) A (k x) (MkS (objs t) w, b).
  Proof. intros H. cbn. rewrite H. reflexivity. Qed.

  Lemma same_code n :
    types_ok n ->
    forall A (c : lang n A), code_ok n A c ->
      usim (corr n) (violated n) eq (tiny n A c) (std n A c) /\ sticky (violated n) (std n A c).
  Proof.
    induction n as [|n IH]; intros HT A c Hc.
    - split.
      + intros w v R B0 B1. cbn in *. subst v. split; reflexivity.
      + intros v H. discriminate.
    - assert (HT' : types_ok n) by (intros k Hk; apply HT; lia).
      specialize (IH HT'). destruct (HT n (Nat.lt_succ_diag_r n)) as (HE & HA).
      assert (IH1 := fun A c H => proj1 (IH A c H)). assert (IH2 := fun A c H => proj2 (IH A c H)).
      assert (KK : forall (c : lang (Suc n) A), code_ok (Suc n) A c -> sticky (violated (Suc n)) (std (Suc n) A c)).
      { clear c Hc. intros c. induction c as [a|o k IHk|m k IHk]; intros Hc [t b] B.
        - exact B.
        - destruct Hc as (H1 & H2 & H3).
          pose proof (l_call_sticky n IH1 IH2 HA o t H2) as K. cbn [violated snd fst] in B.
          rewrite std_calls. cbn [fst snd].
          destruct (std_call (std_env n) (t_op (std n) o) t) as [[x|e|f] t2]; cbn [snd] in *.
          + apply (IHk x (H3 x)). cbn. destruct b; [reflexivity|]. apply K, B.
          + apply (IHk _ (H3 _)). cbn. destruct b; [reflexivity|]. apply K, B.
          + apply (IHk _ (H3 _)). reflexivity.
        - destruct Hc as (H1 & H2).
          pose proof (IH2 _ m H1 (sworld t)) as K. cbn [violated snd fst] in B.
          destruct (std n obs m (sworld t)) as [x w'] eqn:Es. rewrite (std_work _ _ _ _ _ _ _ _ Es). apply (IHk x (H2 x)). cbn in *.
          destruct b; [reflexivity|]. apply K, B. }
      split; [|apply KK, Hc].
      induction c as [a|o k IHk|m k IHk]; intros [s b] [t d] R B0 B1.
      + split; [reflexivity|exact R].
      + destruct Hc as (H1 & H2 & H3).
        pose proof (l_call n IH1 IH2 HE HA o s b (t, d) H1 H2 R B0) as C. cbn [fst snd] in *.
        rewrite std_calls in B1 |- *. rewrite tiny_call. cbn [fst snd] in *.
        assert (ND : forall x t2, violated (Suc n) (snd (std (Suc n) A (k x) (t2, d))) = false ->
                     violated n (sworld t2) = false).
        { intros x t2 B2. destruct (violated n (sworld t2)) eqn:V; [|reflexivity].
          pose proof (KK (k x) (H3 x) (t2, d)) as K. rewrite K in B2; [discriminate|].
          cbn. rewrite V. apply orb_true_r. }
        destruct (std_call (std_env n) (t_op (std n) o) t) as [[x|e|f] t2].
        * pose proof (ND x t2 B1) as V. destruct (C V) as (s' & -> & R').
          apply (IHk x (H3 x) (s', b) (t2, d) R'); [|exact B1]. cbn. rewrite V.
          cbn in B0. apply orb_false_iff in B0 as (-> & _). reflexivity.
        * pose proof (ND _ t2 B1) as V. destruct (C V) as (s' & -> & R').
          apply (IHk _ (H3 _) (s', b) (t2, d) R'); [|exact B1]. cbn. rewrite V.
          cbn in B0. apply orb_false_iff in B0 as (-> & _). reflexivity.
        * exfalso. pose proof (KK (k ObUnit) (H3 _) (t2, true)) as K.
          rewrite (K eq_refl) in B1. discriminate.
      + destruct Hc as (H1 & H2). destruct R as (Hb & Hl & t1 & R & Q). cbn [fst snd] in *.
        assert (Bd : d = false /\ violated n (sworld t) = false) by (apply orb_false_iff, B0).
        pose proof (rel_world _ _ _ R) as Hw. destruct Q as (Qw & Qo). rewrite <- Hw in Qw.
        pose proof (IH1 _ m H1 (world s) (sworld t) Qw (proj2 Bd)) as U.
        destruct (std n obs m (sworld t)) as [x w'] eqn:Es. cbn [fst snd] in U.
        rewrite (std_work _ _ _ _ _ _ _ _ Es) in B1 |- *.
        assert (V : violated n w' = false).
        { destruct (violated n w') eqn:V; [|reflexivity].
          pose proof (KK (k x) (H2 x) (MkS (objs t) w', d)) as K. rewrite K in B1; [discriminate|].
          cbn. rewrite V. apply orb_true_r. }
        destruct (tiny n obs m (world s)) as [x' w1] eqn:Et. rewrite (tiny_work _ _ _ _ _ _ _ _ Et). destruct (U V) as (E & Rw). cbn in E. subst x'.
        apply (IHk x (H2 x)); [|cbn; rewrite V; destruct Bd as (-> & _); reflexivity|exact B1].
        split; [exact Hb|]. split; [exact Hl|]. exists (MkS (objs t1) w1). cbn [fst snd].
        split; [apply (world_rel _ s t1 w1 R)|]. split; [exact Rw|exact Qo].
  Qed.

  Lemma corr_start n w : corr n (tstart n w) (sstart n w).
  Proof.
    induction n as [|n IH]; cbn; [reflexivity|]. split; [reflexivity|].
    split; [apply init_accounted|]. exists (sinit_state (tstart n w)). split; [apply rel_init|]. split; [exact IH|]. intros i. exact I.
  Qed.
  Lemma start_fine n w : violated n (sstart n w) = false.
  Proof. induction n; cbn; auto. Qed.
  Lemma balance {W} (E : env W) s t x i :
    accounted E s -> rel E NoHole s t -> existing x = existing (objs t i) ->
    life_of i (trace s) <> None /\
    count (is_pay_abandoned i) (trace s) = 0 /\
    count (is_pay_begin i) (trace s) = count (is_pay_end i) (trace s) + existing x.
  Proof.
    intros A (_ & Hn & R) ->. destruct (A i) as (Hl & _). split; [congruence|].
    assert (Hz : count (is_pay_abandoned i) (trace s) = 0).
    { unfold count, no_abandon in *.
      destruct (filter (is_pay_abandoned i) (trace s)) as [|e l] eqn:F; [reflexivity|].
      assert (In e (filter (is_pay_abandoned i) (trace s))) as He by (rewrite F; left; reflexivity).
      apply filter_In in He as (He & Hb). destruct e; try discriminate. exfalso. eapply Hn, He. }
    split; [exact Hz|]. destruct (life_balance _ _ _ Hl) as (Hb & _). rewrite Hz in Hb.
    specialize (R i). unfold rel_at, robj, current in *.
    destruct (objs t i) as [[[v|]|v]|].
    - destruct R as (c & E1 & _). rewrite E1 in Hb. cbn in *. lia.
    - destruct R as (c & E1 & _). rewrite E1 in Hb. cbn in *. destruct (negb _) in Hb; cbn in Hb; lia.
    - destruct R as (E1 & _). rewrite E1 in Hb. cbn in *. lia.
    - rewrite R in Hb. cbn in *. lia.
  Qed.
  Lemma corr_looks n : types_ok n -> forall w v, corr n w v -> looks_same n w v.
  Proof.
    induction n as [|n IH]; intros HT w v R; [exact R|].
    destruct w as [s b], v as [v d]. cbn [fst snd] in R.
    destruct R as (Hb & Hl & t & R & Qw & Qo). split; [exact Hb|]. split; [|split].
    - intros i o Ho. change (@objs (sworlds n) v i = Some (SOpt o)) in Ho.
      specialize (Qo i). cbn [fst] in Qo. rewrite Ho in Qo.
      destruct (objs t i) as [[o1|x]|] eqn:H1; try contradiction.
      assert (o1 = o) as -> by (destruct o1, o; cbn in Qo; try contradiction; congruence).
      exact (peek_rel (tiny_env n) s t i o R H1).
    - intros i. cbn [fst] in *. change (@fst _ bool (s, b)) with s.
      change (@objs (sworlds n) (fst (v, d)) i) with (@objs (sworlds n) v i).
      apply (balance (tiny_env n) s t (@objs (sworlds n) v i) i Hl R).
      specialize (Qo i). cbn [fst] in Qo.
      destruct (objs t i) as [[[x|]|x]|], (@objs (sworlds n) v i) as [[[y|]|y]|]; cbn in Qo; try contradiction;
        reflexivity.
    - apply IH; [intros k Hk; apply HT; lia|]. pose proof (rel_world _ _ _ R) as Hw.
      cbn [fst] in Hw. rewrite <- Hw in Qw. exact Qw.
  Qed.
End Levels.

(** C69.  Code of any depth behaves with tiny optionals on all levels as with std::optional
    on all levels, as long as with std::optional no call on any level has undefined
    behaviour or stores a sentinel.  It returns the same; in the end the world without
    optionals is the same, and so are all optionals on all levels; no call with tiny optionals
    had undefined behaviour, and on every level every payload that no longer exists was
    destroyed exactly once. *)
Theorem C69_any_depth :
  forall W0 types n A (c : lang W0 n A) w a v,
    types_ok W0 types n -> code_ok W0 types n A c ->
    std W0 types n A c (sstart W0 n w) = (a, v) -> violated W0 n v = false ->
    exists w', tiny W0 types n A c (tstart W0 n w) = (a, w') /\ looks_same W0 types n w' v.
Proof.
  intros W0 types n A c w a v HT Hc Hs B.
  destruct (same_code W0 types n HT A c Hc) as (U & _).
  specialize (U _ _ (corr_start W0 types n w) (start_fine W0 n w)). rewrite Hs in U. cbn [fst snd] in U.
  destruct (U B) as (E & R). destruct (tiny W0 types n A c (tstart W0 n w)) as [a' w']. cbn in *. subst a'.
  exists w'. split; [reflexivity|]. apply corr_looks; assumption.
Qed.
Print Assumptions C69_any_depth.

(** ** A case *)

Definition give {W0} (n : nat) {A} (a : A) : lang W0 n A :=
  match n with 0 => fun w => (a, w) | Suc n => Done a end.

(** A class whose constructors remember the constructed value in an optional (number 10, with a
    sentinel) of the level below, where that happens again, and so on; on level 0 user code
    throws according to a schedule.  Every level passes the exception on. *)
Fixpoint remember (n : nat) (v : rep) : lang sworld_t n (res rep * rep) :=
  match n with
  | 0 => fun w => let (r, w') := user v w in ((r, []), w')
  | Suc n =>
      Call (PEmplace 10 (MkCini None false (fun _ => remember n v) false []))
           (fun x => match x with ObThrow e => Done (RThrow e, []) | _ => Done (ROk v, []) end)
  end.
(** The copy constructor does the same, all else is plain. *)
Definition recopy (n : nat) (v : rep) : lang sworld_t n (res rep) :=
  match n with
  | 0 => fun w => user v w
  | Suc n =>
      Call (PEmplace 10 (MkCini None false (fun _ => remember n v) false []))
           (fun x => match x with ObThrow e => Done (RThrow e) | _ => Done (ROk v) end)
  end.
Definition re_pay (n : nat) : cpay (lang sworld_t n) :=
  MkCpay (recopy n) (fun v => give n (ROk v, moved v))
    (fun d v => give n (ROk tt, v)) (fun d v => give n (ROk tt, (v, moved v)))
    (fun v => give n (ROk tt, v)) (fun v => give n (ROk tt, v))
    (fun a b => give n (ROk tt, (b, a))) (fun v => give n (ROk tt, v)) (fun v => give n tt)
    false true true true.
Definition re_types (dbg : bool) (n : nat) : cenv (lang sworld_t n) :=
  MkCenv (fun t => MkCty (ot_dec (sample_tys t)) (ot_man (sample_tys t)) (re_pay n)) (fun i => i / 10) dbg.

Lemma give_fst {W0} (ty : forall n, cenv (lang W0 n)) n A (a : A) w : fst (tiny W0 ty n A (give n a) w) = a.
Proof. destruct n; reflexivity. Qed.
Lemma give_ok {W0} (ty : forall n, cenv (lang W0 n)) n A (a : A) : code_ok W0 ty n A (give n a).
Proof. destruct n; exact I. Qed.
Lemma remember_ok dbg n v : code_ok _ (re_types dbg) n _ (remember n v).
Proof.
  revert v. induction n as [|n IH]; intros v; [exact I|].
  cbn [remember code_ok]. split; [discriminate|]. split; [intros x; apply IH|].
  intros []; exact I.
Qed.
Lemma recopy_ok dbg n v : code_ok _ (re_types dbg) n _ (recopy n v).
Proof.
  destruct n as [|n]; [exact I|]. split; [discriminate|]. split; [intros x; apply remember_ok|].
  intros []; exact I.
Qed.
Lemma re_types_ok dbg n : types_ok _ (re_types dbg) n.
Proof.
  intros k _. split.
  - intros t. destruct (sample_ok true t) as [H1 H2 _]. split; [exact H1|exact H2|].
    split; cbn -[give]; intros; try discriminate; rewrite give_fst; exact I.
  - intros t. split; intros; try apply give_ok. apply recopy_ok.
Qed.

(** Create optional 10 on all levels, the lowest first; then remember [v]. *)
Fixpoint create (n : nat) : lang sworld_t n obs :=
  match n with
  | 0 => fun w => (ObUnit, w)
  | Suc n => Work (create n) (fun _ => Call (PDefault 10) (fun x => Done x))
  end.
Definition re_main (n : nat) (v : rep) : lang sworld_t (Suc n) (res rep) :=
  Work (create n) (fun _ => Call (PDefault 10) (fun _ => recopy (Suc n) v)).
Lemma create_ok dbg n : code_ok _ (re_types dbg) n _ (create n).
Proof. induction n as [|n IH]; [exact I|]. cbn. auto. Qed.
Lemma re_main_ok dbg n v : code_ok _ (re_types dbg) (Suc n) _ (re_main n v).
Proof.
  split; [apply create_ok|]. intros _. split; [exact I|]. split; [exact I|]. intros _. exact (recopy_ok dbg (Suc n) v).
Qed.

(** Optional 10 exists on all levels; it contains [v]; no call had undefined behaviour. *)
Fixpoint all10 (P : option rep -> Prop) (n : nat) : sworlds sworld_t n -> Prop :=
  match n with
  | 0 => fun _ => True
  | Suc n => fun w => snd w = false /\ (exists o, objs (fst w) 10 = Some (SOpt o) /\ P o) /\
                      all10 P n (sworld (fst w))
  end.
Fixpoint bottom (n : nat) : sworlds sworld_t n -> sworld_t :=
  match n with 0 => fun w => w | Suc n => fun w => bottom n (sworld (fst w)) end.

Section AllDepths.
  Variable dbg : bool.
  Variables x y : Z.
  Hypothesis Hx : x <> 0%Z.
  Let v : rep := [Atom x; Atom y].
  Let ty := re_types dbg.

  Lemma stor10 n : storable (std_env _ ty n) 10 v = true.
  Proof.
    unfold storable, v. cbn. destruct (Z.eqb_spec x 0); [contradiction|reflexivity].
  Qed.
  Lemma dtor10 n c w : po_dtor (ops (std_env _ ty n) 10) c w = w.
  Proof. destruct n; reflexivity. Qed.

  (** Optional 10 of a level is emplaced. *)
  Lemma emplace10 n (t : sstate (sworlds sworld_t n)) o w r :
    objs t 10 = Some (SOpt o) -> std _ ty n _ (remember n v) (sworld t) = ((r, []), w) ->
    (r = ROk v \/ exists e, r = RThrow e) ->
    exists t',
      std_call (std_env _ ty n)
        (t_op (std _ ty n) (PEmplace 10 (MkCini None false (fun _ => remember n v) false []))) t =
        (match r with ROk _ => Ok ObUnit | RThrow e => Throw e end, t') /\
      objs t' 10 = Some (SOpt (match r with ROk _ => Some v | RThrow _ => None end)) /\ sworld t' = w.
  Proof.
    intros Ho Hm Hr. unfold std_call. cbn [t_op sstep]. unfold sunit, s_emplace, s_clear, sinit, become.
    assert (Hd : forall c, sdestroy (ops (std_env _ ty n)) 10 c t = (SOk tt, MkS (objs t) (sworld t))).
    { intros c. unfold sdestroy, suser. rewrite dtor10. reflexivity. }
    unfold sbind at 1 2 3. unfold contents at 1. rewrite Ho.
    assert (K : exists t0, (match o with Some c => sdestroy (ops (std_env _ ty n)) 10 c ;;; sset 10 (Some (SOpt None))
                                    | None => sret tt end) t = (SOk tt, t0) /\
                           objs t0 10 = Some (SOpt None) /\ sworld t0 = sworld t).
    { destruct o as [c|].
      - unfold sbind. rewrite Hd. eexists. split; [reflexivity|]. cbn. auto.
      - exists t. auto. }
    destruct K as (t0 & K0 & K1 & K2). unfold become in *.
    replace ((match o with Some v0 => sdestroy (ops (std_env _ ty n)) 10 v0 ;;; sset 10 (Some (SOpt None))
                      | None => sret tt end) t) with (@SOk unit tt, t0).
    cbn [t_ini i_src i_more i_fun i_const n_src n_more n_fun n_const].
    unfold sbind, sret, suser. cbn [sread_more]. unfold sret. cbn [joined]. rewrite K2, Hm.
    cbn [fst snd parted swrite_more]. unfold sret.
    destruct Hr as [->|(e & ->)]; cbn [sres].
    - unfold sret. rewrite stor10. eexists. split; [reflexivity|]. cbn. auto.
    - unfold sthrow. eexists. split; [reflexivity|]. cbn. auto.
  Qed.

  Lemma user_cases w : fst (user v w) = ROk v \/ exists e, fst (user v w) = RThrow e.
  Proof. unfold user. destruct (sched w) as [|[k|] l]; cbn; eauto. Qed.

  Definition left_in (r : res rep) (o : option rep) : Prop :=
    match r with ROk _ => o = Some v | RThrow _ => o = None end.

  Lemma remember_std n : forall w,
    all10 (fun _ => True) n w ->
    exists w', std _ ty n _ (remember n v) w = ((fst (user v (bottom n w)), []), w') /\
      bottom n w' = snd (user v (bottom n w)) /\ all10 (left_in (fst (user v (bottom n w)))) n w'.
  Proof.
    induction n as [|n IH]; intros w Hw.
    - cbn in *. exists (snd (user v w)). destruct (user v w). auto.
    - destruct w as [t b]. destruct Hw as (Hb & (o & Ho & _) & Hw). cbn [fst snd] in *. subst b.
      destruct (IH (@sworld (sworlds sworld_t n) t) Hw) as (w' & H1 & H2 & H3).
      destruct (emplace10 n t o w' _ Ho H1 (user_cases _)) as (t' & H4 & H5 & H6).
      assert (Hu := user_cases (bottom n (sworld t))).
      cbn [remember]. rewrite std_calls. cbn [fst snd].
      change (bottom (Suc n) (t, false)) with (bottom n (sworld t)).
      rewrite H4. exists (t', false).
      clear H1 H4. revert H3 H5 Hu. generalize (fst (user v (bottom n (sworld t)))). intros r H3 H5 Hu.
      split; [destruct Hu as [->|(e & ->)]; reflexivity|].
      change (bottom (Suc n) (t', false)) with (bottom n (@sworld (sworlds sworld_t n) t')). rewrite H6.
      split; [exact H2|]. split; [reflexivity|].
      split; [|change (all10 (left_in r) n (@sworld (sworlds sworld_t n) t')); rewrite H6; exact H3].
      eexists. split; [exact H5|]. destruct r; reflexivity.
  Qed.
  Lemma create_std n w : exists w',
    std _ ty n _ (create n) (sstart _ n w) = (ObUnit, w') /\ bottom n w' = w /\ all10 (fun o => o = None) n w'.
  Proof.
    induction n as [|n (w' & H1 & H2 & H3)]; [exists w; repeat split|].
    cbn [create sstart]. erewrite std_work; [|exact H1]. rewrite std_calls.
    eexists. split; [reflexivity|]. split; [exact H2|]. split; [reflexivity|]. split; [|exact H3].
    eexists. split; reflexivity.
  Qed.
  Lemma all10_weak (P Q : option rep -> Prop) n w :
    (forall o, P o -> Q o) -> all10 P n w -> all10 Q n w.
  Proof.
    intros H. induction n as [|n IH]; cbn; [auto|]. intros (A & (o & B & C) & D).
    split; [exact A|]. split; [exists o; auto|]. apply IH, D.
  Qed.
  Lemma all10_fine P n w : all10 P n w -> violated _ n w = false.
  Proof. induction n as [|n IH]; cbn; [auto|]. intros (-> & _ & D). exact (IH _ D). Qed.
End AllDepths.

(** At every depth, with tiny optionals on all levels: remembering a value leaves it in the
    optionals of all levels, or, if the user code on level 0 throws, all of them empty; user code on level 0 was
    called once. *)
Fixpoint tiny10 dbg (o : option rep) (n : nat) : tworld sworld_t n -> Prop :=
  match n with
  | 0 => fun _ => True
  | Suc n => fun w => peek (tiny_env _ (re_types dbg) n) 10 (fst w) = Some o /\ tiny10 dbg o n (world (fst w))
  end.
Fixpoint tbottom (n : nat) : tworld sworld_t n -> sworld_t :=
  match n with 0 => fun w => w | Suc n => fun w => tbottom n (world (fst w)) end.
Lemma looks10 dbg n o w v :
  all10 (fun x => x = o) n v -> looks_same _ (re_types dbg) n w v -> tiny10 dbg o n w /\ tbottom n w = bottom n v.
Proof.
  induction n as [|n IH]; [auto|]. intros (_ & (x & H1 & ->) & H2) (_ & H3 & _ & H4).
  destruct (IH _ _ H2 H4) as (H5 & H6). split; [|exact H6]. split; [apply H3, H1|exact H5].
Qed.

Theorem C69_remembers_at_every_depth :
  forall dbg n x y w, x <> 0%Z ->
    exists w',
      let v : rep := [Atom x; Atom y] in
      tiny _ (re_types dbg) (Suc n) _ (re_main n v) (tstart _ (Suc n) w) = (fst (user v w), w') /\
      tbottom (Suc n) w' = snd (user v w) /\
      tiny10 dbg (match fst (user v w) with ROk _ => Some v | RThrow _ => None end) (Suc n) w'.
Proof.
  intros dbg n x y w Hx. set (v := [Atom x; Atom y] : rep).
  assert (H : exists w', std _ (re_types dbg) (Suc n) _ (re_main n v) (sstart _ (Suc n) w) = (fst (user v w), w') /\
            bottom (Suc n) w' = snd (user v w) /\
            all10 (fun o => o = match fst (user v w) with ROk _ => Some v | RThrow _ => None end) (Suc n) w').
  { destruct (create_std dbg (Suc n) w) as (w1 & H1 & H2 & H3).
    destruct w1 as [t b].
    assert (R : std _ (re_types dbg) (Suc n) _ (re_main n v) (sstart _ (Suc n) w)
                = std _ (re_types dbg) (Suc n) _ (recopy (Suc n) v) (t, b)).
    { unfold re_main. cbn [create sstart] in *.
      destruct (std _ (re_types dbg) n _ (create n) (sstart sworld_t n w)) as [a w'] eqn:E.
      change (sstart sworld_t n w) with (sworld (sinit_state (sstart sworld_t n w))) in E.
      rewrite (std_work _ _ _ _ _ _ _ _ _ _ E) in H1. rewrite (std_work _ _ _ _ _ _ _ _ _ _ E).
      rewrite std_calls in H1 |- *. cbn [fst snd] in *.
      destruct (std_call _ _ _) as [[r|e|f] t2]; cbn [fst snd] in H1; inversion H1; subst; reflexivity. }
    rewrite R. clear R H1.
    destruct (remember_std dbg x y Hx (Suc n) (t, b) (all10_weak _ _ _ _ (fun _ _ => I) H3)) as (w2 & K1 & K2 & K3).
    fold v in K1, K2, K3. rewrite H2 in K1, K2, K3. exists w2. split; [|split; [exact K2|]].
    - cbn [recopy remember] in *. rewrite std_calls in K1 |- *.
      destruct (std_call _ _ _) as [[r|e|f] t2]; [destruct r| |]; cbn in K1 |- *; injection K1 as K1 K4; subst;
        rewrite ?K1; reflexivity.
    - eapply all10_weak; [|exact K3]. intros o. unfold left_in.
      destruct (fst (user v w)); intros ->; reflexivity. }
  destruct H as (w1 & H1 & H2 & H3).
  destruct (C69_any_depth _ (re_types dbg) (Suc n) _ (re_main n v) w _ w1 (re_types_ok dbg _) (re_main_ok dbg n v) H1
              (all10_fine _ _ _ H3)) as (w' & K1 & K2).
  destruct (looks10 dbg (Suc n) _ _ _ H3 K2) as (K3 & K4).
  exists w'. split; [exact K1|]. split; [rewrite K4; exact H2|exact K3].
Qed.
Print Assumptions C69_remembers_at_every_depth.

(** Four levels, with and without an exception: the hypotheses of [C69_any_depth]. *)
Example C69_example dbg :
  let v : rep := [Atom 5; Atom 6] in
  types_ok _ (re_types dbg) 4 /\ code_ok _ (re_types dbg) 4 _ (re_main 3 v) /\
  (exists w, std _ (re_types dbg) 4 _ (re_main 3 v) (sstart _ 4 quiet) = (ROk v, w) /\ violated _ 4 w = false) /\
  (exists w, std _ (re_types dbg) 4 _ (re_main 3 v) (sstart _ 4 (plan [Some 7])) = (RThrow (UserExn 7), w) /\
             violated _ 4 w = false).
Proof.
  split; [apply re_types_ok|]. split; [apply re_main_ok|].
  assert (H : forall A B (p : A * B) a (P : B -> Prop), fst p = a -> P (snd p) -> exists b, p = (a, b) /\ P b)
    by (intros A B [a' b] a P <- HP; exists b; auto).
  split; apply H; destruct dbg; vm_compute; reflexivity.
Qed.
(** Storing the sentinel on some level is noticed. *)
Example C69_violation_example dbg :
  violated _ 4 (snd (std _ (re_types dbg) 4 _ (re_main 3 [Atom 0; Atom 6]) (sstart _ 4 quiet))) = true.
Proof. destruct dbg; vm_compute; reflexivity. Qed.
(** So is a call with undefined behaviour with tiny optionals, on the level where it happens. *)
Example C69_fault_example dbg :
  let p : lang sworld_t 2 unit :=
    Work (Call (PDefault 10) (fun _ => Call (PDefault 10) (fun x => Done x))) (fun _ => Done tt) in
  let w := snd (tiny _ (re_types dbg) 2 _ p (tstart _ 2 quiet)) in
  snd w = false /\ snd (world (fst w)) = true /\
  violated _ 2 (snd (std _ (re_types dbg) 2 _ p (sstart _ 2 quiet))) = true.
Proof. destruct dbg; vm_compute; auto. Qed.
