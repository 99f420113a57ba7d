(** * Recursion: user code that uses other optionals of the same program (C70)

    In Worlds.v the optionals that user code uses belong to a level below.  Here there is one
    program with one memory: the constructors, assignments, destructors, comparisons and
    callables of the user are functions of the program that call each other, recursively and
    without bound, and use optionals in the same memory as everybody else, with
    the same types.  For example, the copy constructor of a node of a tree copies an optional
    subtree, and that copies the nodes in it.  The only thing user code may not do is to use
    the operands of the calls that are in progress. *)

From Coq Require Import List NArith ZArith Bool Arith Lia.
From Verif Require Import Cells CellsFacts Machine Optional Program Spec Laws Refine Contract SpecTac
  Effects Frame Lifetime Bits Manip Sample Histories ExampleTac Clients Threads Data Worlds.
Import ListNotations.


(** The location of a lifetime event (Machine.v). *)
Definition ev_loc (e : event) : loc :=
  match e with
  | EvPayBegin i | EvPayEnd i | EvPayAbandoned i | EvFlagBegin i | EvFlagEnd i | EvFlagAbandoned i => i
  end.
Definition among (U : list loc) (i : loc) : bool := existsb (Nat.eqb i) U.

(** ** Programs *)

Section Program.
  (** The part of the user's world that is not in optionals. *)
  Variable W0 : Type.
  (** The functions of the program, with their arguments; [proc A] are those that return an [A].
      A body uses optionals and calls other functions (the language of Worlds.v), or works
      on [W0]. *)
  Variable proc : Type -> Type.
  Variable table : forall A, proc A -> code proc A + (W0 -> A * W0).
  (** What a function returns when the depth of the recursion is exhausted; never used
      below, since the program is then regarded as faulty. *)
  Variable abort : forall A, proc A -> A.
  (** The payload types (StorageBase, optional.h:925-1147); their operations are functions of
      the program. *)
  Variable types : cenv proc.

  (** The world that user code works on: everything but the operands of the calls in progress.
      [g_bad]: undefined behaviour occurred. *)
  Record tprog : Type := MkTP {
    g_user : W0; g_mem : loc -> option region; g_trace : list event; g_busy : list loc; g_bad : bool }.
  Record sprog : Type := MkSP {
    v_user : W0; v_objs : loc -> option sobj; v_busy : list loc; v_bad : bool }.

  Definition t_ruin (g : tprog) : tprog := MkTP (g_user g) (g_mem g) (g_trace g) (g_busy g) true.
  Definition s_ruin (v : sprog) : sprog := MkSP (v_user v) (v_objs v) (v_busy v) true.

  (** A call works on its operands [U]; the user code behind it works on all else.  Nothing is
      lost thereby: a call reads and changes only its operands (C42, C56). *)
  Definition t_enter (U : list loc) (g : tprog) : state tprog :=
    MkState (fun i => if among U i then g_mem g i else None)
            (MkTP (g_user g) (fun i => if among U i then None else g_mem g i)
                  (filter (fun e => negb (among U (ev_loc e))) (g_trace g))
                  (U ++ g_busy g) (g_bad g))
            (filter (fun e => among U (ev_loc e)) (g_trace g)).
  Definition t_leave (U b : list loc) (s : state tprog) : tprog :=
    let g := world s in
    MkTP (g_user g) (fun i => if among U i then mem s i else g_mem g i) (trace s ++ g_trace g) b (g_bad g).
  Definition s_enter (U : list loc) (v : sprog) : sstate sprog :=
    MkS (fun i => if among U i then v_objs v i else None)
        (MkSP (v_user v) (fun i => if among U i then None else v_objs v i) (U ++ v_busy v) (v_bad v)).
  Definition s_leave (U b : list loc) (t : sstate sprog) : sprog :=
    let v := sworld t in
    MkSP (v_user v) (fun i => if among U i then objs t i else v_objs v i) b (v_bad v).

  (** A call (a member function of TinyOptionalImpl, optional.h:1390-1842, a comparison,
      2437-2763, or the hash, 2785-2809); user code is interpreted by [I].  To use an operand of a call in progress is
      an error. *)
  Definition t_call (I : forall A, proc A -> tprog -> A * tprog) (o : cop proc) (g : tprog) : obs * tprog :=
    let U := uses (t_op I o) in
    if existsb (among (g_busy g)) U then (ObUnit, t_ruin g)
    else match step (t_env I types) (t_op I o) (t_enter U g) with
         | (Ok x, s) => (x, t_leave U (g_busy g) s)
         | (Throw e, s) => (ObThrow e, t_leave U (g_busy g) s)
         | (Dead _, s) => (ObUnit, t_ruin (t_leave U (g_busy g) s))
         end.
  Definition s_call (I : forall A, proc A -> sprog -> A * sprog) (o : cop proc) (v : sprog) : obs * sprog :=
    let U := uses (t_op I o) in
    if existsb (among (v_busy v)) U then (ObUnit, s_ruin v)
    else match std_call (t_env I types) (t_op I o) (s_enter U v) with
         | (Ok x, t) => (x, s_leave U (v_busy v) t)
         | (Throw e, t) => (ObThrow e, s_leave U (v_busy v) t)
         | (Dead _, t) => (ObUnit, s_ruin (s_leave U (v_busy v) t))
         end.

  Fixpoint exec {W A} (call : cop proc -> W -> obs * W) (work : proc obs -> W -> obs * W)
      (c : code proc A) (w : W) : A * W :=
    match c with
    | Done a => (a, w)
    | Call o k => let (x, w') := call o w in exec call work (k x) w'
    | Work m k => let (x, w') := work m w in exec call work (k x) w'
    end.

  (** A function of the program, with calls nested to depth at most [n]. *)
  Fixpoint tiny (n : nat) (A : Type) (p : proc A) (g : tprog) : A * tprog :=
    match n with
    | 0 => (abort A p, t_ruin g)
    | Suc n =>
        match table A p with
        | inl c => exec (t_call (tiny n)) (tiny n obs) c g
        | inr f => let (a, w) := f (g_user g) in (a, MkTP w (g_mem g) (g_trace g) (g_busy g) (g_bad g))
        end
    end.
  Fixpoint std (n : nat) (A : Type) (p : proc A) (v : sprog) : A * sprog :=
    match n with
    | 0 => (abort A p, s_ruin v)
    | Suc n =>
        match table A p with
        | inl c => exec (s_call (std n)) (std n obs) c v
        | inr f => let (a, w) := f (v_user v) in (a, MkSP w (v_objs v) (v_busy v) (v_bad v))
        end
    end.

  Definition tiny_begin (w : W0) : tprog := MkTP w (fun _ => None) [] [] false.
  Definition std_begin (w : W0) : sprog := MkSP w (fun _ => None) [] false.

  (** Operations declared nothrow do not throw. *)
  Fixpoint calls (Q : cop proc -> Prop) {A} (c : code proc A) : Prop :=
    match c with
    | Done _ => True
    | Call o k => Q o /\ forall x, calls Q (k x)
    | Work m k => forall x, calls Q (k x)
    end.
  Definition program_ok : Prop :=
    (forall n, env_ok (t_env (tiny n) types)) /\
    forall A (p : proc A),
      match table A p with
      | inl c => calls (fun o => forall n, op_ok (t_op (tiny n) o)) c
      | inr _ => True
      end.

  (** The memory as a state of Machine.v. *)
  Definition whole (g : tprog) : state tprog := MkState (g_mem g) g (g_trace g).
  (** No undefined behaviour; the user's own world is the same; has_value() and operator* show
      the same of all optionals; all payloads ever constructed were destroyed exactly once, except
      for those that still exist. *)
  Definition prog_same (n : nat) (g : tprog) (v : sprog) : Prop :=
    g_bad g = false /\ g_user g = v_user v /\
    (forall i o, v_objs v i = Some (SOpt o) -> peek (t_env (tiny n) types) i (whole g) = Some o) /\
    forall i, life_of i (g_trace g) <> None /\
      count (is_pay_abandoned i) (g_trace g) = 0 /\
      count (is_pay_begin i) (g_trace g) = count (is_pay_end i) (g_trace g) + existing (v_objs v i).

  (** ** Lifetime events of parts of the memory *)

  Lemma among_In U i : among U i = true <-> In i U.
  Proof.
    unfold among. rewrite existsb_exists. split.
    - intros (j & H & E). apply Nat.eqb_eq in E. subst j. exact H.
    - intros H. exists i. split; [exact H|]. apply Nat.eqb_refl.
  Qed.
  Lemma among_not U i : among U i = false <-> ~ In i U.
  Proof. rewrite <- among_In. destruct (among U i); intuition congruence. Qed.
  Lemma among_app U V i : among (U ++ V) i = among U i || among V i.
  Proof. apply existsb_app. Qed.

  Lemma life_cons i e tr :
    life_of i (e :: tr) = if Nat.eqb (ev_loc e) i then match life_of i tr with Some l => life_step i e l | None => None end
                          else life_of i tr.
  Proof.
    destruct (Nat.eqb_spec (ev_loc e) i) as [E|N]; [reflexivity|].
    apply (life_of_same i e tr (ev_loc e)); [destruct e; reflexivity|congruence].
  Qed.
  Lemma life_none i tr : (forall e, In e tr -> ev_loc e <> i) -> life_of i tr = Some LNone.
  Proof.
    induction tr as [|e tr IH]; intros H; [reflexivity|]. rewrite life_cons.
    destruct (Nat.eqb_spec (ev_loc e) i) as [E|_]; [destruct (H e (or_introl eq_refl) E)|].
    apply IH. intros e' He. apply H. right. exact He.
  Qed.
  Lemma life_app_l i t1 t2 : (forall e, In e t2 -> ev_loc e <> i) -> life_of i (t1 ++ t2) = life_of i t1.
  Proof.
    intros H. induction t1 as [|e t1 IH]; [apply life_none, H|]. cbn [app]. rewrite !life_cons, IH. reflexivity.
  Qed.
  Lemma life_app_r i t1 t2 : (forall e, In e t1 -> ev_loc e <> i) -> life_of i (t1 ++ t2) = life_of i t2.
  Proof.
    intros H. induction t1 as [|e t1 IH]; [reflexivity|]. cbn [app]. rewrite life_cons.
    destruct (Nat.eqb_spec (ev_loc e) i) as [E|_]; [destruct (H e (or_introl eq_refl) E)|].
    apply IH. intros e' He. apply H. right. exact He.
  Qed.
  Lemma life_filter i f tr :
    (forall e, ev_loc e = i -> f e = true) -> life_of i (filter f tr) = life_of i tr.
  Proof.
    intros H. induction tr as [|e tr IH]; [reflexivity|]. cbn [filter]. rewrite life_cons.
    destruct (Nat.eqb_spec (ev_loc e) i) as [E|N].
    - rewrite (H e E), life_cons. apply Nat.eqb_eq in E. rewrite E, IH. reflexivity.
    - destruct (f e); [|exact IH]. rewrite life_cons. apply Nat.eqb_neq in N. rewrite N. exact IH.
  Qed.

  (** A call causes lifetime events only at its operands. *)
  Definition events_in {W} (U : list loc) (s s' : state W) : Prop :=
    (forall e, In e (trace s) -> In (ev_loc e) U) -> forall e, In e (trace s') -> In (ev_loc e) U.
  Ltac ev_case :=
    repeat match goal with
           | |- context [match ?x with _ => _ end] =>
               match x with
               | context [match _ with _ => _ end] => fail 1
               | _ => destruct x eqn:?
               end
           end; cbn; intros e He; repeat (destruct He as [<-|He]; [assumption|]); auto.
  Lemma respects_events {W} (E : env W) U : respects E (events_in U) (fun i => In i U) (fun _ => True).
  Proof.
    split; unfold events_in.
    - auto.
    - auto.
    - auto.
    - intros i v N s H. unfold store_payload, bind, get_region, set_region, dead. ev_case.
    - intros i N s H. unfold fm_init, bind, get_region, set_region, dead, log, ret. ev_case.
    - intros i N s H. unfold fm_invalidate, bind, get_region, set_region, dead, log, ret. ev_case.
    - intros i v N s H. unfold begin_payload, bind, get_region, set_region, dead, log, ret. ev_case.
    - intros i N s H. unfold destroy_payload, bind, get_region, set_region, dead, log, ret, call. ev_case.
    - intros i N s H. unfold alloc, set_region. ev_case.
    - intros i N _ s H. unfold dealloc, bind, get_region, set_region, dead, log, ret. ev_case.
    - intros i v N s H. unfold var_new, bind, get_region, set_region, dead, log, ret. ev_case.
    - intros i N s H. unfold var_drop, load_payload, bind, get_region, set_region, dead, log, ret, call. ev_case.
  Qed.
  Lemma step_events {W} (E : env W) o U s :
    (forall i, In i (uses o) -> In i U) -> events_in U s (snd (step E o s)).
  Proof.
    intros H. refine (step_holds E (events_in U) _ _ (respects_events E U) o _ _ s).
    - intros i Hi. apply H, touches_uses, Hi.
    - intros; exact I.
  Qed.

  (** ** The relation between the worlds *)

  Notation E0 := (t_env (tiny 0) types).

  Definition corr (b : list loc) (g : tprog) (v : sprog) : Prop :=
    g_user g = v_user v /\ g_busy g = b /\ v_busy v = b /\ g_bad g = false /\
    accounted E0 (whole g) /\ no_abandon (g_trace g) /\
    (forall i, robj E0 i (g_mem g i) (v_objs v i)) /\
    forall e, In e (g_trace g) -> ~ In (ev_loc e) b.

  Lemma corr_enter b U g v :
    corr b g v ->
    rel E0 NoHole (t_enter U g) (MkS (objs (s_enter U v)) (world (t_enter U g))) /\
    accounted E0 (t_enter U g) /\
    (forall e, In e (trace (t_enter U g)) -> In (ev_loc e) U) /\
    corr (U ++ b) (world (t_enter U g)) (sworld (s_enter U v)).
  Proof.
    intros (Hu & Hb & Hb' & Hd & Ha & Hn & Hm & He). split; [|split; [|split]].
    - split; [reflexivity|]. split.
      + intros i Hi. cbn in Hi. apply filter_In in Hi as (Hi & _). exact (Hn i Hi).
      + intros i. cbn. destruct (among U i); [apply Hm|reflexivity].
    - intros i. destruct (Ha i) as (H1 & H2). unfold current in *. cbn in *.
      destruct (among U i) eqn:Ui.
      + split; [|exact H2]. rewrite life_filter; [exact H1|]. intros e <-. exact Ui.
      + split; [|exact I]. apply life_none. intros e Hi <-. apply filter_In in Hi as (_ & Hi). congruence.
    - intros e Hi. cbn in Hi. apply filter_In in Hi as (_ & Hi). apply among_In, Hi.
    - split; [exact Hu|]. split; [cbn; rewrite Hb; reflexivity|]. split; [cbn; rewrite Hb'; reflexivity|].
      split; [exact Hd|]. split; [|split; [|split]].
      + intros i. destruct (Ha i) as (H1 & H2). unfold current, whole in *. cbn in *.
        destruct (among U i) eqn:Ui.
        * split; [|exact I]. apply life_none. intros e Hi <-. apply filter_In in Hi as (_ & Hi).
          rewrite Ui in Hi. discriminate.
        * split; [|exact H2]. rewrite life_filter; [exact H1|]. intros e <-. rewrite Ui. reflexivity.
      + intros i Hi. cbn in Hi. apply filter_In in Hi as (Hi & _). exact (Hn i Hi).
      + intros i. cbn. destruct (among U i); [reflexivity|apply Hm].
      + intros e Hi. cbn in Hi. apply filter_In in Hi as (Hi & Ui). rewrite in_app_iff. intros [Hx|Hx].
        * apply among_In in Hx. rewrite Hx in Ui. discriminate.
        * exact (He e Hi Hx).
  Qed.

  Lemma corr_leave b U s t1 t :
    (forall i, In i U -> ~ In i b) ->
    rel E0 NoHole s t1 -> (forall i, objs t1 i = objs t i) -> accounted E0 s ->
    (forall e, In e (trace s) -> In (ev_loc e) U) ->
    corr (U ++ b) (world s) (sworld t) ->
    corr b (t_leave U b s) (s_leave U b t).
  Proof.
    intros HU (_ & Rn & R) Ho As Es (Hu & Hb & Hb' & Hd & Ha & Hn & Hm & He).
    split; [exact Hu|]. split; [reflexivity|]. split; [reflexivity|]. split; [exact Hd|].
    split; [|split; [|split]].
    - intros i. unfold current, whole, t_leave. cbn. destruct (among U i) eqn:Ui.
      + destruct (As i) as (H1 & H2). split; [|exact H2]. rewrite life_app_l; [exact H1|].
        intros e Hi <-. apply (He e Hi). rewrite in_app_iff. left. apply among_In, Ui.
      + destruct (Ha i) as (H1 & H2). split; [|exact H2]. rewrite life_app_r; [exact H1|].
        intros e Hi <-. apply among_not in Ui. exact (Ui (Es e Hi)).
    - intros i Hi. cbn in Hi. apply in_app_iff in Hi as [Hi|Hi]; [exact (Rn i Hi)|exact (Hn i Hi)].
    - intros i. cbn. destruct (among U i); [|apply Hm]. rewrite <- Ho. exact (R i).
    - intros e Hi. cbn in Hi. apply in_app_iff in Hi as [Hi|Hi].
      + apply HU, Es, Hi.
      + intros Hx. apply (He e Hi). rewrite in_app_iff. right. exact Hx.
  Qed.

  Lemma obj_eq i (x y : option sobj) : ropt (rsobj (ce_tid types) (fun _ => eq) i) x y -> x = y.
  Proof.
    destruct x as [[[x|]|x]|], y as [[[y|]|y]|]; cbn; unfold Rv; intros H; try contradiction; subst; reflexivity.
  Qed.
  Lemma obj_refl i (x : option sobj) : ropt (rsobj (ce_tid types) (fun _ => eq) i) x x.
  Proof. destruct x as [[[x|]|x]|]; cbn; reflexivity. Qed.

  Lemma uses_same {W W'} (I1 : forall A, proc A -> W -> A * W) (I2 : forall A, proc A -> W' -> A * W') o :
    uses (t_op I1 o) = uses (t_op I2 o).
  Proof. destruct o; reflexivity. Qed.
  Lemma all_true (o : cop proc) : op_all (fun _ _ => True) o.
  Proof. destruct o; cbn; repeat split. Qed.
  Lemma env_true : env_all (fun _ _ => True) types.
  Proof. intros t. split; intros; exact I. Qed.

  Lemma not_busy b U : existsb (among b) U = false -> forall i, In i U -> ~ In i b.
  Proof.
    intros H i Hi Hx. apply among_In in Hx.
    assert (existsb (among b) U = true) by (apply existsb_exists; eauto). congruence.
  Qed.

  (** Code: calls and functions behave the same, hence so does code. *)
  Lemma exec_sim {W1 W2 A} (RW : W1 -> W2 -> Prop) err (Q : cop proc -> Prop) call1 call2 work1 work2 :
    (forall o, Q o -> usim RW err eq (call1 o) (call2 o) /\ sticky err (call2 o)) ->
    (forall m, usim RW err eq (work1 m) (work2 m) /\ sticky err (work2 m)) ->
    forall c : code proc A, calls Q c ->
      usim RW err eq (exec call1 work1 c) (exec call2 work2 c) /\ sticky err (exec call2 work2 c).
  Proof.
    intros HC HW c Hc.
    assert (K : forall c : code proc A, calls Q c -> sticky err (exec call2 work2 c)).
    { clear c Hc. intros c. induction c as [a|o k IH|m k IH]; intros Hc w B; [exact B| |]; cbn [exec].
      - destruct Hc as (Ho & Hk). pose proof (proj2 (HC o Ho) w B) as B'.
        destruct (call2 o w) as [x w']. exact (IH x (Hk x) w' B').
      - pose proof (proj2 (HW m) w B) as B'.
        destruct (work2 m w) as [x w']. exact (IH x (Hc x) w' B'). }
    split; [|apply K, Hc].
    assert (Step : forall (k : obs -> code proc A) x w', calls Q (k x) ->
              err (snd (exec call2 work2 (k x) w')) = false -> err w' = false).
    { intros k x w' Hk B. destruct (err w') eqn:V; [|reflexivity]. rewrite (K _ Hk w' V) in B. discriminate. }
    induction c as [a|o k IH|m k IH]; intros w v R B0 B1; [split; [reflexivity|exact R]| |]; cbn [exec] in *.
    - destruct Hc as (Ho & Hk). pose proof (proj1 (HC o Ho) w v R B0) as U.
      destruct (call1 o w) as [x1 w1], (call2 o v) as [x2 v2]. cbn [fst snd] in U.
      destruct (U (Step k x2 v2 (Hk x2) B1)) as (E & R'). subst x2.
      exact (IH x1 (Hk x1) w1 v2 R' (Step k x1 v2 (Hk x1) B1) B1).
    - pose proof (proj1 (HW m) w v R B0) as U.
      destruct (work1 m w) as [x1 w1], (work2 m v) as [x2 v2]. cbn [fst snd] in U.
      destruct (U (Step k x2 v2 (Hc x2) B1)) as (E & R'). subst x2.
      exact (IH x1 (Hc x1) w1 v2 R' (Step k x1 v2 (Hc x1) B1) B1).
  Qed.

  Lemma s_call_sticky n o :
    (forall A (p : proc A), sticky v_bad (std n A p)) -> sticky v_bad (s_call (std n) o).
  Proof.
    intros IH v B. unfold s_call. destruct (existsb _ _); [reflexivity|].
    assert (IH1 : forall A (p : proc A), True -> usim eq v_bad eq (std n A p) (std n A p)).
    { intros A p _ w1 w2 -> _ _. split; reflexivity. }
    pose proof (both_sticky eq v_bad (std n) (std n) (fun _ _ => True) types
      IH1 (fun A c _ => IH A c) env_true o (s_enter (uses (t_op (std n) o)) v) (all_true o) B) as K.
    destruct (std_call _ _ _) as [[x|e|f] t]; [exact K|exact K|reflexivity].
  Qed.

  Lemma t_call_sim n b o :
    env_ok (t_env (tiny n) types) -> op_ok (t_op (tiny n) o) ->
    (forall b A (p : proc A), usim (corr b) v_bad eq (tiny n A p) (std n A p)) ->
    (forall A (p : proc A), sticky v_bad (std n A p)) ->
    usim (corr b) v_bad eq (t_call (tiny n) o) (s_call (std n) o).
  Proof.
    intros HE Ho IH1 IH2 g v R B0 B1.
    pose proof (s_call_sticky n o IH2) as K. unfold t_call, s_call in *.
    rewrite <- (uses_same (tiny n) (std n) o) in *. set (U := uses (t_op (tiny n) o)) in *.
    destruct R as (Hu & Hb & Hb' & R). rewrite Hb, Hb' in *.
    assert (R0 : corr b g v) by (split; [exact Hu|]; split; [exact Hb|]; split; [exact Hb'|exact R]). clear R.
    destruct (existsb (among b) U) eqn:Bu; [discriminate B1|].
    pose proof (not_busy _ _ Bu) as HU.
    destruct (corr_enter b U g v R0) as (Re & Ae & Ee & Ce).
    assert (Hl := step_accounted (t_env (tiny n) types) (t_op (tiny n) o) _ Ae).
    assert (Hv := step_events (t_env (tiny n) types) (t_op (tiny n) o) U (t_enter U g) (fun i H => H) Ee).
    assert (D := refines_step (t_env (tiny n) types) HE _ Ho _ _ Re).
    set (t1 := MkS (objs (s_enter U v)) (world (t_enter U g))) in *.
    assert (Q : rs (corr (U ++ b)) (ce_tid types) (fun _ => eq) t1 (s_enter U v)).
    { split; [exact Ce|]. intros i. apply obj_refl. }
    assert (C := both_call (corr (U ++ b)) v_bad (tiny n) (std n) (fun _ _ => True) types
      (fun A c _ => IH1 (U ++ b) A c) (fun A c _ => IH2 A c) env_true o t1 (s_enter U v) (all_true o) Q B0).
    unfold agrees in D.
    destruct (std_call (t_env (std n) types) (t_op (std n) o) (s_enter U v)) as [[x|e|f] t2];
      [| |discriminate B1]; cbn [snd] in B1; destruct (C B1) as (t1' & C' & Qw & Qo);
      unfold std_call in C'; destruct (sstep (e_tid (t_env (tiny n) types)) _ _ _ _ t1) as [[x'|e'|] t1''];
      try discriminate C'; injection C' as E1 E2; rewrite E1, E2 in D;
      destruct D as (s' & D & R'); rewrite D in Hl, Hv |- *; cbn [fst snd] in *;
      (split; [reflexivity|]; apply (corr_leave b U s' t1' t2 HU R');
        [intros i; exact (obj_eq i _ _ (Qo i))|exact Hl|exact Hv|];
        rewrite (rel_world _ _ _ R'); exact Qw).
  Qed.

  Lemma same_proc :
    program_ok -> forall n A (p : proc A),
      (forall b, usim (corr b) v_bad eq (tiny n A p) (std n A p)) /\ sticky v_bad (std n A p).
  Proof.
    intros (HE & HT) n. induction n as [|n IH]; intros A p.
    - split; [|intros v _; reflexivity]. intros b g v _ _ B. discriminate B.
    - specialize (HT A p). assert (IH2 := fun A p => proj2 (IH A p)).
      assert (KK : forall b,
        match table A p with
        | inl c => usim (corr b) v_bad eq (exec (t_call (tiny n)) (tiny n obs) c) (exec (s_call (std n)) (std n obs) c) /\
                   sticky v_bad (exec (s_call (std n)) (std n obs) c)
        | inr _ => True
        end).
      { intros b. destruct (table A p) as [c|f]; [|exact I].
        refine (exec_sim (corr b) v_bad _ _ _ _ _ _ _ c HT).
        - intros o Ho. split; [|apply s_call_sticky, IH2].
          apply t_call_sim; [apply HE|apply Ho|intros b' A' p'; apply IH|apply IH2].
        - intros m. split; [apply IH|apply IH2]. }
      assert (St : sticky v_bad (std (Suc n) A p)).
      { intros v B. cbn [std]. specialize (KK []). destruct (table A p) as [c|f]; [exact (proj2 KK v B)|].
        destruct (f (v_user v)) as [a w]. exact B. }
      split; [|exact St]. intros b g v R B0 B1. specialize (KK b). cbn [tiny std] in *.
      destruct (table A p) as [c|f]; [exact (proj1 KK g v R B0 B1)|].
      destruct R as (Hu & R). rewrite Hu. destruct (f (v_user v)) as [a w]. split; [reflexivity|].
      split; [reflexivity|]. exact R.
  Qed.

  (** Deeper recursion changes nothing once the depth suffices. *)
  Definition pointwise (v v' : sprog) : Prop :=
    v_user v = v_user v' /\ v_busy v = v_busy v' /\ v_bad v = v_bad v' /\ forall i, v_objs v i = v_objs v' i.
  Lemma s_call_sim n m o :
    (forall A (p : proc A), usim pointwise v_bad eq (std m A p) (std n A p)) ->
    (forall A (p : proc A), sticky v_bad (std n A p)) ->
    usim pointwise v_bad eq (s_call (std m) o) (s_call (std n) o).
  Proof.
    intros IH1 IH2 v1 v2 (Hu & Hb & Hd & Hm) B0 B1. unfold s_call in *.
    rewrite (uses_same (std m) (std n) o) in *. set (U := uses (t_op (std n) o)) in *. rewrite Hb.
    destruct (existsb (among (v_busy v2)) U) eqn:Bu; [discriminate B1|].
    assert (Q : rs pointwise (ce_tid types) (fun _ => eq) (s_enter U v1) (s_enter U v2)).
    { split.
      - split; [exact Hu|]. split; [cbn; rewrite Hb; reflexivity|]. split; [exact Hd|].
        intros i. cbn. destruct (among U i); [reflexivity|apply Hm].
      - intros i. cbn. destruct (among U i); [rewrite Hm|]; apply obj_refl. }
    assert (C := both_call pointwise v_bad (std m) (std n) (fun _ _ => True) types
      (fun A c _ => IH1 A c) (fun A c _ => IH2 A c) env_true o _ _ (all_true o) Q B0).
    destruct (std_call (t_env (std n) types) (t_op (std n) o) (s_enter U v2)) as [[x|e|f] t2];
      [| |discriminate B1]; cbn [snd] in B1; destruct (C B1) as (t1 & -> & Qw & Qo); cbn [fst snd];
      (split; [reflexivity|]; destruct Qw as (Qu & _ & Qd & Qm); split; [exact Qu|]; split; [reflexivity|];
       split; [exact Qd|]; intros i; cbn; destruct (among U i); [exact (obj_eq i _ _ (Qo i))|apply Qm]).
  Qed.
  Lemma deeper_proc :
    program_ok -> forall n m, n <= m -> forall A (p : proc A), usim pointwise v_bad eq (std m A p) (std n A p).
  Proof.
    intros HP n. induction n as [|n IH]; intros m L A p v1 v2 R B0 B1; [discriminate B1|].
    destruct m as [|m]; [lia|]. assert (L' : n <= m) by lia. specialize (IH m L').
    assert (IH2 := fun A p => proj2 (same_proc HP n A p)). destruct HP as (_ & HT). specialize (HT A p).
    cbn [std] in *. destruct (table A p) as [c|f].
    - refine (proj1 (exec_sim pointwise v_bad _ _ _ _ _ _ _ c HT) v1 v2 R B0 B1).
      + intros o Ho. split; [apply s_call_sim; [apply IH|apply IH2]|apply s_call_sticky, IH2].
      + intros q. split; [apply IH|apply IH2].
    - destruct R as (Hu & R). rewrite Hu. destruct (f (v_user v2)) as [a w]. split; [reflexivity|].
      split; [reflexivity|exact R].
  Qed.

  Lemma corr_begin w : corr [] (tiny_begin w) (std_begin w).
  Proof.
    split; [reflexivity|]. split; [reflexivity|]. split; [reflexivity|]. split; [reflexivity|].
    split; [intros i; split; [reflexivity|exact I]|]. split; [intros i []|]. split; [intros i; reflexivity|].
    intros e [].
  Qed.
  Lemma corr_same n b g v : corr b g v -> prog_same n g v.
  Proof.
    intros (Hu & _ & _ & Hd & Ha & Hn & Hm & _). split; [exact Hd|]. split; [exact Hu|].
    assert (R : rel (t_env (tiny n) types) NoHole (whole g) (MkS (v_objs v) g)).
    { split; [reflexivity|]. split; [exact Hn|exact Hm]. }
    split.
    - intros i o Ho. exact (peek_rel (t_env (tiny n) types) (whole g) _ i o R Ho).
    - intros i. exact (balance (t_env (tiny n) types) (whole g) _ (v_objs v i) i Ha R eq_refl).
  Qed.
End Program.

(** C70.  A program in which user code uses other optionals in the same memory, recursively
    and to any depth, behaves with tiny optionals as with std::optional, as long as the
    program with std::optional ends, has no undefined behaviour, stores no sentinel, and
    does not use operands of calls in progress. *)
Theorem C70_recursive_user_code :
  forall W0 proc table abort types n A (p : proc A) (w : W0) a v,
    program_ok W0 proc table abort types ->
    std W0 proc table abort types n A p (std_begin W0 w) = (a, v) -> v_bad W0 v = false ->
    forall m, n <= m ->
      exists g, tiny W0 proc table abort types m A p (tiny_begin W0 w) = (a, g) /\
                prog_same W0 proc table abort types m g v.
Proof.
  intros W0 proc table abort types n A p w a v HP Hs B m L.
  assert (D := deeper_proc W0 proc table abort types HP n m L A p (std_begin W0 w) (std_begin W0 w)).
  rewrite Hs in D. cbn [fst snd] in D.
  destruct D as (E & Hu & _ & Hd & Hm); [repeat split|reflexivity|exact B|].
  destruct (same_proc W0 proc table abort types HP m A p) as (U & _).
  specialize (U [] _ _ (corr_begin W0 proc table abort types w) eq_refl).
  destruct (std W0 proc table abort types m A p (std_begin W0 w)) as [a' v']. cbn [fst snd] in *.
  destruct (tiny W0 proc table abort types m A p (tiny_begin W0 w)) as [a'' g]. cbn [fst snd] in *.
  destruct U as (E2 & R); [congruence|]. subst a' a''. exists g. split; [reflexivity|].
  apply (corr_same W0 proc table abort types m [] g v') in R as (R1 & R2 & R3 & R4).
  split; [exact R1|]. split; [congruence|]. split.
  - intros i o Ho. apply R3. rewrite Hm. exact Ho.
  - intros i. rewrite <- Hm. apply R4.
Qed.
Print Assumptions C70_recursive_user_code.

(** The depth does not matter once it suffices: the program with std::optional ends with the same
    result for every larger depth. *)
Theorem C70_depth_irrelevant :
  forall W0 proc table abort types n A (p : proc A) (w : W0) a v,
    program_ok W0 proc table abort types ->
    std W0 proc table abort types n A p (std_begin W0 w) = (a, v) -> v_bad W0 v = false ->
    forall m, n <= m ->
      exists v', std W0 proc table abort types m A p (std_begin W0 w) = (a, v') /\
                 v_bad W0 v' = false /\ v_user W0 v' = v_user W0 v /\ forall i, v_objs W0 v' i = v_objs W0 v i.
Proof.
  intros W0 proc table abort types n A p w a v HP Hs B m L.
  assert (D := deeper_proc W0 proc table abort types HP n m L A p (std_begin W0 w) (std_begin W0 w)).
  rewrite Hs in D. cbn [fst snd] in D.
  destruct D as (E & Hu & _ & Hd & Hm); [repeat split|reflexivity|exact B|].
  destruct (std W0 proc table abort types m A p (std_begin W0 w)) as [a' v']. cbn [fst snd] in *. subst a'.
  exists v'. split; [reflexivity|]. split; [congruence|]. auto.
Qed.
Print Assumptions C70_depth_irrelevant.

(** ** A case: recursive construction *)

(** To construct a node of height k + 1, a node of height k is constructed in an optional
    (number k + 1), noted in a registry (optional 0), and destroyed again.  The constructor of
    a leaf throws according to a schedule.  All optionals have the same type, with a sentinel. *)
Inductive tree : Type -> Type :=
| Give {A} (a : A) : tree A
| Build (k : nat) : tree (res rep * rep)%type
| Gone (v : rep) : tree unit
| Main (k : nat) : tree obs
| Clash (k : nat) : tree (res rep * rep)%type
| ClashMain (k : nat) : tree obs.
Arguments Give {A} a.

Definition node (k : nat) : rep := [Atom (1 + Z.of_nat k); Atom 7].
Definition noted (k : nat) : tree (res rep * rep)%type := Give (ROk (node k), []).
Definition from (p : tree (res rep * rep)%type) : cini tree := MkCini None false (fun _ => p) false [].
Definition done {A} (a : A) : code tree A := Done a.

Definition tree_table (A : Type) (p : tree A) : code tree A + (sworld_t -> A * sworld_t) :=
  match p with
  | Give a => inl (done a)
  | Build 0 => inr (fun w => let (r, w') := user (node 0) w in ((r, []), w'))
  | Build (Suc k) => inl
      (Call (PInPlace (Suc k) (from (Build k))) (fun x =>
       match x with
       | ObThrow e => done (RThrow e, [])
       | _ => Call (PEmplace 0 (from (noted k))) (fun _ =>
              Call (PDtor (Suc k)) (fun _ => done (ROk (node (Suc k)), [])))
       end))
  | Gone v => inr (fun w => (tt, MkSW (sched w) (1 + Sample.calls w)))
  | Main k => inl
      (Call (PDefault 0) (fun _ => Call (PInPlace (Suc k) (from (Build k))) (fun x => done x)))
  (* wrong: the constructor uses the optional in which it constructs *)
  | Clash k => inl (Call (PReset k) (fun _ => done (ROk (node k), [])))
  | ClashMain k => inl (Call (PDefault k) (fun _ => Call (PEmplace k (from (Clash k))) (fun x => done x)))
  end.
Definition tree_abort (A : Type) (p : tree A) : A :=
  match p with
  | Give a => a
  | Build k => (ROk (node k), [])
  | Gone v => tt
  | Main k => ObUnit
  | Clash k => (ROk (node k), [])
  | ClashMain k => ObUnit
  end.
Definition tree_pay : cpay tree :=
  MkCpay (fun v => Give (ROk v)) (fun v => Give (ROk v, moved v))
    (fun d v => Give (ROk tt, v)) (fun d v => Give (ROk tt, (v, moved v)))
    (fun v => Give (ROk tt, v)) (fun v => Give (ROk tt, v))
    (fun a b => Give (ROk tt, (b, a))) (fun v => Give (ROk tt, v)) (fun v => Gone v)
    false true true true.
Definition tree_types (dbg : bool) : cenv tree :=
  MkCenv (fun _ => MkCty (ot_dec ty_sen) (ot_man ty_sen) tree_pay) (fun _ => 0) dbg.

Section Tree.
  Variable dbg : bool.
  Notation T := (tiny sworld_t tree tree_table tree_abort (tree_types dbg)).
  Notation ST := (std sworld_t tree tree_table tree_abort (tree_types dbg)).

  Lemma give_tiny n A (a : A) g : fst (T n A (Give a) g) = a.
  Proof. destruct n; reflexivity. Qed.
  Lemma give_std n A (a : A) v : ST (Suc n) A (Give a) v = (a, v).
  Proof. reflexivity. Qed.
  Lemma tree_ok : program_ok sworld_t tree tree_table tree_abort (tree_types dbg).
  Proof.
    split.
    - intros n t. destruct (sample_ok true 1) as [H1 H2 _]. split; [exact H1|exact H2|].
      split; cbn -[tiny]; intros; try discriminate; rewrite give_tiny; exact I.
    - intros A p. destruct p as [A a|[|k]|v|k|k|k]; cbn; auto.
      + split; [discriminate|]. intros []; cbn; auto; split; try discriminate; auto; intros; split; auto; intros; exact I.
      + split; [intros; exact I|]. intros _. split; [discriminate|]. intros; exact I.
      + split; [intros; exact I|]. intros _. split; [discriminate|]. intros; exact I.
  Qed.

  Lemma node_storable n i k : storable (t_env (ST n) (tree_types dbg)) i (node k) = true.
  Proof.
    unfold storable, node. assert (H : (1 + Z.of_nat k)%Z <> 0%Z) by lia. revert H.
    generalize (1 + Z.of_nat k)%Z. intros z H. cbn. destruct (Z.eqb_spec z 0); [contradiction|reflexivity].
  Qed.
  Lemma gone_std n v w : snd (ST (Suc n) unit (Gone v) w) =
    MkSP _ (MkSW (sched (v_user _ w)) (1 + Sample.calls (v_user _ w))) (v_objs _ w) (v_busy _ w) (v_bad _ w).
  Proof. reflexivity. Qed.

  (** Construction in an optional. *)
  Lemma in_place_std n i (p : tree (res rep * rep)%type) (t : sstate (sprog sworld_t)) k r w :
    objs t i = None -> ST n (res rep * rep)%type p (sworld t) = ((r, [] : rep), w) -> r = ROk (node k) \/ (exists e, r = RThrow e) ->
    exists t',
      std_call (t_env (ST n) (tree_types dbg)) (t_op (ST n) (PInPlace i (from p))) t =
        (match r with ROk _ => Ok ObUnit | RThrow e => Throw e end, t') /\
      sworld t' = w /\ objs t' i = match r with ROk _ => Some (SOpt (Some (node k))) | RThrow _ => None end.
  Proof.
    intros Ho Hp Hr. unfold std_call. cbn [t_op sstep].
    unfold sunit, sinit, sbind, fresh. rewrite Ho.
    cbn [t_ini i_src i_more i_fun i_const n_src n_more n_fun n_const from].
    unfold sret, suser. cbn [sread_more]. unfold sret. cbn [joined]. rewrite Hp.
    cbn [fst snd parted swrite_more]. unfold sret.
    destruct Hr as [->|(e & ->)]; cbn [sres].
    - unfold sret, become. rewrite node_storable. eexists. split; [reflexivity|]. cbn.
      unfold upd. rewrite Nat.eqb_refl. auto.
    - unfold sthrow. eexists. split; [reflexivity|]. cbn. auto.
  Qed.

  Lemma emplace_std n i k o (t : sstate (sprog sworld_t)) :
    objs t i = Some (SOpt o) ->
    exists t',
      std_call (t_env (ST (Suc n)) (tree_types dbg))
        (t_op (ST (Suc n)) (PEmplace i (from (noted k)))) t = (Ok ObUnit, t') /\
      v_objs _ (sworld t') = v_objs _ (sworld t) /\ v_bad _ (sworld t') = v_bad _ (sworld t) /\
      objs t' i = Some (SOpt (Some (node k))).
  Proof.
    intros Ho. unfold std_call. cbn [t_op sstep].
    unfold sunit, s_emplace, s_clear, sinit, sbind, contents. rewrite Ho.
    destruct o as [c|]; [unfold sdestroy, suser, become at 1, sset at 1|];
      cbn [t_ini i_src i_more i_fun i_const n_src n_more n_fun n_const from];
      unfold sret, suser; cbn [sread_more]; unfold sret; cbn [joined];
      (match goal with |- context [ST (Suc n) ?A ?p ?v] => change (ST (Suc n) A p v) with ((ROk (node k), [] : rep), v) end);
      cbn [fst snd parted swrite_more sres]; unfold sret, become; rewrite node_storable;
      (eexists; split; [reflexivity|]; cbn; unfold upd; rewrite Nat.eqb_refl; auto).
  Qed.
  Lemma dtor_std n i o (t : sstate (sprog sworld_t)) :
    objs t i = Some (SOpt o) ->
    exists t',
      std_call (t_env (ST (Suc n)) (tree_types dbg)) (t_op (ST (Suc n)) (PDtor i)) t = (Ok ObUnit, t') /\
      v_objs _ (sworld t') = v_objs _ (sworld t) /\ v_bad _ (sworld t') = v_bad _ (sworld t) /\
      objs t' i = None.
  Proof.
    intros Ho. unfold std_call. cbn [t_op sstep]. unfold sunit, s_dtor, sbind, contents. rewrite Ho.
    destruct o as [c|]; (eexists; split; [reflexivity|]; cbn; unfold upd; rewrite Nat.eqb_refl; auto).
  Qed.

  (** One call on one operand. *)
  Lemma call_std n o i (v : sprog sworld_t) r t x :
    uses (t_op (ST n) o) = [i] -> ~ In i (v_busy _ v) ->
    std_call (t_env (ST n) (tree_types dbg)) (t_op (ST n) o) (s_enter _ [i] v) = (r, t) ->
    match r with Ok y => x = y | Throw e => x = ObThrow e | Dead _ => False end ->
    s_call _ _ (tree_types dbg) (ST n) o v = (x, s_leave _ [i] (v_busy _ v) t).
  Proof.
    intros HU Hb Hc Hx. unfold s_call. rewrite HU. cbn [existsb]. apply among_not in Hb. rewrite Hb.
    cbn [orb]. rewrite Hc. destruct r; [subst; reflexivity|subst; reflexivity|contradiction].
  Qed.
  Lemma enter_at i (v : sprog sworld_t) : objs (s_enter _ [i] v) i = v_objs _ v i.
  Proof. cbn. rewrite Nat.eqb_refl. reflexivity. Qed.

  Definition outcome (k : nat) (w : sworld_t) : res rep :=
    match fst (user tt w) with ROk _ => ROk (node k) | RThrow e => RThrow e end.

  (** Nodes of all heights. *)
  Lemma build_std k : forall n (v : sprog sworld_t) o,
    k < n -> v_bad _ v = false -> v_objs _ v 0 = Some (SOpt o) ->
    (forall i, 1 <= i <= k -> v_objs _ v i = None) -> (forall i, i <= k -> ~ In i (v_busy _ v)) ->
    exists v', ST n (res rep * rep)%type (Build k) v = ((outcome k (v_user _ v), [] : rep), v') /\
      v_bad _ v' = false /\ v_busy _ v' = v_busy _ v /\ (exists o', v_objs _ v' 0 = Some (SOpt o')) /\
      forall i, i <> 0 -> v_objs _ v' i = v_objs _ v i.
  Proof.
    induction k as [|k IH]; intros n v o L B H0 HF HB; (destruct n as [|n]; [lia|]).
    - cbn [std tree_table]. unfold outcome, user. destruct (sched (v_user _ v)) as [|[e|] l]; cbn;
        (eexists; split; [reflexivity|]; cbn; eauto).
    - cbn [std tree_table exec].
      assert (Ro : outcome k (v_user _ v) = ROk (node k) /\ outcome (Suc k) (v_user _ v) = ROk (node (Suc k)) \/
                   exists e, outcome k (v_user _ v) = RThrow e /\ outcome (Suc k) (v_user _ v) = RThrow e).
      { unfold outcome. destruct (fst (user tt (v_user _ v))); eauto. }
      destruct (IH n (sworld (s_enter _ [Suc k] v)) o) as (v1 & E1 & B1 & Y1 & (o1 & O1) & F1).
      { lia. } { exact B. } { exact H0. }
      { intros i Hi. cbn. destruct (Nat.eqb_spec i (Suc k)); [reflexivity|]. apply HF. lia. }
      { intros i Hi. cbn. intros [<-|Hi2]; [lia|]. exact (HB i (le_S _ _ Hi) Hi2). }
      destruct (in_place_std n (Suc k) (Build k) (s_enter _ [Suc k] v) k (outcome k (v_user _ v)) v1) as (t1 & C1 & W1 & A1).
      { rewrite enter_at. apply HF. lia. } { exact E1. }
      { destruct Ro as [(R & _)|(e & R & _)]; [left|right; exists e]; exact R. }
      change (v_user _ (sworld (s_enter _ [Suc k] v))) with (v_user _ v) in *.
      assert (N1 : ~ In (Suc k) (v_busy _ v)) by (apply HB; lia).
      destruct Ro as [(R1 & R2)|(e & R1 & R2)]; rewrite R1 in C1, A1; rewrite R2.
      + rewrite (call_std n (PInPlace (Suc k) (from (Build k))) (Suc k) v _ t1 ObUnit eq_refl N1 C1 eq_refl).
        set (v2 := s_leave _ [Suc k] (v_busy _ v) t1) in *.
        assert (O2 : v_objs _ v2 0 = Some (SOpt o1)) by (cbn; rewrite W1; exact O1).
        destruct n as [|n]; [lia|].
        destruct (emplace_std n 0 k o1 (s_enter _ [0] v2)) as (t3 & C3 & W3 & B3 & A3); [rewrite enter_at; exact O2|].
        assert (N3 : ~ In 0 (v_busy _ v2)) by (cbn; apply HB; lia).
        cbn [exec]. change (s_leave _ [Suc k] (v_busy _ v) t1) with v2. rewrite (call_std (Suc n) (PEmplace 0 (from (noted k))) 0 v2 _ t3 ObUnit eq_refl N3 C3 eq_refl).
        set (v4 := s_leave _ [0] (v_busy _ v2) t3) in *.
        assert (O4 : v_objs _ v4 (Suc k) = Some (SOpt (Some (node k)))).
        { cbn. rewrite W3. cbn. rewrite Nat.eqb_refl. exact A1. }
        destruct (dtor_std n (Suc k) (Some (node k)) (s_enter _ [Suc k] v4)) as (t5 & C5 & W5 & B5 & A5); [rewrite enter_at; exact O4|].
        assert (N5 : ~ In (Suc k) (v_busy _ v4)) by (cbn; apply HB; lia).
        cbn [exec]. change (s_leave _ [0] (v_busy _ v2) t3) with v4. rewrite (call_std (Suc n) (PDtor (Suc k)) (Suc k) v4 _ t5 ObUnit eq_refl N5 C5 eq_refl).
        eexists. split; [reflexivity|]. split; [cbn; rewrite B5; cbn; rewrite B3; cbn; rewrite W1; exact B1|].
        split; [reflexivity|]. split.
        * eexists. cbn. rewrite W5. cbn. exact A3.
        * intros i Hi. cbn. destruct (Nat.eqb_spec i (Suc k)) as [->|Ni].
          -- cbn. rewrite A5. symmetry. apply HF. lia.
          -- cbn. rewrite W5. cbn. destruct (Nat.eqb_spec i (Suc k)); [contradiction|]. cbn.
             destruct (Nat.eqb_spec i 0); [contradiction|]. cbn. rewrite W3. cbn.
             destruct (Nat.eqb_spec i 0); [contradiction|]. cbn.
             destruct (Nat.eqb_spec i (Suc k)); [contradiction|]. cbn. rewrite W1, F1 by exact Hi. cbn.
             destruct (Nat.eqb_spec i (Suc k)); [contradiction|]. reflexivity.
      + rewrite (call_std n (PInPlace (Suc k) (from (Build k))) (Suc k) v _ t1 (ObThrow e) eq_refl N1 C1 eq_refl).
        eexists. split; [reflexivity|]. split; [cbn; rewrite W1; exact B1|]. split; [reflexivity|]. split.
        * eexists. cbn. rewrite W1. exact O1.
        * intros i Hi. cbn. destruct (Nat.eqb_spec i (Suc k)) as [->|Ni].
          -- cbn. rewrite A1. symmetry. apply HF. lia.
          -- cbn. rewrite W1, F1 by exact Hi. cbn. destruct (Nat.eqb_spec i (Suc k)); [contradiction|reflexivity].
  Qed.

  (** The whole program, for every height and every schedule. *)
  Lemma main_std k w :
    exists v o,
      ST (2 + k) obs (Main k) (std_begin _ w) =
        (match outcome k w with ROk _ => ObUnit | RThrow e => ObThrow e end, v) /\
      v_bad _ v = false /\ v_objs _ v 0 = Some (SOpt o) /\
      v_objs _ v (Suc k) = match outcome k w with ROk x => Some (SOpt (Some x)) | RThrow _ => None end /\
      forall i, i <> 0 -> i <> Suc k -> v_objs _ v i = None.
  Proof.
    cbn [Nat.add]. change (ST (Suc (Suc k)) obs (Main k) (std_begin _ w)) with
      (let (x, v) := s_call _ _ (tree_types dbg) (ST (Suc k)) (PDefault 0) (std_begin sworld_t w) in
       let (y, v') := s_call _ _ (tree_types dbg) (ST (Suc k)) (PInPlace (Suc k) (from (Build k))) v in
       (y, v')).
    set (v0 := s_leave _ [0] [] (MkS (upd (objs (s_enter _ [0] (std_begin sworld_t w))) 0 (Some (SOpt None)))
                                     (sworld (s_enter _ [0] (std_begin sworld_t w))))).
    rewrite (call_std (Suc k) (PDefault 0) 0 (std_begin _ w) (Ok ObUnit) _ ObUnit eq_refl (fun x => x) eq_refl eq_refl).
    change (s_leave _ [0] (v_busy _ (std_begin _ w)) _) with v0.
    destruct (build_std k (Suc k) (sworld (s_enter _ [Suc k] v0)) None) as (v1 & E1 & B1 & Y1 & (o1 & O1) & F1).
    { lia. } { reflexivity. } { reflexivity. }
    { intros i Hi. cbn. destruct (Nat.eqb_spec i (Suc k)); [reflexivity|]. cbn.
      destruct (Nat.eqb_spec i 0); [lia|]. reflexivity. }
    { intros i Hi [E|[]]. lia. }
    change (v_user _ (sworld (s_enter _ [Suc k] v0))) with w in E1.
    assert (Ro : outcome k w = ROk (node k) \/ exists e, outcome k w = RThrow e).
    { unfold outcome. destruct (fst (user tt w)); eauto. }
    destruct (in_place_std (Suc k) (Suc k) (Build k) (s_enter _ [Suc k] v0) k (outcome k w) v1) as (t1 & C1 & W1 & A1).
    { rewrite enter_at. reflexivity. } { exact E1. } { exact Ro. }
    assert (N1 : ~ In (Suc k) (v_busy _ v0)) by (intros []).
    destruct Ro as [R|(e & R)]; rewrite R in *;
      [rewrite (call_std (Suc k) (PInPlace (Suc k) (from (Build k))) (Suc k) v0 _ t1 ObUnit eq_refl N1 C1 eq_refl)
      |rewrite (call_std (Suc k) (PInPlace (Suc k) (from (Build k))) (Suc k) v0 _ t1 (ObThrow e) eq_refl N1 C1 eq_refl)];
      (eexists _, o1; split; [reflexivity|]; split; [cbn; rewrite W1; exact B1|]; split; [cbn; rewrite W1; exact O1|];
       split; [cbn; rewrite Nat.eqb_refl; exact A1|]; intros i N0 Nk; cbn;
       destruct (Nat.eqb_spec i (Suc k)); [contradiction|]; cbn; rewrite W1, F1 by exact N0; cbn;
       destruct (Nat.eqb_spec i (Suc k)); [contradiction|]; cbn;
       destruct (Nat.eqb_spec i 0); [contradiction|reflexivity]).
  Qed.
End Tree.

(** With tiny optionals the nodes of every height are constructed, in debug and release builds;
    a leaf that throws leaves no node behind. *)
Theorem C70_every_height :
  forall dbg k w n, 2 + k <= n ->
    exists g o,
      tiny _ _ tree_table tree_abort (tree_types dbg) n obs (Main k) (tiny_begin _ w) =
        (match fst (user tt w) with ROk _ => ObUnit | RThrow e => ObThrow e end, g) /\
      g_bad _ g = false /\
      peek (t_env (tiny _ _ tree_table tree_abort (tree_types dbg) n) (tree_types dbg)) 0 (whole _ g) = Some o /\
      (fst (user tt w) = ROk tt ->
       peek (t_env (tiny _ _ tree_table tree_abort (tree_types dbg) n) (tree_types dbg)) (Suc k) (whole _ g) =
         Some (Some (node k))) /\
      forall i, count (is_pay_begin i) (g_trace _ g) =
        count (is_pay_end i) (g_trace _ g) +
        (match fst (user tt w) with ROk _ => if Nat.eqb i (Suc k) then 1 else 0 | _ => 0 end) +
        (match i, o with 0, Some _ => 1 | _, _ => 0 end).
Proof.
  intros dbg k w n L. destruct (main_std dbg k w) as (v & o & Hs & B & H0 & Hk & Hi).
  destruct (C70_recursive_user_code _ _ tree_table tree_abort (tree_types dbg) (2 + k) obs (Main k) w _ v
              (tree_ok dbg) Hs B n L) as (g & Ht & S1 & _ & S3 & S4).
  unfold outcome in *. exists g, o. split; [rewrite Ht; destruct (fst (user tt w)); reflexivity|].
  split; [exact S1|]. split; [apply S3, H0|]. split.
  - intros R. rewrite R in Hk. apply S3, Hk.
  - intros i. destruct (S4 i) as (_ & _ & ->). rewrite <- Nat.add_assoc. f_equal.
    destruct (Nat.eqb_spec i (Suc k)) as [->|N].
    + rewrite Hk. destruct (fst (user tt w)); reflexivity.
    + destruct i as [|i].
      * rewrite H0. destruct (fst (user tt w)), o; reflexivity.
      * rewrite Hi by lia. destruct (fst (user tt w)); reflexivity.
Qed.
Print Assumptions C70_every_height.

(** The registry is used: a node of height 3 leaves the node of height 2 there; with a leaf that
    throws it stays empty. *)
Example C70_registry_example : forall dbg,
  v_objs _ (snd (std _ _ tree_table tree_abort (tree_types dbg) 5 obs (Main 3) (std_begin _ quiet))) 0 =
    Some (SOpt (Some (node 2))) /\
  v_objs _ (snd (std _ _ tree_table tree_abort (tree_types dbg) 5 obs (Main 3) (std_begin _ (plan [Some 4])))) 0 =
    Some (SOpt None).
Proof. intros []; split; reflexivity. Qed.

(** Too small a depth, and the use of an operand of a call in progress, are regarded as errors,
    so the theorem does not speak about them. *)
Example C70_excluded_example : forall dbg,
  v_bad _ (snd (std _ _ tree_table tree_abort (tree_types dbg) 4 obs (Main 3) (std_begin _ quiet))) = true /\
  v_bad _ (snd (std _ _ tree_table tree_abort (tree_types dbg) 9 obs (ClashMain 3) (std_begin _ quiet))) = true.
Proof. intros []; split; reflexivity. Qed.
