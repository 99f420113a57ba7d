(** * Accesses: calls of several threads at single memory accesses (C62)

    [Threads.v] takes a call as one step of the schedule.  Here a call is the sequence of
    its single accesses to memory, and the accesses of the threads may be interleaved in
    any way.  As [intro.races] demands, two accesses of different threads to the same
    object conflict if one of them writes.

    Simplifications: an access is to one object as a whole (an optional, a variable of
    the user); memory is sequentially consistent, which is what [intro.races]/21
    guarantees to programs without data races.  Each thread has its own world. *)

From Coq Require Import List NArith ZArith Bool Arith Lia.
From Verif Require Import Cells CellsFacts Machine Optional Program Spec Laws Refine Contract
  Effects Frame Sample ExampleTac Threads.
Import ListNotations.

(** ** Code as a sequence of accesses *)

(** [POwn]: a step of user code or of the lifetime bookkeeping, which is private to the
    thread. *)
Inductive prog (W A : Type) : Type :=
| PDone (r : out A)
| PRead (i : loc) (k : option region -> prog W A)
| PWrite (i : loc) (r : option region) (k : prog W A)
| POwn (f : W -> list event -> W * list event) (k : W -> list event -> prog W A).
Arguments PDone {W A} r.
Arguments PRead {W A} i k.
Arguments PWrite {W A} i r k.
Arguments POwn {W A} f k.

(** All accesses one after the other. *)
Fixpoint flat {W A} (p : prog W A) (s : state W) : out A * state W :=
  match p with
  | PDone r => (r, s)
  | PRead i k => flat (k (mem s i)) s
  | PWrite i r k => flat k (MkState (upd (mem s) i r) (world s) (trace s))
  | POwn f k => flat (k (world s) (trace s))
                     (MkState (mem s) (fst (f (world s) (trace s))) (snd (f (world s) (trace s))))
  end.
(** Reads only [R] and writes only [Wr], whatever it reads. *)
Fixpoint confined {W A} (R Wr : loc -> Prop) (p : prog W A) : Prop :=
  match p with
  | PDone _ => True
  | PRead i k => R i /\ forall r, confined R Wr (k r)
  | PWrite i _ k => Wr i /\ confined R Wr k
  | POwn _ k => forall w l, confined R Wr (k w l)
  end.
(** [p], then what follows its outcome. *)
Fixpoint pthen {W A B} (p : prog W A) (q : out A -> prog W B) : prog W B :=
  match p with
  | PDone r => q r
  | PRead i k => PRead i (fun r => pthen (k r) q)
  | PWrite i r k => PWrite i r (pthen k q)
  | POwn f k => POwn f (fun w l => pthen (k w l) q)
  end.

Lemma flat_pthen {W A B} (p : prog W A) (q : out A -> prog W B) :
  forall s, flat (pthen p q) s = flat (q (fst (flat p s))) (snd (flat p s)).
Proof. induction p as [r|i k IH|i r k IH|f k IH]; intros s; cbn; auto. Qed.
Lemma confined_pthen {W A B} R Wr (p : prog W A) (q : out A -> prog W B) :
  confined R Wr p -> (forall r, confined R Wr (q r)) -> confined R Wr (pthen p q).
Proof.
  intros Hp Hq. induction p as [r|i k IH|i r k IH|f k IH]; cbn in *; auto.
  - destruct Hp as [Hi Hk]. split; [exact Hi|]. intros r. apply IH, Hk.
  - destruct Hp as [Hi Hk]. split; [exact Hi|]. apply IH, Hk.
Qed.
Lemma confined_weaken {W A} (R R' Wr Wr' : loc -> Prop) (p : prog W A) :
  (forall j, R j -> R' j) -> (forall j, Wr j -> Wr' j) -> confined R Wr p -> confined R' Wr' p.
Proof.
  intros HR HW. induction p as [r|i k IH|i r k IH|f k IH]; cbn; intuition.
Qed.

(** ** The accesses of the library's code

    For each function of Machine.v and Optional.v, following its text. *)

Section Code.
  Context {W : Type}.
  Variable E : env W.
  Variables F G : loc -> Prop.
  Hypothesis GF : forall j, G j -> F j.

  Record code {A} (m : M W A) : Type := MkCode {
    prog_of : prog W A;
    prog_flat : forall s, flat prog_of s = m s;
    prog_in : confined F G prog_of
  }.
  Arguments MkCode {A m} prog_of prog_flat prog_in.
  Arguments prog_of {A m} c.
  Arguments prog_flat {A m} c s.
  Arguments prog_in {A m} c.

  Definition c_done {A} (r : out A) : code (fun s => (r, s)) :=
    MkCode (m := fun s => (r, s)) (PDone r) (fun s => eq_refl) I.
  Definition c_ret {A} (a : A) : code (ret a) := c_done (Ok a).
  Definition c_throw {A} e : code (@throw W A e) := c_done (Throw e).
  Definition c_dead {A} f : code (@dead W A f) := c_done (Dead f).

  Definition c_bind {A B} (m : M W A) (k : A -> M W B) :
    code m -> (forall a, code (k a)) -> code (bind m k).
  Proof.
    intros cm ck.
    refine (MkCode (pthen (prog_of cm)
              (fun r => match r with
                        | Ok a => prog_of (ck a)
                        | Throw e => PDone (Throw e)
                        | Dead f => PDone (Dead f)
                        end)) _ _).
    - intros s. rewrite flat_pthen, (prog_flat cm). unfold bind.
      destruct (m s) as [[a|e|f] s']; cbn; [apply (prog_flat (ck a))|reflexivity..].
    - apply confined_pthen; [apply (prog_in cm)|].
      intros [a|e|f]; [apply (prog_in (ck a))|exact I..].
  Defined.
  Definition c_noexcept {A} b (m : M W A) : code m -> code (noexcept_if b m).
  Proof.
    intros cm.
    refine (MkCode (pthen (prog_of cm)
              (fun r => PDone (match r with
                               | Throw e => if b then Dead Terminated else Throw e
                               | r => r
                               end))) _ _).
    - intros s. rewrite flat_pthen, (prog_flat cm). unfold noexcept_if.
      destruct (m s) as [[a|e|f] s']; cbn; [reflexivity|destruct b; reflexivity|reflexivity].
    - apply confined_pthen; [apply (prog_in cm)|]. intros r. exact I.
  Defined.
  Definition c_on_throw {A} (m : M W A) c : code m -> code c -> code (on_throw m c).
  Proof.
    intros cm cc.
    refine (MkCode (pthen (prog_of cm)
              (fun r => match r with
                        | Throw e =>
                            pthen (prog_of cc)
                              (fun q => PDone (match q with
                                               | Ok _ => Throw e
                                               | Throw _ => Dead Terminated
                                               | Dead f => Dead f
                                               end))
                        | r => PDone r
                        end)) _ _).
    - intros s. rewrite flat_pthen, (prog_flat cm). unfold on_throw.
      destruct (m s) as [[a|e|f] s']; cbn; [reflexivity| |reflexivity].
      rewrite flat_pthen, (prog_flat cc). destruct (c s') as [[u|e'|f] s'']; reflexivity.
    - apply confined_pthen; [apply (prog_in cm)|]. intros [a|e|f]; [exact I| |exact I].
      apply confined_pthen; [apply (prog_in cc)|]. intros r. exact I.
  Defined.
  Definition c_assert c : code c -> code (assert_ E c).
  Proof.
    intros cc. unfold assert_. destruct (e_dbg E); [|apply c_ret].
    apply c_bind; [exact cc|]. intros []; [apply c_ret|apply c_dead].
  Defined.

  Definition c_get i : F i -> code (get_region i).
  Proof.
    intros Hi.
    refine (MkCode (PRead i (fun r => match r with
                                      | Some r => PDone (Ok r)
                                      | None => PDone (Dead NoStorage)
                                      end)) _ _).
    - intros s. cbn. unfold get_region. destruct (mem s i); reflexivity.
    - split; [exact Hi|]. intros [r|]; exact I.
  Defined.
  Definition c_set i r : G i -> code (set_region i r).
  Proof.
    intros Hi. refine (MkCode (PWrite i r (PDone (Ok tt))) _ _).
    - intros s. reflexivity.
    - split; [exact Hi|exact I].
  Defined.
  Definition c_log e : code (log e).
  Proof.
    refine (MkCode (POwn (fun w l => (w, e :: l)) (fun _ _ => PDone (Ok tt))) _ _).
    - intros s. reflexivity.
    - intros w l. exact I.
  Defined.
  Definition c_call {A} (f : W -> A * W) : code (call f).
  Proof.
    refine (MkCode (POwn (fun w l => (snd (f w), l)) (fun w _ => PDone (Ok (fst (f w))))) _ _).
    - intros s. cbn. unfold call. destruct (f (world s)); reflexivity.
    - intros w l. exact I.
  Defined.
  Definition c_lift {A} (r : res A) : code (lift_res r).
  Proof. destruct r; [apply c_ret|apply c_throw]. Defined.
  Definition c_if_alive {A} i (m : M W A) (f : fault) :
    F i -> code m -> code (fun s => match mem s i with Some _ => (Dead f, s) | None => m s end).
  Proof.
    intros Hi cm.
    refine (MkCode (PRead i (fun r => match r with
                                      | Some _ => PDone (Dead f)
                                      | None => prog_of cm
                                      end)) _ _).
    - intros s. cbn. destruct (mem s i); [reflexivity|apply (prog_flat cm)].
    - split; [exact Hi|]. intros [r|]; [exact I|apply (prog_in cm)].
  Defined.
  Definition c_same {A} i j (m : M W A) : code m -> code (same_type E i j m).
  Proof. intros H. unfold same_type. destruct (Nat.eqb _ _); [exact H|apply c_dead]. Defined.

  Ltac dep1 :=
    first
      [ assumption | apply c_ret | apply c_throw | apply c_dead
      | apply c_noexcept | apply c_on_throw | apply c_assert | apply c_call | apply c_lift
      | apply c_get; assumption | apply c_set; assumption | apply c_log | apply c_same
      | match goal with |- code (bind _ _) => apply c_bind; [|intros ?] end
      | match goal with |- code (if ?b then _ else _) => destruct b end
      | match goal with |- code (match ?b with Some _ => _ | None => _ end) => destruct b end
      | match goal with |- code (match ?b with ROk _ => _ | RThrow _ => _ end) => destruct b end ].
  Ltac dep := repeat dep1.

  Definition c_load i : F i -> code (load_payload E i).
  Proof. intros. unfold load_payload. dep. Defined.
  Definition c_store i v : G i -> code (store_payload E i v).
  Proof. intros H. pose proof (GF i H). unfold store_payload. dep. Defined.
  Definition c_alloc i : G i -> code (alloc E i).
  Proof. intros H. apply c_if_alive; [apply GF, H|apply c_set, H]. Defined.
  Definition c_dealloc i : G i -> code (dealloc E i).
  Proof. intros H. pose proof (GF i H). unfold dealloc. dep. Defined.
  Definition c_has i : F i -> code (has_value E i).
  Proof. intros. unfold has_value, fm_is_empty. dep. Defined.
  Definition c_not m : code m -> code (not_ m).
  Proof. intros. unfold not_. dep. Defined.
  Definition c_same_has i j : F i -> F j -> code (same_has E i j).
  Proof. intros. pose proof (c_has i H). pose proof (c_has j H0). unfold same_has. dep. Defined.
  Definition c_init i : G i -> code (fm_init E i).
  Proof. intros H. pose proof (GF i H). unfold fm_init. dep. Defined.
  Definition c_inval i : G i -> code (fm_invalidate E i).
  Proof. intros H. pose proof (GF i H). unfold fm_invalidate. dep. Defined.
  Definition c_destroy i : G i -> code (destroy_payload E i).
  Proof. intros H. pose proof (GF i H). unfold destroy_payload. dep. Defined.

  Ltac dep2 := repeat first
    [ dep1 | apply c_load; assumption | apply c_store; assumption | apply c_alloc; assumption
    | apply c_dealloc; assumption | apply c_has; assumption | apply c_not | apply c_same_has; assumption
    | apply c_init; assumption | apply c_inval; assumption | apply c_destroy; assumption ].

  (** The object that the arguments refer to is read, and written unless const. *)
  Definition ini_fits (n : ini W) : Prop :=
    (forall j, In j (ini_uses n) -> F j) /\ (forall j, In j (ini_touches n) -> G j).

  Definition c_load_more l : (forall j, In j (map fst l) -> F j) -> code (load_more E l).
  Proof.
    induction l as [|[j c] l IH]; intros H; cbn [load_more].
    - dep2.
    - assert (F j) by (apply H; left; reflexivity).
      assert (code (load_more E l)) by (apply IH; intros k Hk; apply H; right; exact Hk). dep2.
  Defined.
  Definition c_store_more l :
    (forall j, In j (map fst (filter (fun x => negb (snd x)) l)) -> G j) ->
    forall vs, code (store_more E l vs).
  Proof.
    induction l as [|[j c] l IH]; intros H [|v vs]; cbn [store_more]; try (dep2; fail).
    destruct c.
    - assert (code (store_more E l vs)) by (apply IH; intros k Hk; apply H; exact Hk). dep2.
    - assert (G j) by (apply H; left; reflexivity). assert (F j) by (apply GF; assumption).
      assert (code (store_more E l vs)) by (apply IH; intros k Hk; apply H; right; exact Hk). dep2.
  Defined.
  Definition c_ini n : ini_fits n -> code (run_ini E n).
  Proof.
    unfold ini_fits, ini_uses, ini_touches, run_ini. intros H.
    assert (ML : forall j, In j (map fst (i_more n)) -> F j)
      by (intros j Hj; apply (proj1 H), in_or_app; auto).
    assert (MS : forall j, In j (map fst (filter (fun x => negb (snd x)) (i_more n))) -> G j)
      by (intros j Hj; apply (proj2 H), in_or_app; auto).
    pose proof (c_load_more _ ML) as CL. pose proof (c_store_more _ MS) as CS.
    destruct (i_src n) as [j|].
    - assert (F j) by (apply (proj1 H); left; reflexivity).
      destruct (i_const n).
      + dep2. apply CS.
      + assert (G j) by (apply (proj2 H); left; reflexivity). dep2. apply CS.
    - dep2. apply CS.
  Defined.
  Definition c_construct i n : G i -> ini_fits n -> code (construct_payload E i n).
  Proof.
    intros Hi Hn. pose proof (GF i Hi). pose proof (c_ini n Hn).
    unfold construct_payload, placement_new. dep2.
  Defined.
  Definition c_from_function i n : G i -> ini_fits n -> code (construct_payload_from_function E i n).
  Proof.
    intros Hi Hn. pose proof (GF i Hi). pose proof (c_ini n Hn).
    unfold construct_payload_from_function, placement_new. dep2.
  Defined.
  Lemma c_copy_ini j : F j -> ini_fits (copy_ini E j).
  Proof. intros H. split; [intros k [<-|[]]; exact H|intros k []]. Qed.
  Lemma c_move_ini j : G j -> ini_fits (move_ini E j).
  Proof. intros H. split; [intros k [<-|[]]; apply GF, H|intros k [<-|[]]; exact H]. Qed.
  Definition c_default i : G i -> code (storage_default E i).
  Proof. intros H. pose proof (GF i H). unfold storage_default. dep2. Defined.
  Definition c_storage_dtor i : G i -> code (storage_dtor E i).
  Proof. intros H. pose proof (GF i H). unfold storage_dtor. dep2. Defined.
  Definition c_reset i : G i -> code (reset E i).
  Proof. intros H. pose proof (GF i H). unfold reset. dep2. Defined.
  Definition c_assign_value i a : G i -> ini_fits (a_ini a) -> code (assign_value E i a).
  Proof.
    intros Hi H. pose proof (GF i Hi). pose proof (c_construct i _ Hi H).
    unfold assign_value, assign_payload. unfold ini_fits, ini_uses, ini_touches in H.
    destruct (i_src (a_ini a)) as [j|].
    - assert (F j) by (apply (proj1 H); left; reflexivity).
      destruct (i_const (a_ini a)).
      + dep2.
      + assert (G j) by (apply (proj2 H); left; reflexivity). dep2.
    - dep2.
  Defined.
  Definition c_ctor_default i : G i -> code (ctor_default E i).
  Proof. intros H. pose proof (c_default i H). unfold ctor_default. dep2. Defined.
  Definition c_ctor_in_place i n : G i -> ini_fits n -> code (ctor_in_place E i n).
  Proof. intros Hi Hn. pose proof (c_construct i n Hi Hn). unfold ctor_in_place. dep2. Defined.
  Definition c_ctor_from_function i n : G i -> ini_fits n -> code (ctor_from_function E i n).
  Proof. intros Hi Hn. pose proof (c_from_function i n Hi Hn). unfold ctor_from_function. dep2. Defined.
  Definition c_ctor_copy i j : G i -> F j -> code (ctor_copy E i j).
  Proof.
    intros Hi Hj. pose proof (GF i Hi). pose proof (c_default i Hi). pose proof (c_storage_dtor i Hi).
    pose proof (c_construct i _ Hi (c_copy_ini j Hj)). unfold ctor_copy. dep2.
  Defined.
  Definition c_ctor_move i j : G i -> G j -> code (ctor_move E i j).
  Proof.
    intros Hi Hj. pose proof (GF i Hi). pose proof (GF j Hj).
    pose proof (c_default i Hi). pose proof (c_storage_dtor i Hi).
    pose proof (c_construct i _ Hi (c_move_ini j Hj)). unfold ctor_move. dep2.
  Defined.
  Definition c_assign_move i j : G i -> G j -> code (assign_move E i j).
  Proof.
    intros Hi Hj. pose proof (GF i Hi). pose proof (GF j Hj).
    pose proof (c_assign_value i (move_arg E j) Hi (c_move_ini j Hj)).
    pose proof (c_reset i Hi). unfold assign_move. dep2.
  Defined.
  Definition c_assign_copy i j : G i -> F j -> code (assign_copy E i j).
  Proof.
    intros Hi Hj. pose proof (GF i Hi).
    pose proof (c_assign_value i (copy_arg E j) Hi (c_copy_ini j Hj)).
    pose proof (c_reset i Hi). unfold assign_copy. dep2.
  Defined.
  Definition c_build k o : G k -> code (build_result E k o).
  Proof.
    intros Hk. destruct o; [|apply c_ctor_default, Hk].
    apply c_ctor_in_place; [exact Hk|]. split; intros j [].
  Defined.

  Definition od_fits (o : operand) : Prop := forall i, In i (operand_uses o) -> F i.
  Lemma c_tiny i : F i -> od_fits (OpTiny i).
  Proof. intros Hi k [<-|[]]. exact Hi. Qed.
  Definition c_od_has o : od_fits o -> code (od_has E o).
  Proof. intros H. destruct o; cbn; try (assert (F i) by (apply H; left; reflexivity)); dep2. Defined.
  Definition c_od_get o : od_fits o -> code (od_get E o).
  Proof.
    intros H. destruct o as [i|[v|]| |v]; cbn; unfold op_deref;
      try (assert (F i) by (apply H; left; reflexivity)); dep2.
  Defined.
  Definition c_rel c r a b : code (rel_call c r a b).
  Proof. unfold rel_call. dep2. Defined.
  Definition c_three c a b : code (three_call c a b).
  Proof. unfold three_call. dep2. Defined.

  Ltac dep3 := repeat first
    [ dep1 | apply c_od_has; assumption | apply c_od_get; assumption | apply c_rel | apply c_three
    | apply c_has; assumption | apply c_load; assumption | apply c_not ].

  Definition c_deref_cmp c r L R : od_fits L -> od_fits R -> code (deref_cmp E c r L R).
  Proof. intros. unfold deref_cmp. dep3. Defined.
  Definition c_opt_opt c r L R : od_fits L -> od_fits R -> code (cmp_opt_opt E c r L R).
  Proof.
    intros HL HR. pose proof (fun q => c_deref_cmp c q L R HL HR) as D.
    destruct r; unfold cmp_opt_opt; dep3; apply D.
  Defined.
  Definition c_opt_null q i : F i -> code (cmp_opt_null E q i).
  Proof. intros H. destruct q; cbn; dep3. Defined.
  Definition c_null_opt q i : F i -> code (cmp_null_opt E q i).
  Proof. intros H. destruct q; cbn; dep3. Defined.
  Definition c_opt_val c r i v : F i -> code (cmp_opt_val E c r i v).
  Proof. intros Hi. pose proof (c_tiny i Hi). unfold cmp_opt_val. dep3. Defined.
  Definition c_val_opt c r i v : F i -> code (cmp_val_opt E c r v i).
  Proof. intros Hi. pose proof (c_tiny i Hi). unfold cmp_val_opt. dep3. Defined.
  Definition c_declared c r L R : od_fits L -> od_fits R -> code (declared E c r L R).
  Proof.
    intros HL HR.
    destruct L, R; cbn [declared]; try apply c_dead;
      try (apply c_opt_opt; assumption);
      try (apply c_opt_null; apply HL; left; reflexivity);
      try (apply c_null_opt; apply HR; left; reflexivity);
      try (apply c_opt_val; apply HL; left; reflexivity);
      try (apply c_val_opt; apply HR; left; reflexivity).
  Defined.
  Definition c_three_opt_opt c A B : od_fits A -> od_fits B -> code (three_opt_opt E c A B).
  Proof. intros. unfold three_opt_opt. dep3. Defined.
  Definition c_three_null i : F i -> code (three_opt_null E i).
  Proof. intros. unfold three_opt_null. dep3. Defined.
  Definition c_three_val c i v : F i -> code (three_opt_val E c i v).
  Proof. intros Hi. pose proof (c_tiny i Hi). unfold three_opt_val. dep3. Defined.
  Definition c_declared3 c L R : od_fits L -> od_fits R -> code (declared3 E c L R).
  Proof.
    intros HL HR.
    destruct L, R; cbn [declared3]; try apply c_dead;
      try (apply c_three_opt_opt; assumption);
      try (apply c_three_null; apply HL; left; reflexivity);
      try (apply c_three_val; apply HL; left; reflexivity).
  Defined.
  Definition c_compare rt c r L R : od_fits L -> od_fits R -> code (compare E rt c r L R).
  Proof.
    intros HL HR. destruct rt as [|rev]; [apply c_declared; assumption|].
    destruct rev, r; cbn [compare]; try (apply c_not); try (apply c_declared; assumption);
      (apply c_bind; [apply c_declared3; assumption|intros; apply c_ret]).
  Defined.
  Definition c_three_way g c L R : od_fits L -> od_fits R -> code (three_way E g c L R).
  Proof.
    intros HL HR.
    destruct L, R; cbn [three_way]; try apply c_dead; try destruct g;
      try (apply c_three_opt_opt; assumption);
      try (apply c_three_null; apply HL; left; reflexivity);
      try (apply c_three_val; apply HL; left; reflexivity);
      (apply c_bind; [|intros; apply c_ret]);
      try (apply c_three_opt_opt; assumption);
      try (apply c_three_null; apply HR; left; reflexivity);
      try (apply c_three_val; apply HR; left; reflexivity).
  Defined.

  Definition c_step o :
    (forall i, In i (uses o) -> F i) -> (forall i, In i (touches o) -> G i) -> code (step E o).
  Proof.
    destruct o; cbn [uses touches step]; intros HU HT; unfold unit_, bool_, val_;
      (apply c_bind; [|intros; apply c_ret]);
      try (assert (F i) by (apply HU; cbn; auto));
      try (assert (F j) by (apply HU; cbn; auto));
      try (assert (F k) by (apply HU; cbn; auto));
      try (assert (G i) by (apply HT; cbn; auto));
      try (assert (G j) by (apply HT; cbn; auto));
      try (assert (G k) by (apply HT; cbn; auto));
      try (assert (ini_fits n) by
             (split; intros q Hq; [apply HU; right; exact Hq|apply HT; right; exact Hq]));
      try (assert (ini_fits d) by
             (split; intros q Hq; [apply HU; right; exact Hq|
                                   apply HT; first [exact Hq | right; exact Hq]]));
      try (assert (ini_fits (a_ini a)) by
             (split; intros q Hq; [apply HU; right; exact Hq|apply HT; right; exact Hq]));
      try (assert (od_fits L) by (intros q Hq; apply HU, in_or_app; auto));
      try (assert (od_fits R) by (intros q Hq; apply HU, in_or_app; auto)).
    - apply c_ctor_default; assumption.
    - apply c_noexcept, c_ctor_default; assumption.
    - apply c_ctor_in_place; assumption.
    - apply c_ctor_copy; assumption.
    - apply c_ctor_move; assumption.
    - apply c_storage_dtor; assumption.
    - apply c_noexcept, c_reset; assumption.
    - apply c_assign_value; assumption.
    - apply c_assign_copy; assumption.
    - apply c_assign_move; assumption.
    - assert (Gi : G i) by assumption. assert (Hn : ini_fits n) by assumption.
      pose proof (c_reset i Gi). pose proof (c_construct i n Gi Hn). unfold emplace. dep2.
    - apply c_reset; assumption.
    - assert (Gi : G i) by assumption. assert (Gj : G j) by assumption.
      pose proof (c_reset i Gi). pose proof (c_reset j Gj).
      pose proof (c_construct i _ Gi (c_move_ini j Gj)).
      pose proof (c_construct j _ Gj (c_move_ini i Gi)).
      unfold swap, swap_payloads. dep2.
    - assert (Gi : G i) by assumption. assert (Gj : G j) by assumption. assert (Gk : G k) by assumption.
      pose proof (c_ctor_move k i Gk Gi). pose proof (c_storage_dtor k Gk).
      pose proof (c_assign_move i j Gi Gj). pose proof (c_assign_move j k Gj Gk).
      unfold std_swap, dtor. dep2.
    - apply c_has; assumption.
    - apply c_has; assumption.
    - apply c_bind.
      + destruct k; cbn; unfold op_deref, op_arrow, value; dep2.
      + intros _. unfold use_payload. destruct cst.
        * dep2.
        * assert (G i) by (apply HT; left; reflexivity). dep2.
    - assert (Fi : F i) by assumption. assert (Hd : ini_fits d) by assumption.
      pose proof (c_ini _ (c_copy_ini i Fi)). pose proof (c_ini _ Hd). unfold value_or_copy. dep2.
    - assert (Gi : G i) by assumption. assert (Hd : ini_fits d) by assumption.
      pose proof (c_ini _ (c_move_ini i Gi)). pose proof (c_ini _ Hd). unfold value_or_move. dep2.
    - assert (Gk : G k) by assumption.
      pose proof (c_ctor_default k Gk). pose proof (fun o => c_build k o Gk) as HB.
      unfold and_then, op_deref. destruct cst.
      + dep2; apply HB.
      + assert (G i) by (apply HT; right; left; reflexivity). dep2; apply HB.
    - assert (Gk : G k) by assumption. assert (Fi : F i) by assumption.
      pose proof (c_ctor_default k Gk). unfold transform, op_deref.
      assert (HC : ini_fits (MkIni (Some i) cst f nt)).
      { split; [intros q [<-|[]]; exact Fi|]. cbn. unfold ini_touches. cbn.
        intros q Hq. rewrite app_nil_r in Hq. apply HT. right. exact Hq. }
      pose proof (c_ctor_from_function k _ Gk HC). dep2.
    - assert (Gk : G k) by assumption. assert (Fi : F i) by assumption.
      pose proof (fun o => c_build k o Gk) as HB. unfold or_else. destruct mv.
      + assert (Gi : G i) by (apply HT; right; left; reflexivity).
        pose proof (c_ctor_move k i Gk Gi). dep2; apply HB.
      + pose proof (c_ctor_copy k i Gk Fi). dep2; apply HB.
    - apply c_compare; assumption.
    - apply c_three_way; assumption.
    - assert (Fi : F i) by assumption. pose proof (c_tiny i Fi). unfold hash. dep3.
    - unfold var_new. apply c_bind; [|intros; apply c_log].
      apply c_if_alive; [assumption|]. destruct (Nat.eqb _ _); [apply c_set; assumption|].
      exact (c_dead IllTyped).
    - unfold var_drop. dep2.
  Defined.
End Code.

(** The accesses of one call: reads of the objects it names, writes of those it may
    modify. *)
Definition accesses {W} (E : env W) (o : op W) : prog W obs :=
  prog_of _ _ _ (c_step E (fun j => In j (uses o)) (fun j => In j (touches o))
                   (fun j => touches_uses W o j) o (fun i H => H) (fun i H => H)).

(** [acc] gives the accesses of every call. *)
Definition implements {W} (E : env W) (acc : op W -> prog W obs) : Prop :=
  forall o, (forall s, flat (acc o) s = step E o s) /\
            confined (fun j => In j (uses o)) (fun j => In j (touches o)) (acc o).

(** ** Threads *)

(** The accesses of a list of calls; the outcome are the observations. *)
Fixpoint thread {W} (acc : op W -> prog W obs) (l : list (op W)) : prog W (list obs) :=
  match l with
  | [] => PDone (Ok [])
  | o :: l' =>
      pthen (acc o)
        (fun r =>
           let go x := pthen (thread acc l')
                         (fun q => PDone (match q with Ok xs => Ok (x :: xs) | q => q end)) in
           match r with Ok x => go x | Throw e => go (ObThrow e) | Dead f => PDone (Dead f) end)
  end.

Definition pool (W : Type) : Type := nat -> prog W (list obs).
Definition pset {W} (P : pool W) (t : nat) (p : prog W (list obs)) : pool W :=
  fun u => if Nat.eqb t u then p else P u.

(** The thread [t] makes one access. *)
Definition pstep {W} (t : nat) (x : pool W * cstate W) : pool W * cstate W :=
  let (P, c) := x in
  match P t with
  | PDone _ => (P, c)
  | PRead i k => (pset P t (k (cmem c i)), c)
  | PWrite i r k => (pset P t k, MkC (upd (cmem c) i r) (cown c))
  | POwn f k =>
      let (w, l) := cown c t in
      (pset P t (k w l), MkC (cmem c) (fun u => if Nat.eqb t u then f w l else cown c u))
  end.
(** A schedule is the list of the threads whose turn it is. *)
Definition prun {W} (sched : list nat) (x : pool W * cstate W) : pool W * cstate W :=
  fold_left (fun x t => pstep t x) sched x.

(** The access that comes next, and whether it is a write. *)
Definition next {W A} (p : prog W A) : option (loc * bool) :=
  match p with
  | PRead i _ => Some (i, false)
  | PWrite i _ _ => Some (i, true)
  | PDone _ | POwn _ _ => None
  end.
(** [intro.races]: a data race. *)
Definition racing {W} (P : pool W) : Prop :=
  exists t u i a b, t <> u /\ next (P t) = Some (i, a) /\ next (P u) = Some (i, b) /\ a || b = true.

(** No two threads make conflicting calls (as in Threads.v). *)
Definition apart {W} (T : nat -> list (op W)) : Prop :=
  forall t u o o' j, t <> u -> In o (T t) -> In o' (T u) -> In j (touches o) -> ~ In j (uses o').

(** One thread alone. *)
Definition astep {W A} (x : prog W A * state W) : prog W A * state W :=
  let (p, s) := x in
  match p with
  | PDone _ => (p, s)
  | PRead i k => (k (mem s i), s)
  | PWrite i r k => (k, MkState (upd (mem s) i r) (world s) (trace s))
  | POwn f k => (k (world s) (trace s),
                 MkState (mem s) (fst (f (world s) (trace s))) (snd (f (world s) (trace s))))
  end.
Fixpoint arun {W A} (n : nat) (x : prog W A * state W) : prog W A * state W :=
  match n with 0 => x | Datatypes.S n' => arun n' (astep x) end.

Lemma astep_flat {W A} (p : prog W A) s :
  flat (fst (astep (p, s))) (snd (astep (p, s))) = flat p s.
Proof. destruct p; reflexivity. Qed.
Lemma arun_flat {W A} n : forall (p : prog W A) s,
  flat (fst (arun n (p, s))) (snd (arun n (p, s))) = flat p s.
Proof.
  induction n as [|n IH]; intros p s; [reflexivity|]. cbn [arun].
  rewrite <- (astep_flat p s). destruct (astep (p, s)) as [q u]. apply IH.
Qed.
Lemma arun_last {W A} n : forall (x : prog W A * state W), arun (Datatypes.S n) x = astep (arun n x).
Proof. induction n as [|n IH]; intros x; [reflexivity|]. cbn [arun] in *. apply IH. Qed.

Lemma upd_other {A} (m : loc -> option A) i j x : i <> j -> upd m i x j = m j.
Proof. intros H. unfold upd. destruct (Nat.eqb_spec i j); [contradiction|reflexivity]. Qed.

Section Lockstep.
  Context {W : Type}.
  (** What each thread reads and writes. *)
  Variables R Wr : nat -> loc -> Prop.
  Hypothesis WR : forall t j, Wr t j -> R t j.
  Hypothesis disjoint : forall t u j, t <> u -> Wr t j -> ~ R u j.

  (** The thread [t] of the pool is where it is alone, and sees the same. *)
  Definition same_as (t : nat) (x : prog W (list obs) * state W) (y : pool W * cstate W) : Prop :=
    fst x = fst y t /\ world (snd x) = fst (cown (snd y) t) /\ trace (snd x) = snd (cown (snd y) t) /\
    (forall j, R t j -> mem (snd x) j = cmem (snd y) j) /\ confined (R t) (Wr t) (fst x).

  Lemma same_step t x y : same_as t x y -> same_as t (astep x) (pstep t y).
  Proof.
    destruct x as [p s], y as [P c]. intros (Hp & Hw & Ht & Hm & Hc). cbn in *. subst p.
    destruct (P t) as [r|i k|i r k|f k] eqn:EP; cbn in *.
    - unfold same_as. cbn. rewrite EP. auto.
    - destruct Hc as [Hi Hk]. unfold same_as, pset. cbn. rewrite Nat.eqb_refl, (Hm i Hi).
      repeat split; auto.
    - destruct Hc as [Hi Hk]. unfold same_as, pset. cbn. rewrite Nat.eqb_refl.
      repeat split; auto. intros j Hj. unfold upd. destruct (Nat.eqb i j); auto.
    - destruct (cown c t) as [w l] eqn:EO. cbn in *. subst w l.
      unfold same_as, pset. cbn. rewrite !Nat.eqb_refl.
      repeat split; auto.
  Qed.
  Lemma same_other t u x z y :
    t <> u -> same_as t x y -> same_as u z y -> same_as t x (pstep u y).
  Proof.
    destruct x as [p s], y as [P c], z as [q v].
    intros N (Hp & Hw & Ht & Hm & Hc) (Hq & _ & _ & _ & Hd). cbn in *. subst p q.
    assert (Ne : Nat.eqb u t = false) by (apply Nat.eqb_neq; congruence).
    destruct (P u) as [r|i k|i r k|f k] eqn:EP; cbn in *.
    - repeat split; auto.
    - unfold same_as, pset. cbn. rewrite Ne. repeat split; auto.
    - unfold same_as, pset. cbn. rewrite Ne. repeat split; auto.
      intros j Hj. rewrite (Hm j Hj). symmetry. apply upd_other. intros <-.
      exact (disjoint u t i (fun e => N (eq_sym e)) (proj1 Hd) Hj).
    - destruct (cown c u) as [w l]. unfold same_as, pset. cbn. rewrite Ne.
      repeat split; auto.
  Qed.

  (** The number of turns of [t]. *)
  Definition turns (t : nat) (sched : list nat) : nat := count_occ Nat.eq_dec sched t.

  Lemma lockstep sched : forall y (x : nat -> prog W (list obs) * state W),
    (forall t, same_as t (x t) y) ->
    forall t, same_as t (arun (turns t sched) (x t)) (prun sched y).
  Proof.
    induction sched as [|u sched IH]; intros y x H t; [apply H|].
    cbn [prun fold_left]. unfold turns. cbn [count_occ].
    assert (H' : forall v, same_as v (if Nat.eq_dec u v then astep (x v) else x v) (pstep u y)).
    { intros v. destruct (Nat.eq_dec u v) as [<-|N].
      - apply same_step, H.
      - apply (same_other v u (x v) (x u)); auto. }
    specialize (IH (pstep u y) _ H' t). cbv beta in IH.
    destruct (Nat.eq_dec u t) as [<-|N]; exact IH.
  Qed.
End Lockstep.

Lemma thread_confined {W} (E : env W) acc (l : list (op W)) :
  implements E acc ->
  confined (fun j => exists o, In o l /\ In j (uses o)) (fun j => exists o, In o l /\ In j (touches o))
           (thread acc l).
Proof.
  intros H. induction l as [|o l IH]; [exact I|]. cbn [thread].
  assert (IH' : confined (fun j => exists o', In o' (o :: l) /\ In j (uses o'))
                         (fun j => exists o', In o' (o :: l) /\ In j (touches o')) (thread acc l)).
  { refine (confined_weaken _ _ _ _ _ _ _ IH); intros j (o' & Ho & Hj); exists o'; split; auto; right; exact Ho. }
  apply confined_pthen.
  - refine (confined_weaken _ _ _ _ _ _ _ (proj2 (H o)));
      intros j Hj; exists o; split; auto; left; reflexivity.
  - intros [x|e|f]; [| |exact I]; (apply confined_pthen; [exact IH'|]); intros [xs|e'|f']; exact I.
Qed.
(** Made one after the other, the accesses of a thread are its calls. *)
Lemma thread_flat {W} (E : env W) acc (l : list (op W)) :
  implements E acc ->
  forall s, flat (thread acc l) s =
    (match fst (run E l s) with inl xs => Ok xs | inr f => Dead f end, snd (run E l s)).
Proof.
  intros H. induction l as [|o l IH]; intros s; [reflexivity|].
  cbn [thread run]. rewrite flat_pthen, (proj1 (H o)).
  destruct (step E o s) as [[x|e|f] s']; cbn [fst snd].
  - rewrite flat_pthen, IH. destruct (run E l s') as [[xs|f] s'']; reflexivity.
  - rewrite flat_pthen, IH. destruct (run E l s') as [[xs|f] s'']; reflexivity.
  - reflexivity.
Qed.

Lemma start {W} (E : env W) acc (T : nat -> list (op W)) c :
  implements E acc ->
  forall t, same_as (fun t j => exists o, In o (T t) /\ In j (uses o))
                    (fun t j => exists o, In o (T t) /\ In j (touches o)) t
                    (thread acc (T t), view c t) ((fun t => thread acc (T t)), c).
Proof.
  intros H t. repeat split; try reflexivity. cbn. apply (thread_confined E acc (T t) H).
Qed.

(** The next access of a thread that ran alone for a while is among those it may make. *)
Lemma next_confined {W A} (R Wr : loc -> Prop) (p : prog W A) i b :
  confined R Wr p -> next p = Some (i, b) -> if b then Wr i else R i.
Proof. destruct p; cbn; intros H Hn; inversion Hn; subst; apply H. Qed.

(** ** C62 *)

(** Every call is a sequence of accesses: it reads only objects that it names and writes
    only those that it may modify. *)
Theorem C62_calls_are_accesses : forall W (E : env W), implements E (accesses E).
Proof.
  intros W E o. unfold accesses.
  set (c := c_step _ _ _ _ _ _ _). clearbody c. split; [apply prog_flat|apply prog_in].
Qed.

(** Without conflicting calls there is no data race: at no time of no interleaving of the
    single accesses can two threads access the same object next, one of them writing. *)
Theorem C62_no_data_race :
  forall W (E : env W) acc T c sched,
    implements E acc -> apart T -> ~ racing (fst (prun sched ((fun t => thread acc (T t)), c))).
Proof.
  intros W E acc T c sched HI HA (t & u & i & a & b & N & Ht & Hu & Hab).
  assert (D : forall t u j, t <> u -> (exists o, In o (T t) /\ In j (touches o)) ->
                            ~ (exists o, In o (T u) /\ In j (uses o))).
  { intros v v' j Nv (o & Ho & Hj) (o' & Ho' & Hj'). exact (HA v v' o o' j Nv Ho Ho' Hj Hj'). }
  assert (WR : forall (t : nat) j, (exists o, In o (T t) /\ In j (touches o)) ->
                                   exists o, In o (T t) /\ In j (uses o)).
  { intros v j (o & Ho & Hj). exists o. split; [exact Ho|apply touches_uses, Hj]. }
  pose proof (lockstep _ _ D sched _ _ (start E acc T c HI)) as L.
  destruct (prun sched _) as [P c']. cbn [fst] in *.
  destruct (L t) as (E1 & _ & _ & _ & C1). destruct (L u) as (E2 & _ & _ & _ & C2).
  cbn [fst] in E1, E2. rewrite E1 in C1. rewrite E2 in C2.
  pose proof (next_confined _ _ _ _ _ C1 Ht) as X. pose proof (next_confined _ _ _ _ _ C2 Hu) as Y.
  destruct a, b; cbn in Hab; try discriminate; cbv beta iota in X, Y.
  - exact (D t u i N X (WR u i Y)).
  - exact (D t u i N X Y).
  - exact (D u t i (fun e => N (eq_sym e)) Y X).
Qed.

(** Whatever the interleaving of the single accesses, a thread that has finished made the
    observations that its calls make alone, one after the other, with the same effect on
    its world, its lifetime events and the objects that it uses. *)
Theorem C62_interleaved_accesses_do_not_interfere :
  forall W (E : env W) acc T c sched P c' t r,
    implements E acc -> apart T ->
    prun sched ((fun t => thread acc (T t)), c) = (P, c') -> P t = PDone r ->
    r = match fst (run E (T t) (view c t)) with inl xs => Ok xs | inr f => Dead f end /\
    cown c' t = (world (snd (run E (T t) (view c t))), trace (snd (run E (T t) (view c t)))) /\
    forall o j, In o (T t) -> In j (uses o) -> cmem c' j = mem (snd (run E (T t) (view c t))) j.
Proof.
  intros W E acc T c sched P c' t r HI HA Hrun Hdone.
  assert (D : forall t u j, t <> u -> (exists o, In o (T t) /\ In j (touches o)) ->
                            ~ (exists o, In o (T u) /\ In j (uses o))).
  { intros v v' j Nv (o & Ho & Hj) (o' & Ho' & Hj'). exact (HA v v' o o' j Nv Ho Ho' Hj Hj'). }
  pose proof (lockstep _ _ D sched _ _ (start E acc T c HI) t) as L. rewrite Hrun in L.
  pose proof (arun_flat (turns t sched) (thread acc (T t)) (view c t)) as X.
  destruct (arun (turns t sched) (thread acc (T t), view c t)) as [p s].
  destruct L as (E1 & E2 & E3 & E4 & _). cbn [fst snd] in *. subst p. rewrite Hdone in X.
  rewrite (thread_flat E acc (T t) HI) in X. cbn in X. injection X as -> ->.
  split; [reflexivity|]. split.
  - destruct (cown c' t). cbn in *. congruence.
  - intros o j Ho Hj. symmetry. apply E4. exists o. auto.
Qed.

(** Every thread finishes: there is a number of turns after which it is done in every
    interleaving. *)
Lemma alone_finishes {W A} (p : prog W A) :
  forall s, exists n, forall m, n <= m -> exists r, fst (arun m (p, s)) = PDone r.
Proof.
  induction p as [r|i k IH|i r k IH|f k IH]; intros s.
  - exists 0. intros m _. exists r. induction m as [|m IHm]; [reflexivity|exact IHm].
  - destruct (IH (mem s i) s) as [n Hn]. exists (Datatypes.S n). intros [|m] Hm; [lia|].
    exact (Hn m (le_S_n _ _ Hm)).
  - destruct (IH (MkState (upd (mem s) i r) (world s) (trace s))) as [n Hn].
    exists (Datatypes.S n). intros [|m] Hm; [lia|]. exact (Hn m (le_S_n _ _ Hm)).
  - destruct (IH (world s) (trace s)
                (MkState (mem s) (fst (f (world s) (trace s))) (snd (f (world s) (trace s))))) as [n Hn].
    exists (Datatypes.S n). intros [|m] Hm; [lia|]. exact (Hn m (le_S_n _ _ Hm)).
Qed.
Theorem C62_every_thread_finishes :
  forall W (E : env W) acc T c t,
    implements E acc -> apart T ->
    exists n, forall sched, n <= turns t sched ->
      exists r, fst (prun sched ((fun t => thread acc (T t)), c)) t = PDone r.
Proof.
  intros W E acc T c t HI HA.
  assert (D : forall t u j, t <> u -> (exists o, In o (T t) /\ In j (touches o)) ->
                            ~ (exists o, In o (T u) /\ In j (uses o))).
  { intros v v' j Nv (o & Ho & Hj) (o' & Ho' & Hj'). exact (HA v v' o o' j Nv Ho Ho' Hj Hj'). }
  destruct (alone_finishes (thread acc (T t)) (view c t)) as [n Hn]. exists n.
  intros sched Hs. destruct (Hn _ Hs) as [r Hr]. exists r.
  pose proof (lockstep _ _ D sched _ _ (start E acc T c HI) t) as L.
  destruct (prun sched _) as [P c']. destruct L as (E1 & _). cbn in E1 |- *. congruence.
Qed.

(** Threads that start after a common history show what threads using std::optional show
    (as C56_threads_as_std, for every interleaving of the single accesses). *)
Theorem C62_threads_as_std :
  forall W (E : env W) acc w h s ys (u : sstate W) T wt xs sched P c' t r,
    implements E acc -> env_ok E -> contract E w h -> reaches E w h s ->
    std_run E w h = (Some ys, u) ->
    apart T -> (forall t, Forall op_ok (T t)) ->
    (forall t, fst (srun (e_tid E) (ops E) (storable E) (is_value E) (T t) (MkS (objs u) (wt t)))
               = Some (xs t)) ->
    prun sched ((fun t => thread acc (T t)), MkC (mem s) (fun t => (wt t, []))) = (P, c') ->
    P t = PDone r -> r = Ok (xs t).
Proof.
  intros W E acc w h s ys u T wt xs sched P c' t r HI HE C R Hu HA Hok Hx Hrun Hdone.
  destruct (reaches_rel E HE w h s C R) as (ys' & u' & Hu' & Rl).
  rewrite Hu in Hu'. injection Hu' as <- <-.
  destruct (C62_interleaved_accesses_do_not_interfere W E acc T _ sched P c' t r HI HA Hrun Hdone)
    as (-> & _).
  assert (Rt : rel E NoHole (MkState (mem s) (wt t) []) (MkS (objs u) (wt t))).
  { destruct Rl as (_ & _ & Hobj). split; [reflexivity|]. split; [intros i []|]. exact Hobj. }
  pose proof (refines_run E HE (T t) _ _ (Hok t) Rt) as Q. specialize (Hx t).
  change (view (MkC (mem s) (fun t => (wt t, []))) t) with (MkState (mem s) (wt t) []).
  destruct (srun _ _ _ _ (T t) _) as [q t']. cbn in Hx. subst q.
  destruct Q as (st & -> & _). reflexivity.
Qed.

(** The threads of C56_example, with their accesses in turn: they do nothing else than
    alone.  With conflicting calls there is a race, and a schedule in which one thread finds
    the optional half destroyed. *)
Example C62_example dbg :
  let E := sample dbg in
  let T t := of t thread_sample in
  let c := MkC (mem (snd (run E [OInPlace 0 (mkP 1 2)] (init_state quiet)))) (fun _ => (quiet, [])) in
  let sched := concat (repeat [1; 2] 200) in
  apart T /\
  fst (prun sched ((fun t => thread (accesses E) (T t)), c)) 1
    = PDone (Ok [ObUnit; ObUnit; ObVal [Atom 1; Atom 2]; ObUnit]) /\
  fst (prun sched ((fun t => thread (accesses E) (T t)), c)) 2
    = PDone (Ok [ObBool true; ObUnit; ObUnit; ObVal [Atom 1; Atom 2]; ObUnit]).
Proof.
  cbv zeta. split.
  - pose proof (proj1 (C56_example dbg)) as RF. intros t u o o' j N H1 H2.
    exact (RF t u o o' j N (proj1 (of_in _ _ _) H1) (proj1 (of_in _ _ _) H2)).
  - split; destruct dbg; vm_compute; reflexivity.
Qed.
Example C62_conflict_example dbg :
  let E := sample dbg in
  let T t := match t with 1 => [OReset 0] | 2 => [OAccess AccValue 0 true look] | _ => [] end in
  let c := MkC (mem (snd (run E [OInPlace 0 (mkP 1 2)] (init_state quiet)))) (fun _ => (quiet, [])) in
  let start := ((fun t => thread (accesses E) (T t)), c) in
  ~ apart T /\
  racing (fst (prun [1; 1; 1] start)) /\
  fst (prun ([2] ++ repeat 1 100 ++ repeat 2 100) start) 2 = PDone (Dead NoObject).
Proof.
  cbv zeta. split; [|split].
  - intros H. refine (H 1 2 _ _ 0 _ (or_introl eq_refl) (or_introl eq_refl) _ _); cbn; auto.
  - exists 1, 2, 0, true, false. split; [discriminate|]. destruct dbg; vm_compute; auto.
  - destruct dbg; vm_compute; reflexivity.
Qed.
