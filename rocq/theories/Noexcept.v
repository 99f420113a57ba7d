(** * Noexcept: property C27 *)

From Coq Require Import List NArith ZArith Bool Arith Lia.
From Verif Require Import Cells CellsFacts Machine Optional Program Spec Laws Refine Contract
  Bits Manip Sample ExampleTac SpecTac.
Import ListNotations.

Local Arguments put : simpl never.
Local Arguments sub : simpl never.

(** ** The program is never terminated *)

Section NoTerminate.
  Context {W : Type}.
  Variable E : env W.

  (** In no state whatsoever does the code terminate / throw. *)
  Definition nt {A} (m : M W A) : Prop := forall s, fst (m s) <> Dead Terminated.
  Definition nx {A} (m : M W A) : Prop := forall s e, fst (m s) <> Throw e.

  Lemma nt_bind {A B} (m : M W A) (k : A -> M W B) : nt m -> (forall a, nt (k a)) -> nt (bind m k).
  Proof.
    intros Hm Hk s. unfold bind. specialize (Hm s). destruct (m s) as [[a|e|f] s']; cbn in *; [apply Hk| |]; congruence.
  Qed.
  Lemma nx_bind {A B} (m : M W A) (k : A -> M W B) : nx m -> (forall a, nx (k a)) -> nx (bind m k).
  Proof.
    intros Hm Hk s e. unfold bind. specialize (Hm s e). destruct (m s) as [[a|e0|f] s']; cbn in *; [apply Hk| |]; congruence.
  Qed.
  Lemma nt_noexcept {A} b (m : M W A) : nt m -> (b = true -> nx m) -> nt (noexcept_if b m).
  Proof.
    intros Hm Hx s. unfold noexcept_if. specialize (Hm s).
    destruct (m s) as [[a|e|f] s'] eqn:H; cbn in *; try congruence.
    destruct b; [|discriminate]. destruct (Hx eq_refl s e). rewrite H. reflexivity.
  Qed.
  Lemma nx_noexcept {A} b (m : M W A) : (b = true \/ nx m) -> nx (noexcept_if b m).
  Proof.
    intros Hx s e. unfold noexcept_if. destruct (m s) as [[a|e0|f] s'] eqn:H; cbn; try discriminate.
    destruct b; [discriminate|]. destruct Hx as [Hx|Hx]; [discriminate|].
    intros _. apply (Hx s e0). rewrite H. reflexivity.
  Qed.
  Lemma nt_on_throw {A} (m : M W A) c : nt m -> nt c -> nx c -> nt (on_throw m c).
  Proof.
    intros Hm Hc Hx s. unfold on_throw. specialize (Hm s).
    destruct (m s) as [[a|e|f] s'] eqn:H; cbn in *; try congruence.
    specialize (Hc s'). destruct (c s') as [[u|e0|f] s2] eqn:H2; cbn in *; try congruence.
    destruct (Hx s' e0). rewrite H2. reflexivity.
  Qed.
  Lemma nx_on_throw {A} (m : M W A) c : nx m -> nx (on_throw m c).
  Proof.
    intros Hm s e. unfold on_throw. destruct (m s) as [[a|e0|f] s'] eqn:H; cbn; try discriminate.
    destruct (Hm s e0). rewrite H. reflexivity.
  Qed.
  Lemma nt_ret {A} (a : A) : nt (ret a). Proof. discriminate. Qed.
  Lemma nx_ret {A} (a : A) : nx (ret a). Proof. discriminate. Qed.
  Lemma nt_throw {A} e : nt (throw (A := A) e). Proof. discriminate. Qed.
  Lemma nt_dead {A} f : f <> Terminated -> nt (dead (A := A) f).
  Proof. intros H s. cbn. congruence. Qed.
  Lemma nx_dead {A} f : nx (dead (A := A) f). Proof. discriminate. Qed.
  Lemma nt_get i : nt (get_region i).
  Proof. intros s. unfold get_region. destruct (mem s i); discriminate. Qed.
  Lemma nx_get i : nx (get_region i).
  Proof. intros s e. unfold get_region. destruct (mem s i); discriminate. Qed.
  Lemma nt_set i r : nt (set_region i r). Proof. discriminate. Qed.
  Lemma nx_set i r : nx (set_region i r). Proof. discriminate. Qed.
  Lemma nt_log e : nt (log e). Proof. discriminate. Qed.
  Lemma nx_log e : nx (log e). Proof. discriminate. Qed.
  Lemma nt_call {A} (f : W -> A * W) : nt (call f).
  Proof. intros s. unfold call. destruct (f (world s)). discriminate. Qed.
  Lemma nx_call {A} (f : W -> A * W) : nx (call f).
  Proof. intros s e. unfold call. destruct (f (world s)). discriminate. Qed.
  Lemma nt_lift {A} (r : res A) : nt (lift_res r). Proof. destruct r; discriminate. Qed.
  Lemma nt_alloc i : nt (alloc E i).
  Proof. intros s. unfold alloc. destruct (mem s i); discriminate. Qed.
  Lemma nx_alloc i : nx (alloc E i).
  Proof. intros s e. unfold alloc. destruct (mem s i); discriminate. Qed.

  Ltac go :=
    repeat first
      [ match goal with
        | |- nt (bind _ _) => apply nt_bind; [|intros ?]
        | |- nx (bind _ _) => apply nx_bind; [|intros ?]
        end
      | apply nt_ret | apply nx_ret | apply nt_throw | apply nt_dead; discriminate | apply nx_dead
      | apply nt_get | apply nx_get | apply nt_set | apply nx_set | apply nt_log | apply nx_log
      | apply nt_call | apply nx_call | apply nt_lift | apply nt_alloc | apply nx_alloc
      | match goal with
        | |- nt (match ?b with _ => _ end) => destruct b
        | |- nx (match ?b with _ => _ end) => destruct b
        end ].

  Lemma nt_is_empty i : nt (fm_is_empty E i). Proof. unfold fm_is_empty. go. Qed.
  Lemma nx_is_empty i : nx (fm_is_empty E i). Proof. unfold fm_is_empty. go. Qed.
  Lemma nt_init i : nt (fm_init E i). Proof. unfold fm_init. go. Qed.
  Lemma nx_init i : nx (fm_init E i). Proof. unfold fm_init. go. Qed.
  Lemma nt_inval i : nt (fm_invalidate E i). Proof. unfold fm_invalidate. go. Qed.
  Lemma nx_inval i : nx (fm_invalidate E i). Proof. unfold fm_invalidate. go. Qed.
  Lemma nt_has i : nt (has_value E i). Proof. unfold has_value. go. apply nt_is_empty. Qed.
  Lemma nx_has i : nx (has_value E i). Proof. unfold has_value. go. apply nx_is_empty. Qed.
  Lemma nt_not m : nt m -> nt (@not_ W m). Proof. intros. unfold not_. go. assumption. Qed.
  Lemma nx_not m : nx m -> nx (@not_ W m). Proof. intros. unfold not_. go. assumption. Qed.
  Lemma nt_assert m : nt m -> nt (assert_ E m). Proof. intros. unfold assert_. go. assumption. Qed.
  Lemma nx_assert m : nx m -> nx (assert_ E m). Proof. intros. unfold assert_. go. assumption. Qed.
  Lemma nt_same_has i j : nt (same_has E i j). Proof. unfold same_has. go; apply nt_has. Qed.
  Lemma nx_same_has i j : nx (same_has E i j). Proof. unfold same_has. go; apply nx_has. Qed.
  Lemma nt_load i : nt (load_payload E i). Proof. unfold load_payload. go. Qed.
  Lemma nx_load i : nx (load_payload E i). Proof. unfold load_payload. go. Qed.
  Lemma nt_store i v : nt (store_payload E i v). Proof. unfold store_payload. go. Qed.
  Lemma nx_store i v : nx (store_payload E i v). Proof. unfold store_payload. go. Qed.
  Lemma nt_destroy i : nt (destroy_payload E i). Proof. unfold destroy_payload. go. Qed.
  Lemma nx_destroy i : nx (destroy_payload E i). Proof. unfold destroy_payload. go. Qed.
  Lemma nt_dealloc i : nt (dealloc E i). Proof. unfold dealloc. go. Qed.
  Lemma nx_dealloc i : nx (dealloc E i). Proof. unfold dealloc. go. Qed.

  Ltac go2 :=
    repeat first
      [ progress go
      | apply nt_is_empty | apply nx_is_empty | apply nt_init | apply nx_init | apply nt_inval | apply nx_inval
      | apply nt_has | apply nx_has | apply nt_not | apply nx_not | apply nt_assert | apply nx_assert
      | apply nt_same_has | apply nx_same_has | apply nt_load | apply nx_load | apply nt_store | apply nx_store
      | apply nt_destroy | apply nx_destroy | apply nt_dealloc | apply nx_dealloc ].

  Lemma nt_load_more l : nt (load_more E l).
  Proof. induction l as [|[j c] l IH]; cbn [load_more]; go2. exact IH. Qed.
  Lemma nx_load_more l : nx (load_more E l).
  Proof. induction l as [|[j c] l IH]; cbn [load_more]; go2. exact IH. Qed.
  Lemma nt_store_more l : forall vs, nt (store_more E l vs).
  Proof. induction l as [|[j c] l IH]; intros [|v vs]; cbn [store_more]; go2; apply IH. Qed.
  Lemma nx_store_more l : forall vs, nx (store_more E l vs).
  Proof. induction l as [|[j c] l IH]; intros [|v vs]; cbn [store_more]; go2; apply IH. Qed.
  Lemma nt_ini n : nt (run_ini E n).
  Proof. unfold run_ini. go2; first [apply nt_load_more|apply nt_store_more]. Qed.
  Lemma nx_call_lift {A} (f : W -> A * W) (k : A -> M W rep) :
    (forall w, nx (k (fst (f w)))) -> nx (bind (call f) k).
  Proof.
    intros H s e. unfold bind, call. specialize (H (world s)). destruct (f (world s)) as [a w']. apply H.
  Qed.
  Lemma nx_ini n : (forall v w, no_throw (fst (fst (i_fun n v w)))) -> nx (run_ini E n).
  Proof.
    intros H. unfold run_ini. apply nx_bind; [go2|]. intros v.
    apply nx_bind; [apply nx_load_more|]. intros vs. apply nx_call_lift. intros w.
    apply nx_bind; [go2|]. intros _. apply nx_bind; [apply nx_store_more|]. intros _.
    specialize (H (joined v vs) w).
    destruct (fst (fst (i_fun n (joined v vs) w))); [apply nx_ret|contradiction].
  Qed.
  Lemma nt_placement i n : nt (placement_new E i n).
  Proof. unfold placement_new. go2. apply nt_ini. Qed.
  Lemma nx_placement i n : (forall v w, no_throw (fst (fst (i_fun n v w)))) -> nx (placement_new E i n).
  Proof. intros H. unfold placement_new. go2. apply nx_ini, H. Qed.
  Lemma nt_construct i n : ini_ok n -> nt (construct_payload E i n).
  Proof.
    intros H. unfold construct_payload. apply nt_noexcept.
    - go2; try apply nt_placement. apply nt_on_throw; [apply nt_placement|go2|go2].
    - intros Hn. rewrite Hn. go2. apply nx_placement, (H Hn).
  Qed.
  Lemma nx_construct i n : i_nothrow n = true -> nx (construct_payload E i n).
  Proof. intros H. unfold construct_payload. apply nx_noexcept. auto. Qed.
  Lemma nt_construct_fn i n : ini_ok n -> nt (construct_payload_from_function E i n).
  Proof. apply nt_construct. Qed.
  Lemma nt_storage_default i : nt (storage_default E i).
  Proof. unfold storage_default. apply nt_noexcept; [go2|intros _; go2]. Qed.
  Lemma nx_storage_default i : nx (storage_default E i).
  Proof. apply nx_noexcept. auto. Qed.
  Lemma nt_storage_dtor i : nt (storage_dtor E i).
  Proof. unfold storage_dtor. apply nt_noexcept; [go2|intros _; go2]. Qed.
  Lemma nx_storage_dtor i : nx (storage_dtor E i).
  Proof. apply nx_noexcept. auto. Qed.
  Lemma nt_reset i : nt (reset E i).
  Proof. unfold reset. apply nt_noexcept; [go2|intros _; go2]. Qed.
  Lemma nx_reset i : nx (reset E i).
  Proof. apply nx_noexcept. auto. Qed.
  Lemma nt_default i : nt (ctor_default E i).
  Proof. unfold ctor_default. go2. apply nt_storage_default. Qed.
  Lemma nx_default i : nx (ctor_default E i).
  Proof. unfold ctor_default. go2. apply nx_storage_default. Qed.
  Lemma nt_same_type {A} i j (m : M W A) : nt m -> nt (same_type E i j m).
  Proof. intros H. unfold same_type. go; assumption. Qed.
  Lemma nx_same_type {A} i j (m : M W A) : nx m -> nx (same_type E i j m).
  Proof. intros H. unfold same_type. go; assumption. Qed.
  Lemma nt_assign_payload i a : nt (assign_payload E i a).
  Proof. unfold assign_payload. go2. Qed.

  Hypothesis HP : forall t, payops_ok (ot_ops (e_tys E t)).

  Lemma copy_ini_ok j : ini_ok (copy_ini E j).
  Proof.
    intros H v w. cbn in *. pose proof (py_copy _ (HP (e_tid E j)) H v w) as K. unfold ops, ty in *.
    destruct (po_copy (ot_ops (e_tys E (e_tid E j))) v w). exact K.
  Qed.
  Lemma move_ini_ok j : ini_ok (move_ini E j).
  Proof. intros H v w. exact (py_move _ (HP (e_tid E j)) H v w). Qed.
  Lemma nt_assign_value i a : ini_ok (a_ini a) -> nt (assign_value E i a).
  Proof. intros H. unfold assign_value. go2; [apply nt_assign_payload|apply nt_construct, H]. Qed.
  Lemma nx_call2 {A B} (f : W -> A * W) (k : A -> M W B) :
    (forall w, nx (k (fst (f w)))) -> nx (bind (call f) k).
  Proof.
    intros H s e. unfold bind, call. specialize (H (world s)). destruct (f (world s)) as [a w']. apply H.
  Qed.
  Lemma nx_move_assign_value i j :
    po_nt_massign (ops E j) = true -> po_nt_move (ops E j) = true -> nx (assign_value E i (move_arg E j)).
  Proof.
    intros H1 H2. unfold assign_value. go2; [|apply nx_construct; exact H2].
    unfold assign_payload. cbn [move_arg move_ini a_ini i_src i_const a_assign a_self].
    destruct (Nat.eqb i j).
    - apply nx_bind; [apply nx_load|]. intros d. apply nx_call2. intros w.
      apply nx_bind; [apply nx_store|]. intros _. pose proof (py_self_massign _ (HP (e_tid E j)) H1 d w) as K.
      unfold ops, ty in *. destruct (fst (fst (po_self_massign _ d w))); [apply nx_ret|contradiction].
    - apply nx_bind; [apply nx_load|]. intros d. apply nx_bind; [apply nx_load|]. intros v.
      apply nx_call2. intros w. apply nx_bind; [apply nx_store|]. intros _.
      apply nx_bind; [apply nx_store|]. intros _.
      pose proof (py_massign _ (HP (e_tid E j)) H1 d v w) as K.
      unfold ops, ty in *. destruct (fst (fst (po_massign _ d v w))); [apply nx_ret|contradiction].
  Qed.
  Lemma nt_swap_payloads i j : nt (swap_payloads E i j).
  Proof. unfold swap_payloads. go2. Qed.
  Lemma nx_swap_payloads i j : po_nt_swap (ops E i) = true -> nx (swap_payloads E i j).
  Proof.
    intros H1. unfold swap_payloads. destruct (Nat.eqb i j).
    - apply nx_bind; [apply nx_load|]. intros d. apply nx_call2. intros w.
      apply nx_bind; [apply nx_store|]. intros _. pose proof (py_self_swap _ (HP (e_tid E i)) H1 d w) as K.
      unfold ops, ty in *. destruct (fst (fst (po_self_swap _ d w))); [apply nx_ret|contradiction].
    - apply nx_bind; [apply nx_load|]. intros d. apply nx_bind; [apply nx_load|]. intros v.
      apply nx_call2. intros w. apply nx_bind; [apply nx_store|]. intros _.
      apply nx_bind; [apply nx_store|]. intros _. pose proof (py_swap _ (HP (e_tid E i)) H1 d v w) as K.
      unfold ops, ty in *. destruct (fst (fst (po_swap _ d v w))); [apply nx_ret|contradiction].
  Qed.
  Lemma nt_in_place i n : ini_ok n -> nt (ctor_in_place E i n).
  Proof.
    intros H. unfold ctor_in_place. go2. apply nt_on_throw; go2. apply nt_construct, H.
  Qed.
  Lemma nt_from_function i n : ini_ok n -> nt (ctor_from_function E i n).
  Proof. apply nt_in_place. Qed.
  Lemma nt_same_type_eq {A} i j (m : M W A) : (ops E i = ops E j -> nt m) -> nt (same_type E i j m).
  Proof.
    intros H. unfold same_type. destruct (Nat.eqb_spec (e_tid E i) (e_tid E j)) as [He|]; [|go].
    apply H. unfold ops, ty. rewrite He. reflexivity.
  Qed.
  Lemma nx_same_type_eq {A} i j (m : M W A) : (ops E i = ops E j -> nx m) -> nx (same_type E i j m).
  Proof.
    intros H. unfold same_type. destruct (Nat.eqb_spec (e_tid E i) (e_tid E j)) as [T|]; [|apply nx_dead].
    apply H. unfold ops, ty. rewrite T. reflexivity.
  Qed.
  Lemma nt_move_ctor i j : nt (ctor_move E i j).
  Proof.
    unfold ctor_move. apply nt_same_type_eq. intros He. go2. apply nt_noexcept.
    - go2; [apply nt_storage_default|]. apply nt_on_throw; [|apply nt_storage_dtor|apply nx_storage_dtor].
      go2. apply nt_construct, move_ini_ok.
    - intros H. go2; [apply nx_storage_default|]. apply nx_on_throw. go2. apply nx_construct. cbn. congruence.
  Qed.
  Lemma nt_copy_ctor i j : nt (ctor_copy E i j).
  Proof.
    unfold ctor_copy. apply nt_same_type. go2; [apply nt_storage_default|].
    apply nt_on_throw; [|apply nt_storage_dtor|apply nx_storage_dtor].
    go2. apply nt_construct, copy_ini_ok.
  Qed.
  Lemma const_ini_ok v : ini_ok (@const_ini W v).
  Proof. intros _ x w. exact I. Qed.
  Lemma nt_build k o : nt (build_result E k o).
  Proof. destruct o; cbn; [apply nt_in_place, const_ini_ok|apply nt_default]. Qed.
  Lemma nt_od_has o : nt (od_has E o). Proof. destruct o; cbn; go2. Qed.
  Lemma nt_od_get o : nt (od_get E o). Proof. destruct o as [|[]| |]; cbn; unfold op_deref; go2. Qed.

  Lemma nt_move_assign i j : nt (assign_move E i j).
  Proof.
    unfold assign_move. apply nt_same_type_eq. intros He. apply nt_noexcept.
    - go2; [apply nt_assign_value, move_ini_ok|apply nt_reset].
    - intros H. apply andb_true_iff in H as (H1 & H2).
      go2; [apply nx_move_assign_value; congruence|apply nx_reset].
  Qed.

  Lemma nx_move_ctor i j : po_nt_move (ops E j) = true -> nx (ctor_move E i j).
  Proof.
    intros H. unfold ctor_move. apply nx_same_type_eq. intros He.
    apply nx_bind; [apply nx_alloc|]. intros _. apply nx_noexcept. left. congruence.
  Qed.
  Lemma nx_move_assign i j :
    po_nt_massign (ops E i) && po_nt_move (ops E i) = true -> nx (assign_move E i j).
  Proof. intros H. unfold assign_move. apply nx_same_type, nx_noexcept. left. exact H. Qed.

  Lemma nt_step o : op_ok o -> nt (step E o).
  Proof.
    intros Ho. destruct o as [i|i|i n|i j|i j|i|i|i a|i j|i j|i n|i|i j|i j k|i|i|k i c f|i d|i d|k i c f
                            |k i c f ntf|k i mv f|rt c r L R|g c L R|h i|i v|i]; cbn [step];
      unfold unit_, bool_, val_; (apply nt_bind; [|intros; go]).
    - apply nt_default.
    - apply nt_noexcept; [apply nt_default|intros _; apply nx_default].
    - apply nt_in_place, Ho.
    - apply nt_copy_ctor.
    - apply nt_move_ctor.
    - apply nt_storage_dtor.
    - apply nt_noexcept; [apply nt_reset|intros _; apply nx_reset].
    - apply nt_assign_value, Ho.
    - apply nt_same_type. go2; [apply nt_assign_value, copy_ini_ok|apply nt_reset].
    - apply nt_move_assign.
    - unfold emplace. go2; [apply nt_reset|apply nt_construct, Ho].
    - apply nt_reset.
    - unfold swap. apply nt_same_type_eq. intros He. apply nt_noexcept.
      + go2; try apply nt_swap_payloads; try apply nt_construct, move_ini_ok; apply nt_reset.
      + intros H. apply andb_true_iff in H as (H1 & H2).
        go2; try (apply nx_swap_payloads; assumption); try apply nx_reset; apply nx_construct; cbn; congruence.
    - unfold std_swap, dtor. apply nt_same_type_eq. intros He. apply nt_noexcept.
      + go2; [apply nt_move_ctor| |apply nt_storage_dtor].
        apply nt_on_throw; [|apply nt_storage_dtor|apply nx_storage_dtor]. go2; apply nt_move_assign.
      + intros H. apply andb_true_iff in H as (H1 & H2).
        apply nx_bind; [apply nx_move_ctor, H1|]. intros _. apply nx_bind; [|intros _; apply nx_storage_dtor].
        apply nx_on_throw. apply nx_bind; [apply nx_move_assign, H2|]. intros _. apply nx_move_assign. congruence.
    - apply nt_has.
    - apply nt_has.
    - unfold use_payload. destruct k; cbn; unfold op_deref, op_arrow, value; go2.
    - unfold value_or_copy. go2; apply nt_ini.
    - unfold value_or_move. go2; apply nt_ini.
    - unfold and_then, op_deref. go2; try apply nt_build; apply nt_default.
    - unfold transform, op_deref. go2; [|apply nt_default]. apply nt_from_function. intros H v w. exact (Ho H v w).
    - unfold or_else. apply nt_same_type. go2; [apply nt_move_ctor|apply nt_copy_ctor|apply nt_build].
    - assert (D : forall q A B, nt (declared E c q A B)).
      { intros q A B. destruct A, B; cbn [declared]; go2;
          unfold cmp_opt_opt, cmp_opt_null, cmp_null_opt, cmp_opt_val, cmp_val_opt, deref_cmp, rel_call;
          go2; try apply nt_od_has; try apply nt_od_get. }
      assert (D3 : forall A B, nt (declared3 E c A B)).
      { intros A B. destruct A, B; cbn [declared3]; go2;
          unfold three_opt_opt, three_opt_null, three_opt_val, three_call; go2; try apply nt_od_has; try apply nt_od_get. }
      destruct rt as [|rev]; [apply D|]. destruct r; cbn [compare]; try apply D; unfold not_; go2; auto.
    - destruct L, R; cbn [three_way]; go2;
        unfold three_opt_opt, three_opt_null, three_opt_val, three_call; go2; try apply nt_od_has; try apply nt_od_get.
    - unfold hash. go2. apply nt_od_get.
    - unfold var_new. go2. intros s. cbn. destruct (mem s i); [discriminate|].
      destruct (Nat.eqb _ _); discriminate.
    - unfold var_drop. go2.
  Qed.
End NoTerminate.

(** If the payload types' nothrow traits are truthful (and so are those of the
    constructors the call selects), no call terminates the program: in any state,
    reachable or not, with any behaviour of user code. *)
Theorem C27_never_terminates :
  forall W (E : env W) o s,
    (forall t, payops_ok (ot_ops (e_tys E t))) -> op_ok o ->
    fst (step E o s) <> Dead Terminated.
Proof. intros W E o s HP Ho. apply nt_step; assumption. Qed.

(** ** The noexcept conditions *)

(** The functions which the standard declares (conditionally) noexcept. *)
Inductive nfun : Type :=
| NDefault | NNullopt | NDtor | NReset | NAssignNull | NHasValue | NBool
| NMoveCtor | NMoveAssign | NSwap.

(** The traits of the payload that matter. *)
Record traits : Type := MkTraits { nothrow_move : bool; nothrow_massign : bool; nothrow_swap : bool }.

(** The standard: [optional.optional.general], [optional.ctor], [optional.assign],
    [optional.swap], [optional.mod], [optional.observe]. *)
Definition std_noexcept (q : traits) (n : nfun) : bool :=
  match n with
  | NMoveCtor => nothrow_move q
  | NMoveAssign => nothrow_massign q && nothrow_move q
  | NSwap => nothrow_move q && nothrow_swap q
  | _ => true
  end.

(** Calls of such a function. *)
Definition is_call {W} (n : nfun) (o : op W) : Prop :=
  match n, o with
  | NDefault, ODefault _ | NNullopt, ONullopt _ | NDtor, ODtor _ | NReset, OReset _
  | NAssignNull, OAssignNull _ | NHasValue, OHasValue _ | NBool, OBool _
  | NMoveCtor, OMoveCtor _ _ | NMoveAssign, OMoveAssign _ _ | NSwap, OSwap _ _ => True
  | _, _ => False
  end.

Definition has_traits {W} (q : traits) (E : env W) : Prop :=
  forall t, po_nt_move (ot_ops (e_tys E t)) = nothrow_move q /\
            po_nt_massign (ot_ops (e_tys E t)) = nothrow_massign q /\
            po_nt_swap (ot_ops (e_tys E t)) = nothrow_swap q.

(** "Declared noexcept" means: for payload types with these traits, even if their
    functions do throw, no exception ever leaves the function. *)
Definition behaves_noexcept (q : traits) (n : nfun) : Prop :=
  forall W (E : env W) o s e, has_traits q E -> is_call n o -> fst (step E o s) <> Throw e.

(** For the other direction: a payload type all of whose functions throw. *)
Definition bad_ops (q : traits) : payops unit :=
  MkPayOps _
    (fun _ w => (RThrow (UserExn 1), w))
    (fun v w => ((RThrow (UserExn 1), v), w))
    (fun d v w => ((RThrow (UserExn 1), d), w))
    (fun d v w => ((RThrow (UserExn 1), (d, v)), w))
    (fun v w => ((RThrow (UserExn 1), v), w))
    (fun v w => ((RThrow (UserExn 1), v), w))
    (fun a b w => ((RThrow (UserExn 1), (a, b)), w))
    (fun v w => ((RThrow (UserExn 1), v), w))
    (fun _ w => w)
    false (nothrow_move q) (nothrow_massign q) (nothrow_swap q).
Definition bad_env (q : traits) : env unit :=
  MkEnv _ (fun _ => MkOptTy _ (dec_separate 1 1) man_separate (bad_ops q)) (fun _ => 0) false.
Definition bad_ini : ini unit := MkIni None true (fun _ w => ((ROk [Atom 1], []), w)) true.

(** The library's functions are noexcept under exactly the standard's conditions. *)
Theorem C27_noexcept_condition :
  forall q n, behaves_noexcept q n <-> std_noexcept q n = true.
Proof.
  intros q n. split.
  - intros H.
    destruct n; try reflexivity.
    + pose proof (H unit (bad_env q) (OMoveCtor 1 0)
                    (snd (run (bad_env q) [OInPlace 0 bad_ini] (init_state tt))) (UserExn 1)
                    (fun _ => conj eq_refl (conj eq_refl eq_refl)) I) as K.
      destruct q as [[] [] []]; try reflexivity; exfalso; apply K; vm_compute; reflexivity.
    + assert (K : forall s, fst (step (bad_env q) (OMoveAssign 1 0) s) <> Throw (UserExn 1)).
      { intros s. apply (H unit (bad_env q) (OMoveAssign 1 0)); [|exact I].
        exact (fun _ => conj eq_refl (conj eq_refl eq_refl)). }
      pose proof (K (snd (run (bad_env q) [OInPlace 0 bad_ini; ODefault 1] (init_state tt)))) as K1.
      pose proof (K (snd (run (bad_env q) [OInPlace 0 bad_ini; OInPlace 1 bad_ini] (init_state tt)))) as K2.
      destruct q as [[] [] []]; try reflexivity; exfalso;
        first [apply K1; vm_compute; reflexivity|apply K2; vm_compute; reflexivity].
    + assert (K : forall s, fst (step (bad_env q) (OSwap 1 0) s) <> Throw (UserExn 1)).
      { intros s. apply (H unit (bad_env q) (OSwap 1 0)); [|exact I].
        exact (fun _ => conj eq_refl (conj eq_refl eq_refl)). }
      pose proof (K (snd (run (bad_env q) [OInPlace 0 bad_ini; ODefault 1] (init_state tt)))) as K1.
      pose proof (K (snd (run (bad_env q) [OInPlace 0 bad_ini; OInPlace 1 bad_ini] (init_state tt)))) as K2.
      destruct q as [[] [] []]; try reflexivity; exfalso;
        first [apply K1; vm_compute; reflexivity|apply K2; vm_compute; reflexivity].
  - intros H W E o s e Hq Hc. revert s e. change (nx (step E o)).
    destruct n, o; try contradiction; cbn [step]; unfold unit_, bool_;
      (apply nx_bind; [|intros; apply nx_ret]).
    + apply nx_default.
    + apply nx_noexcept. auto.
    + apply nx_storage_dtor.
    + apply nx_reset.
    + apply nx_noexcept. auto.
    + apply nx_has.
    + apply nx_has.
    + apply nx_same_type. apply nx_bind; [apply nx_alloc|]. intros _. apply nx_noexcept. left.
      unfold ops, ty. rewrite (proj1 (Hq _)). exact H.
    + apply nx_same_type. apply nx_noexcept. left. unfold ops, ty.
      destruct (Hq (e_tid E i)) as (H1 & H2 & _). rewrite H1, H2. exact H.
    + apply nx_same_type. apply nx_noexcept. left. unfold ops, ty.
      destruct (Hq (e_tid E i)) as (H1 & _ & H2). rewrite H1, H2. exact H.
Qed.

(** operator* and operator-> never throw either (C++23 declares them noexcept). *)
Theorem C27_access_never_throws :
  forall W (E : env W) i s e, fst (op_deref E i s) <> Throw e /\ fst (op_arrow E i s) <> Throw e.
Proof.
  intros W E i s e. split; apply nx_assert, nx_has.
Qed.

(** The hypotheses of C27_never_terminates hold for types whose functions throw. *)
Example C27_example dbg :
  (forall t, payops_ok (ot_ops (e_tys (sample dbg) t))) /\
  op_ok (OEmplace 10 (mkP 1 2)) /\
  fst (run (sample dbg) [ODefault 10; OEmplace 10 (mkP 1 2)] (init_state (plan [Some 4])))
  = inl [ObUnit; ObThrow (UserExn 4)].
Proof.
  split; [intros t; apply sample_ok|]. split; [exact (mkP_ok 1 2)|]. destruct dbg; reflexivity.
Qed.
