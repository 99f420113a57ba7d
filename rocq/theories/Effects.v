(** * Effects: what a call can touch, for every machine state

    A call is built from a few primitive effects on memory.  Any reflexive and
    transitive relation between states that is respected by those primitives is
    respected by the call.  Instances: locality and read-only operations ([Frame.v])
    and lifetime accounting ([Lifetime.v]).  Nothing here assumes that the contract
    is respected: the statements hold for all states, also corrupt ones. *)

From Coq Require Import List NArith ZArith Bool Arith.
From Verif Require Import Cells Machine Optional Program.
Import ListNotations.

(** The objects that the arguments of a constructor refer to. *)
Definition ini_uses {W} (n : ini W) : list loc :=
  match i_src n with Some j => [j] | None => [] end ++ map fst (i_more n).
(** Locations whose memory a call may change (reading is free). *)
Definition ini_touches {W} (n : ini W) : list loc :=
  match i_src n with
  | Some j => if i_const n then [] else [j]
  | None => []
  end ++ map fst (filter (fun x => negb (snd x)) (i_more n)).
Definition touches {W} (o : op W) : list loc :=
  match o with
  | ODefault i | ONullopt i | ODtor i | OAssignNull i | OReset i | OVarNew i _ | OVarDrop i => [i]
  | OInPlace i n | OEmplace i n => i :: ini_touches n
  | OCopyCtor i _ | OCopyAssign i _ => [i]
  | OMoveCtor i j | OMoveAssign i j | OSwap i j => [i; j]
  | OStdSwap i j k => [i; j; k]
  | OAssign i a => i :: ini_touches (a_ini a)
  | OHasValue _ | OBool _ | OCompare _ _ _ _ _ | OThreeWay _ _ _ _ | OHash _ _ => []
  | OAccess _ i c _ => if c then [] else [i]
  | OValueOrCopy _ d => ini_touches d
  | OValueOrMove i d => i :: ini_touches d
  | OAndThen k i c _ | OTransform k i c _ _ => k :: if c then [] else [i]
  | OOrElse k i mv _ => k :: if mv then [i] else []
  end.
(** Locations whose storage a call may end. *)
Definition drops {W} (o : op W) : list loc :=
  match o with
  | ODtor i | OInPlace i _ | OCopyCtor i _ | OMoveCtor i _ => [i]
  | OAndThen k _ _ _ | OTransform k _ _ _ _ | OOrElse k _ _ _ | OStdSwap _ _ k => [k]
  | _ => []
  end.

Section Effects.
  Context {W : Type}.
  Variable E : env W.
  Variable R : state W -> state W -> Prop.
  Variable touch drop : loc -> Prop.

  Definition holds {A} (m : M W A) : Prop := forall s, R s (snd (m s)).

  (** The last part of placement new: the payload's lifetime begins
      (optional.h:1060-1069). *)
  Definition begin_payload (i : loc) (v : rep) : M W unit :=
    r <- get_region i ;;
    if pay_obj r || (flag_obj r && negb (d_sep (dec E i))) then dead LifetimeError
    else if Nat.eqb (length v) (d_psize (dec E i))
    then set_region i (Some (MkRegion (put 0 v (cells r)) (flag_obj r) true)) ;;
         log (EvPayBegin i)
    else dead IllTyped.

  Record respects : Prop := {
    r_refl : forall s, R s s;
    r_trans : forall s1 s2 s3, R s1 s2 -> R s2 s3 -> R s1 s3;
    r_world : forall s w, R s (MkState (mem s) w (trace s));
    r_store : forall i v, touch i -> holds (store_payload E i v);
    r_init : forall i, touch i -> holds (fm_init E i);
    r_inval : forall i, touch i -> holds (fm_invalidate E i);
    r_begin : forall i v, touch i -> holds (begin_payload i v);
    r_destroy : forall i, touch i -> holds (destroy_payload E i);
    r_alloc : forall i, touch i -> holds (alloc E i);
    r_dealloc : forall i, touch i -> drop i -> holds (dealloc E i);
    r_vnew : forall i v, touch i -> holds (var_new E i v);
    r_vdrop : forall i, touch i -> holds (var_drop E i)
  }.
  Hypothesis HR : respects.

  Lemma h_ret {A} (a : A) : holds (ret a).
  Proof. intros s. apply (r_refl HR). Qed.
  Lemma h_throw {A} e : @holds A (throw e).
  Proof. intros s. apply (r_refl HR). Qed.
  Lemma h_dead {A} f : @holds A (dead f).
  Proof. intros s. apply (r_refl HR). Qed.
  Lemma h_bind {A B} (m : M W A) (k : A -> M W B) :
    holds m -> (forall a, holds (k a)) -> holds (bind m k).
  Proof.
    intros Hm Hk s. unfold bind. specialize (Hm s). destruct (m s) as [[a|e|f] s']; cbn in *; auto.
    eapply (r_trans HR); [exact Hm|apply Hk].
  Qed.
  Lemma h_noexcept {A} b (m : M W A) : holds m -> holds (noexcept_if b m).
  Proof.
    intros Hm s. unfold noexcept_if. specialize (Hm s).
    destruct (m s) as [[a|e|f] s']; cbn in *; auto. destruct b; auto.
  Qed.
  Lemma h_on_throw {A} (m : M W A) c : holds m -> holds c -> holds (on_throw m c).
  Proof.
    intros Hm Hc s. unfold on_throw. specialize (Hm s).
    destruct (m s) as [[a|e|f] s']; cbn in *; auto.
    specialize (Hc s'). destruct (c s') as [[?|?|?] s'']; cbn in *; eapply (r_trans HR); eauto.
  Qed.
  Lemma h_assert c : holds c -> holds (assert_ E c).
  Proof.
    intros Hc. unfold assert_. destruct (e_dbg E); [|apply h_ret].
    apply h_bind; [exact Hc|]. intros []; [apply h_ret|apply h_dead].
  Qed.
  Lemma h_call {A} (f : W -> A * W) : holds (call f).
  Proof.
    intros s. unfold call. destruct (f (world s)) as [a w']. cbn. apply (r_world HR).
  Qed.
  Lemma h_lift {A} (r : res A) : holds (lift_res r).
  Proof. destruct r; [apply h_ret|apply h_throw]. Qed.
  Lemma h_get i : holds (get_region i).
  Proof. intros s. unfold get_region. destruct (mem s i); apply (r_refl HR). Qed.
  Lemma h_load i : holds (load_payload E i).
  Proof.
    apply h_bind; [apply h_get|]. intros r. destruct (pay_obj r); [apply h_ret|apply h_dead].
  Qed.
  Lemma h_same {A} i j (m : M W A) : holds m -> holds (same_type E i j m).
  Proof. intros H. unfold same_type. destruct (Nat.eqb _ _); [exact H|apply h_dead]. Qed.
  Lemma h_is_empty i : holds (fm_is_empty E i).
  Proof.
    apply h_bind; [apply h_get|]. intros r. destruct (_ || _); [|apply h_dead].
    destruct (m_is_empty _ _); [apply h_ret|apply h_dead].
  Qed.
  Lemma h_has i : holds (has_value E i).
  Proof. apply h_bind; [apply h_is_empty|]. intros. apply h_ret. Qed.
  Lemma h_not m : holds m -> holds (not_ m).
  Proof. intros H. apply h_bind; [exact H|]. intros. apply h_ret. Qed.
  Lemma h_same_has i j : holds (same_has E i j).
  Proof. repeat (apply h_bind; [apply h_has|intros ?]). apply h_ret. Qed.

  Ltac eff :=
    repeat first
      [ assumption | apply h_ret | apply h_throw | apply h_dead
      | apply h_noexcept | apply h_on_throw | apply h_assert | apply h_call | apply h_lift
      | apply h_load | apply h_same | apply h_has | apply h_not | apply h_same_has
      | apply (r_store HR); assumption | apply (r_init HR); assumption
      | apply (r_inval HR); assumption | apply (r_begin HR); assumption
      | apply (r_destroy HR); assumption | apply (r_alloc HR); assumption
      | apply (r_dealloc HR); assumption
      | match goal with |- holds (bind _ _) => apply h_bind; [|intros ?] end
      | match goal with |- holds (if ?b then _ else _) => destruct b end
      | match goal with |- holds (match ?b with Some _ => _ | None => _ end) => destruct b end ].

  Definition ini_in (n : ini W) : Prop := forall j, In j (ini_touches n) -> touch j.

  Lemma h_load_more l : holds (load_more E l).
  Proof. induction l as [|[j c] l IH]; cbn; eff. Qed.
  Lemma h_store_more l : forall vs,
    (forall j, In j (map fst (filter (fun x => negb (snd x)) l)) -> touch j) -> holds (store_more E l vs).
  Proof.
    induction l as [|[j c] l IH]; intros [|v vs] H; cbn [store_more]; try apply h_ret.
    apply h_bind; [destruct c; [apply h_ret|]|intros _; apply IH].
    - apply (r_store HR). apply H. left. reflexivity.
    - intros k Hk. apply H. cbn. destruct c; cbn; auto.
  Qed.
  Lemma h_ini n : ini_in n -> holds (run_ini E n).
  Proof.
    unfold ini_in, ini_touches, run_ini. intros H.
    pose proof (h_load_more (i_more n)) as HL.
    assert (HS : forall vs, holds (store_more E (i_more n) vs)).
    { intros vs. apply h_store_more. intros j Hj. apply H, in_or_app. auto. }
    assert (HS' : forall v, holds (match i_src n with
      | Some j => if i_const n then ret tt else store_payload E j v | None => ret tt end)).
    { intros v. destruct (i_src n) as [j|]; [|eff]. destruct (i_const n); [eff|].
      apply (r_store HR), H. left. reflexivity. }
    apply h_bind; [destruct (i_src n); eff|intros src]. apply h_bind; [exact HL|intros more].
    apply h_bind; [eff|intros p]. apply h_bind; [apply HS'|intros _].
    apply h_bind; [apply HS|intros _]. eff.
  Qed.
  Lemma h_placement i n : touch i -> ini_in n -> holds (placement_new E i n).
  Proof.
    intros Hi Hn. apply h_bind; [apply h_ini, Hn|]. intros v.
    exact (r_begin HR i v Hi).
  Qed.
  Lemma h_construct i n : touch i -> ini_in n -> holds (construct_payload E i n).
  Proof.
    intros Hi Hn. pose proof (h_placement i n Hi Hn). unfold construct_payload. eff.
  Qed.
  Lemma h_copy_ini j : ini_in (copy_ini E j).
  Proof. intros k []. Qed.
  Lemma h_move_ini j : touch j -> ini_in (move_ini E j).
  Proof. intros Hj k [<-|[]]. exact Hj. Qed.
  Lemma h_default_storage i : touch i -> holds (storage_default E i).
  Proof. intros Hi. unfold storage_default. eff. Qed.
  Lemma h_storage_dtor i : touch i -> drop i -> holds (storage_dtor E i).
  Proof. intros Hi Hd. unfold storage_dtor. eff. Qed.
  Lemma h_reset i : touch i -> holds (reset E i).
  Proof. intros Hi. unfold reset. eff. Qed.
  Lemma h_assign_payload i a : touch i -> ini_in (a_ini a) -> holds (assign_payload E i a).
  Proof.
    unfold ini_in, ini_touches, assign_payload. intros Hi.
    destruct (i_src (a_ini a)) as [j|]; [|intros _; eff].
    destruct (Nat.eqb i j); [intros _; eff|]. destruct (i_const (a_ini a)); intros H; [eff|].
    assert (touch j) by (apply H; left; reflexivity). eff.
  Qed.
  Lemma h_assign_value i a : touch i -> ini_in (a_ini a) -> holds (assign_value E i a).
  Proof.
    intros Hi H. pose proof (h_assign_payload i a Hi H). pose proof (h_construct i _ Hi H).
    unfold assign_value. eff.
  Qed.
  Lemma h_ctor_default i : touch i -> holds (ctor_default E i).
  Proof. intros Hi. pose proof (h_default_storage i Hi). unfold ctor_default. eff. Qed.
  Lemma h_ctor_in_place i n : touch i -> drop i -> ini_in n -> holds (ctor_in_place E i n).
  Proof. intros Hi Hd Hn. pose proof (h_construct i n Hi Hn). unfold ctor_in_place. eff. Qed.
  Lemma h_ctor_copy i j : touch i -> drop i -> holds (ctor_copy E i j).
  Proof.
    intros Hi Hd. pose proof (h_default_storage i Hi). pose proof (h_storage_dtor i Hi Hd).
    pose proof (h_construct i _ Hi (h_copy_ini j)). unfold ctor_copy. eff.
  Qed.
  Lemma h_ctor_move i j : touch i -> drop i -> touch j -> holds (ctor_move E i j).
  Proof.
    intros Hi Hd Hj. pose proof (h_default_storage i Hi). pose proof (h_storage_dtor i Hi Hd).
    pose proof (h_construct i _ Hi (h_move_ini j Hj)). unfold ctor_move. eff.
  Qed.
  Lemma h_build k o : touch k -> drop k -> holds (build_result E k o).
  Proof.
    intros Hk Hd. destruct o; [|apply h_ctor_default, Hk].
    apply h_ctor_in_place; auto. intros j [].
  Qed.
  Lemma h_od_has o : holds (od_has E o).
  Proof. destruct o; cbn; eff. Qed.
  Lemma h_od_get o : holds (od_get E o).
  Proof. destruct o as [i|[v|]| |v]; cbn; unfold op_deref; eff. Qed.
  Lemma h_rel c r a b : holds (rel_call c r a b).
  Proof. unfold rel_call. eff. Qed.
  Lemma h_three c a b : holds (three_call c a b).
  Proof. unfold three_call. eff. Qed.
  Lemma h_deref_cmp c r L R0 : holds (deref_cmp E c r L R0).
  Proof.
    apply h_bind; [apply h_od_get|intros]. apply h_bind; [apply h_od_get|intros]. apply h_rel.
  Qed.

  Ltac eff2 := repeat first
    [ progress eff | apply h_od_has | apply h_od_get | apply h_rel | apply h_three
    | apply h_deref_cmp ].

  Lemma h_declared c r L R0 : holds (declared E c r L R0).
  Proof.
    assert (C : holds (cmp_opt_opt E c r L R0)) by (destruct r; unfold cmp_opt_opt; eff2).
    assert (N1 : forall q i, holds (cmp_opt_null E q i)) by (intros []; cbn; intros; eff2).
    assert (N2 : forall q i, holds (cmp_null_opt E q i)) by (intros []; cbn; intros; eff2).
    assert (V1 : forall i v, holds (cmp_opt_val E c r i v)) by (intros; unfold cmp_opt_val; eff2).
    assert (V2 : forall i v, holds (cmp_val_opt E c r v i)) by (intros; unfold cmp_val_opt; eff2).
    destruct L, R0; cbn [declared]; try apply h_dead; auto.
  Qed.
  Lemma h_declared3 c L R0 : holds (declared3 E c L R0).
  Proof.
    assert (C : forall A B, holds (three_opt_opt E c A B)) by (intros; unfold three_opt_opt; eff2).
    assert (T : forall i, holds (three_opt_null E i)) by (intros; unfold three_opt_null; eff2).
    assert (V : forall i v, holds (three_opt_val E c i v)) by (intros; unfold three_opt_val; eff2).
    destruct L, R0; cbn [declared3]; try apply h_dead; auto.
  Qed.
  Lemma h_compare rt c r L R0 : holds (compare E rt c r L R0).
  Proof.
    destruct rt as [|rev]; [apply h_declared|].
    destruct r; cbn [compare]; try apply h_declared; try (apply h_not, h_declared);
      (apply h_bind; [apply h_declared3|intros; apply h_ret]).
  Qed.
  Lemma h_three_way g c L R0 : holds (three_way E g c L R0).
  Proof.
    assert (C : forall A B, holds (three_opt_opt E c A B)) by (intros; unfold three_opt_opt; eff2).
    assert (T : forall i, holds (three_opt_null E i)) by (intros; unfold three_opt_null; eff2).
    assert (V : forall i v, holds (three_opt_val E c i v)) by (intros; unfold three_opt_val; eff2).
    destruct L, R0; cbn [three_way]; try apply h_dead; auto; try destruct g; auto;
      (apply h_bind; [auto|intros; apply h_ret]).
  Qed.

  (** The master lemma. *)
  Lemma step_holds o :
    (forall i, In i (touches o) -> touch i) -> (forall i, In i (drops o) -> drop i) ->
    holds (step E o).
  Proof.
    destruct o; cbn [touches drops step]; intros HT HD; unfold unit_, bool_, val_;
      (apply h_bind; [|intros; apply h_ret]);
      try (assert (touch i) by (apply HT; left; reflexivity));
      try (assert (touch k) by (apply HT; left; reflexivity));
      try (assert (drop i) by (apply HD; left; reflexivity));
      try (assert (drop k) by (apply HD; left; reflexivity)).
    - apply h_ctor_default; auto.
    - apply h_noexcept, h_ctor_default; auto.
    - apply h_ctor_in_place; auto. intros j Hj. apply HT. right. exact Hj.
    - apply h_ctor_copy; auto.
    - apply h_ctor_move; auto. apply HT. right. left. reflexivity.
    - apply h_storage_dtor; auto.
    - apply h_noexcept, h_reset; auto.
    - apply h_assign_value; auto. intros j Hj. apply HT. right. exact Hj.
    - pose proof (h_assign_value i (copy_arg E j) H (h_copy_ini j)). pose proof (h_reset i H).
      unfold assign_copy. eff.
    - assert (touch j) as Hj by (apply HT; right; left; reflexivity).
      pose proof (h_assign_value i (move_arg E j) H (h_move_ini j Hj)). pose proof (h_reset i H).
      unfold assign_move. eff.
    - pose proof (h_reset i H). assert (ini_in n) as Hn by (intros j Hj; apply HT; right; exact Hj).
      pose proof (h_construct i n H Hn). unfold emplace. eff.
    - apply h_reset; auto.
    - assert (touch j) as Hj by (apply HT; right; left; reflexivity).
      pose proof (h_reset i H). pose proof (h_reset j Hj).
      pose proof (h_construct i _ H (h_move_ini j Hj)).
      pose proof (h_construct j _ Hj (h_move_ini i H)).
      unfold swap, swap_payloads. eff.
    - assert (touch j) as Hj by (apply HT; right; left; reflexivity).
      assert (touch k) as Hk by (apply HT; right; right; left; reflexivity).
      assert (forall a b, touch a -> touch b -> holds (assign_move E a b)) as HA.
      { intros a b Ha Hb. pose proof (h_assign_value a (move_arg E b) Ha (h_move_ini b Hb)).
        pose proof (h_reset a Ha). unfold assign_move. eff. }
      pose proof (h_ctor_move k i Hk H0 H). pose proof (h_storage_dtor k Hk H0).
      pose proof (HA i j H Hj). pose proof (HA j k Hj Hk).
      unfold std_swap, dtor. eff.
    - apply h_has.
    - apply h_has.
    - apply h_bind.
      + destruct k; cbn; unfold op_deref, op_arrow, value; eff.
      + intros _. unfold use_payload. destruct cst; [eff|].
        assert (touch i) by (apply HT; left; reflexivity). eff.
    - assert (ini_in d) as Hn by (intros j Hj; apply HT; exact Hj).
      pose proof (h_ini _ (h_copy_ini i)). pose proof (h_ini _ Hn). unfold value_or_copy. eff.
    - assert (ini_in d) as Hn by (intros j Hj; apply HT; right; exact Hj).
      pose proof (h_ini _ (h_move_ini i H)). pose proof (h_ini _ Hn). unfold value_or_move. eff.
    - pose proof (h_ctor_default k H). assert (forall o, holds (build_result E k o)) as HB
        by (intros; apply h_build; auto).
      unfold and_then, op_deref. eff; try apply HB.
      apply (r_store HR), HT. right. left. reflexivity.
    - pose proof (h_ctor_default k H). unfold transform, op_deref.
      assert (holds (ctor_from_function E k (MkIni (Some i) cst f nt))) as HC.
      { apply (h_ctor_in_place k (MkIni (Some i) cst f nt)); auto.
        intros j Hj. apply HT. right. revert Hj. cbn. destruct cst; auto. }
      eff.
    - assert (forall o, holds (build_result E k o)) as HB by (intros; apply h_build; auto).
      pose proof (h_ctor_copy k i H H0). unfold or_else. destruct mv.
      + assert (touch i) as Hi by (apply HT; right; left; reflexivity).
        pose proof (h_ctor_move k i H H0 Hi). eff; apply HB.
      + eff; apply HB.
    - apply h_compare.
    - apply h_three_way.
    - unfold hash. eff2.
    - apply (r_vnew HR); auto.
    - apply (r_vdrop HR); auto.
  Qed.
End Effects.
