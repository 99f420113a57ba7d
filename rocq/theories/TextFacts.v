(** * TextFacts: every call, executed from the text, is the function of [Optional.v]

    One lemma per API call; all are proved by executing the text symbolically. *)

From Coq Require Import Ascii String List NArith ZArith Bool Arith.
From Verif Require Import Cells Machine Optional Program Syntax Source Exec Texts.
Import ListNotations.

Section Cases.
  Context {W : Type}.
  Variable E : env W.
  (** Operations of the machine that do not throw, or do not change the state. *)
  Lemma is_empty_cases : forall i s,
    (exists b, fm_is_empty E i s = (Ok b, s)) \/ (exists f, fm_is_empty E i s = (Dead f, s)).
  Proof.
    intros. unfold fm_is_empty, bind, get_region, ret, dead. destruct (mem s i); cbn; eauto.
    destruct (flag_obj r || (pay_obj r && negb (d_sep (dec E i))))%bool; cbn; eauto.
    destruct (m_is_empty _ _); cbn; eauto.
  Qed.
  Lemma load_cases : forall i s,
    (exists v, load_payload E i s = (Ok v, s)) \/ (exists f, load_payload E i s = (Dead f, s)).
  Proof.
    intros. unfold load_payload, bind, get_region, ret, dead. destruct (mem s i); cbn; eauto.
    destruct (pay_obj r); cbn; eauto.
  Qed.
  Lemma init_cases : forall i s,
    (exists s', fm_init E i s = (Ok tt, s')) \/ (exists f s', fm_init E i s = (Dead f, s')).
  Proof.
    intros. unfold fm_init, bind, get_region, set_region, log, ret, dead. destruct (mem s i); cbn; eauto.
    destruct (negb (d_sep (dec E i)) && (flag_obj r || pay_obj r))%bool; cbn; eauto.
    destruct (d_sep (dec E i)); cbn; eauto.
  Qed.
  Lemma invalidate_cases : forall i s,
    (exists s', fm_invalidate E i s = (Ok tt, s')) \/ (exists f s', fm_invalidate E i s = (Dead f, s')).
  Proof.
    intros. unfold fm_invalidate, bind, get_region, set_region, log, ret, dead.
    destruct (mem s i); cbn; eauto. destruct (flag_obj r); cbn; eauto.
    destruct (d_sep (dec E i)); cbn; eauto. destruct (m_is_empty _ _) as [[|]|]; cbn; eauto.
  Qed.
  Lemma destroy_cases : forall i s,
    (exists s', destroy_payload E i s = (Ok tt, s')) \/ (exists f s', destroy_payload E i s = (Dead f, s')).
  Proof.
    intros. unfold destroy_payload, bind, get_region, set_region, log, call, dead.
    destruct (mem s i); cbn; eauto. destruct (pay_obj r); cbn; eauto.
  Qed.
  Lemma alloc_cases : forall i s,
    (exists s', alloc E i s = (Ok tt, s')) \/ (exists f s', alloc E i s = (Dead f, s')).
  Proof. intros. unfold alloc, set_region. destruct (mem s i); cbn; eauto. Qed.
  Lemma dealloc_cases : forall i s,
    (exists s', dealloc E i s = (Ok tt, s')) \/ (exists f s', dealloc E i s = (Dead f, s')).
  Proof.
    intros. unfold dealloc, bind, get_region, set_region, log, ret. destruct (mem s i); cbn; eauto.
    destruct (pay_obj r); cbn; destruct (flag_obj r && negb (d_sep (dec E i)))%bool; cbn; eauto.
  Qed.
End Cases.

(** Execution of the text, down to the operations of the machine. *)
Ltac run_text :=
  cbv -[fm_is_empty fm_init fm_invalidate placement_new destroy_payload assign_payload swap_payloads
        load_payload store_payload run_ini alloc dealloc rel_call three_call call lift_res build_result
        ops dec man po_copy po_move po_cassign po_massign po_self_cassign po_self_massign po_swap
        po_self_swap po_dtor po_nt_copy po_nt_move po_nt_massign po_nt_swap use_payload
        ord_test flip Nat.eqb N.of_nat].
(** The next operation of the machine: all its outcomes. *)
Ltac no_match x := lazymatch x with context [match _ with _ => _ end] => fail | _ => idtac end.
Ltac no_throw L := let H := fresh in destruct L as [[? H]|(? & ? & H)]; rewrite !H.
Ltac one :=
  match goal with
  | |- context [Nat.eqb ?i ?i] => rewrite !Nat.eqb_refl
  | H : fm_is_empty ?E0 ?i ?s = _ |- context [fm_is_empty ?E0 ?i ?s] => rewrite !H
  | |- context [fm_is_empty ?E0 ?i ?s] =>
      let H := fresh in destruct (is_empty_cases E0 i s) as [[[|] H]|[? H]]; rewrite !H
  | |- context [fm_init ?E0 ?i ?s] => no_throw (init_cases E0 i s)
  | |- context [fm_invalidate ?E0 ?i ?s] => no_throw (invalidate_cases E0 i s)
  | |- context [destroy_payload ?E0 ?i ?s] => no_throw (destroy_cases E0 i s)
  | |- context [alloc ?E0 ?i ?s] => no_throw (alloc_cases E0 i s)
  | |- context [dealloc ?E0 ?i ?s] => no_throw (dealloc_cases E0 i s)
  | |- context [load_payload ?E0 ?i ?s] =>
      let H := fresh in destruct (load_cases E0 i s) as [[? H]|[? H]]; rewrite !H
  | |- context [run_ini ?E0 ?n ?s] => destruct (run_ini E0 n s) as [[?|?|?] ?]
  | |- context [placement_new ?E0 ?i ?n ?s] => destruct (placement_new E0 i n s) as [[?|?|?] ?]
  | |- context [assign_payload ?E0 ?i ?n ?s] => destruct (assign_payload E0 i n s) as [[?|?|?] ?]
  | |- context [match ?x with (_, _) => _ end] =>
      no_match x; first [destruct x as [[?|?|?] ?] eqn:? | destruct x]
  | |- context [if ?b then _ else _] => no_match b; destruct b eqn:?
  end; cbv beta iota; try reflexivity.
Ltac text := run_text; repeat one; try reflexivity.
(** The functions that are viable. *)
Ltac viable_functions :=
  repeat match goal with
         | |- context [viable ?a ?b] =>
             let l := eval cbv in (viable a b) in change (viable a b) with l
         end;
  repeat match goal with
         | |- context [overloads ?a ?b] =>
             let l := eval cbv in (overloads a b) in change (overloads a b) with l
         end.
Ltac each_text :=
  unfold texts; viable_functions; cbn [map flat_map kinds app];
  repeat apply Forall_cons; try apply Forall_nil; intro s.

(** A text is the call [o]. *)
Definition agree {W} (E : env W) (o : op W) (x : M W obs) : Prop := forall s, x s = step E o s.

Lemma text_default : forall W (E : env W) m i, Forall (agree E (ODefault i)) (texts E m (ODefault i)).
Proof. intros W [tys tid [|]] m i; each_text; text. Qed.
Lemma text_nullopt : forall W (E : env W) m i, Forall (agree E (ONullopt i)) (texts E m (ONullopt i)).
Proof. intros W [tys tid [|]] m i; each_text; text. Qed.
Lemma text_in_place : forall W (E : env W) m i n, Forall (agree E (OInPlace i n)) (texts E m (OInPlace i n)).
Proof. intros W [tys tid [|]] m i n; destruct n as [? ? ? [|] ?]; each_text; text. Qed.
Lemma text_dtor : forall W (E : env W) m i, Forall (agree E (ODtor i)) (texts E m (ODtor i)).
Proof. intros W [tys tid [|]] m i; each_text; text. Qed.
Lemma text_assign_null : forall W (E : env W) m i, Forall (agree E (OAssignNull i)) (texts E m (OAssignNull i)).
Proof. intros W [tys tid [|]] m i; each_text; text. Qed.
Lemma text_assign : forall W (E : env W) m i a, Forall (agree E (OAssign i a)) (texts E m (OAssign i a)).
Proof. intros W [tys tid [|]] m i a; destruct a as [[? ? ? [|] ?] ? ?]; each_text; text. Qed.
Lemma text_emplace : forall W (E : env W) m i n, Forall (agree E (OEmplace i n)) (texts E m (OEmplace i n)).
Proof. intros W [tys tid [|]] m i n; destruct n as [? ? ? [|] ?]; each_text; text. Qed.
Lemma text_reset : forall W (E : env W) m i, Forall (agree E (OReset i)) (texts E m (OReset i)).
Proof. intros W [tys tid [|]] m i; each_text; text. Qed.
Lemma text_has_value : forall W (E : env W) m i, Forall (agree E (OHasValue i)) (texts E m (OHasValue i)).
Proof. intros W [tys tid [|]] m i; each_text; text. Qed.
Lemma text_bool : forall W (E : env W) m i, Forall (agree E (OBool i)) (texts E m (OBool i)).
Proof. intros W [tys tid [|]] m i; each_text; text. Qed.
Lemma text_access : forall W (E : env W) m k i cst f, Forall (agree E (OAccess k i cst f)) (texts E m (OAccess k i cst f)).
Proof. intros W [tys tid [|]] m k i cst f; destruct k, cst; each_text; text. Qed.
Lemma text_value_or_copy : forall W (E : env W) m i d, Forall (agree E (OValueOrCopy i d)) (texts E m (OValueOrCopy i d)).
Proof. intros W [tys tid [|]] m i d; each_text; text. Qed.
Lemma text_value_or_move : forall W (E : env W) m i d, Forall (agree E (OValueOrMove i d)) (texts E m (OValueOrMove i d)).
Proof. intros W [tys tid [|]] m i d; each_text; text. Qed.
Lemma text_and_then : forall W (E : env W) m k i cst f, Forall (agree E (OAndThen k i cst f)) (texts E m (OAndThen k i cst f)).
Proof. intros W [tys tid [|]] m k i cst f; destruct cst; each_text; text. Qed.
Lemma text_transform : forall W (E : env W) m k i cst f nt, Forall (agree E (OTransform k i cst f nt)) (texts E m (OTransform k i cst f nt)).
Proof. intros W [tys tid [|]] m k i cst f nt; destruct cst; each_text; text. Qed.
Lemma text_hash : forall W (E : env W) m h i, Forall (agree E (OHash h i)) (texts E m (OHash h i)).
Proof. intros W [tys tid [|]] m h i; each_text; text. Qed.
