(** * SpecTac: evaluating abstract calls in proofs *)

From Coq Require Import List NArith ZArith Bool Arith Lia.
From Verif Require Import Cells CellsFacts Machine Optional Program Spec Laws Refine Contract.
Import ListNotations.

Ltac sunfold H :=
  unfold sunit, sbool, sval, s_ctor_from, s_dtor, s_assign, s_assign_existing,
    s_copy_assign, s_move_assign, s_emplace, s_swap, s_clear, s_access, s_value_or, s_and_then,
    s_transform, s_or_else, s_new, s_compare, s_three, s_relate, s_relate3, s_operand, s_hash, s_has,
    sinit, scopy, smove, sdestroy, same, contents, fresh, sread, swrite, become, sset,
    suser, sres, sbind, sret, sthrow, sundef in H.

(** One step of simplification in hypothesis [H] (an equation [sstep o t = _]). *)
Ltac sstep1 H :=
  match type of H with
  | context [upd _ ?i _ ?i] => rewrite (upd_same _ i) in H
  | context [upd _ ?i _ ?j] => rewrite (upd_other _ i _ j) in H by congruence
  | context [Nat.eqb ?i ?i] => rewrite (Nat.eqb_refl i) in H
  | context [objs ?t ?i] => match goal with Ho : objs t i = _ |- _ => rewrite Ho in H end
  | context [Nat.eqb ?i ?j] =>
      match goal with
      | Ho : Nat.eqb i j = _ |- _ => rewrite Ho in H
      | Ho : i <> j |- _ => rewrite (proj2 (Nat.eqb_neq i j) Ho) in H
      end
  end.
Ltac seval H := repeat (cbn in H; sstep1 H); cbn in H.

(** Case distinctions on user code and on the contract. *)
Ltac scase1 H :=
  match type of H with
  | context [if storable ?E ?i ?v then _ else _] => destruct (storable E i v) eqn:?
  | context [if is_value ?E ?i ?v then _ else _] => destruct (is_value E i v) eqn:?
  | context [match ?x with (_, _) => _ end] =>
      match x with
      | context [match _ with _ => _ end] => fail 1
      | _ => destruct x as [? ?] eqn:?
      end
  | context [match ?x with ROk _ => _ | RThrow _ => _ end] =>
      match x with
      | context [match _ with _ => _ end] => fail 1
      | _ => destruct x eqn:?
      end
  end.
Ltac sgo H := sunfold H; seval H; repeat (scase1 H; seval H).

Notation "x <-- m ;;; k" := (sbind m (fun x => k))
  (at level 61, m at next level, right associativity).
Notation "m ;;; k" := (sbind m (fun _ => k))
  (at level 61, right associativity).

(** Remaining cases after [sgo H]: undefined ones are excluded by [Hr]. *)
Ltac sdone H Hr := cbn in H; injection H as <- <-; cbn in Hr; try contradiction.
