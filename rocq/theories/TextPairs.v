(** * TextPairs: calls with two optionals, executed from the text *)

From Coq Require Import Ascii String List NArith ZArith Bool Arith.
From Verif Require Import Cells Machine Optional Program Syntax Source Exec Texts TextFacts.
Import ListNotations.

(** The operands have the same type. *)
Ltac typed_text x y :=
  match goal with
  | |- Forall (agree ?E _) _ =>
      unfold texts, typed;
      destruct (Nat.eqb (e_tid E x) (e_tid E y)) eqn:T; [|apply Forall_nil];
      assert (O : ops E y = ops E x)
        by (apply Nat.eqb_eq in T; unfold ops, ty; rewrite T; reflexivity);
      cbn [e_tid] in T;
      viable_functions; cbn [map flat_map kinds app];
      repeat apply Forall_cons; try apply Forall_nil; intro s;
      run_text; rewrite ?T, ?O; repeat one
  end.

Lemma text_copy_ctor : forall W (E : env W) m i j, Forall (agree E (OCopyCtor i j)) (texts E m (OCopyCtor i j)).
Proof. intros W [tys tid [|]] m i j; typed_text i j. Qed.
Lemma text_move_ctor : forall W (E : env W) m i j, Forall (agree E (OMoveCtor i j)) (texts E m (OMoveCtor i j)).
Proof. intros W [tys tid [|]] m i j; typed_text i j. Qed.
Lemma text_copy_assign : forall W (E : env W) m i j, Forall (agree E (OCopyAssign i j)) (texts E m (OCopyAssign i j)).
Proof. intros W [tys tid [|]] m i j; typed_text i j. Qed.
Lemma text_move_assign : forall W (E : env W) m i j, Forall (agree E (OMoveAssign i j)) (texts E m (OMoveAssign i j)).
Proof. intros W [tys tid [|]] m i j; typed_text i j. Qed.
Lemma text_swap : forall W (E : env W) m i j, Forall (agree E (OSwap i j)) (texts E m (OSwap i j)).
Proof. intros W [tys tid [|]] m i j; typed_text i j. Qed.
Lemma text_or_else : forall W (E : env W) m k i mv f, Forall (agree E (OOrElse k i mv f)) (texts E m (OOrElse k i mv f)).
Proof. intros W [tys tid [|]] m k i mv f; destruct mv; typed_text k i. Qed.
