(** * TextCompare: comparisons, executed from the text *)

From Coq Require Import Ascii String List NArith ZArith Bool Arith.
From Verif Require Import Cells Machine Optional Program Syntax Source Exec Texts TextFacts.
Import ListNotations.

(** Every operator function of the header that accepts the operands does what
    [declared] says; [declared3] for [<=>]. *)
Lemma text_REq : forall W (E : env W) m c L R,
  Forall (fun x => forall s, x s = declared E c REq L R s) (rel_texts E m c REq L R).
Proof.
  intros W [tys tid [|]] m c [i|[v|]| |v] [j|[u|]| |u]; unfold rel_texts;
    viable_functions; cbn [map]; repeat apply Forall_cons; try apply Forall_nil; intro s; text.
Qed.
Lemma text_RNe : forall W (E : env W) m c L R,
  Forall (fun x => forall s, x s = declared E c RNe L R s) (rel_texts E m c RNe L R).
Proof.
  intros W [tys tid [|]] m c [i|[v|]| |v] [j|[u|]| |u]; unfold rel_texts;
    viable_functions; cbn [map]; repeat apply Forall_cons; try apply Forall_nil; intro s; text.
Qed.
Lemma text_RLt : forall W (E : env W) m c L R,
  Forall (fun x => forall s, x s = declared E c RLt L R s) (rel_texts E m c RLt L R).
Proof.
  intros W [tys tid [|]] m c [i|[v|]| |v] [j|[u|]| |u]; unfold rel_texts;
    viable_functions; cbn [map]; repeat apply Forall_cons; try apply Forall_nil; intro s; text.
Qed.
Lemma text_RLe : forall W (E : env W) m c L R,
  Forall (fun x => forall s, x s = declared E c RLe L R s) (rel_texts E m c RLe L R).
Proof.
  intros W [tys tid [|]] m c [i|[v|]| |v] [j|[u|]| |u]; unfold rel_texts;
    viable_functions; cbn [map]; repeat apply Forall_cons; try apply Forall_nil; intro s; text.
Qed.
Lemma text_RGt : forall W (E : env W) m c L R,
  Forall (fun x => forall s, x s = declared E c RGt L R s) (rel_texts E m c RGt L R).
Proof.
  intros W [tys tid [|]] m c [i|[v|]| |v] [j|[u|]| |u]; unfold rel_texts;
    viable_functions; cbn [map]; repeat apply Forall_cons; try apply Forall_nil; intro s; text.
Qed.
Lemma text_RGe : forall W (E : env W) m c L R,
  Forall (fun x => forall s, x s = declared E c RGe L R s) (rel_texts E m c RGe L R).
Proof.
  intros W [tys tid [|]] m c [i|[v|]| |v] [j|[u|]| |u]; unfold rel_texts;
    viable_functions; cbn [map]; repeat apply Forall_cons; try apply Forall_nil; intro s; text.
Qed.
Lemma text_three : forall W (E : env W) m c L R,
  Forall (fun x => forall s, x s = declared3 E c L R s) (three_texts E m c L R).
Proof.
  intros W [tys tid [|]] m c [i|[v|]| |v] [j|[u|]| |u]; unfold three_texts;
    viable_functions; cbn [map]; repeat apply Forall_cons; try apply Forall_nil; intro s; text.
Qed.
