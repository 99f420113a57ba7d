(** * ExampleTac: showing that concrete cases meet the hypotheses of theorems *)

From Coq Require Import List NArith ZArith Bool Arith Lia.
From Verif Require Import Cells Machine Optional Program Spec Laws Contract Sample.
Import ListNotations.

Ltac ex_contract := eapply contract_intro; [op_oks|run_it].
Ltac ex_reaches := first [eapply reaches_intro; run_it | eexists; run_it].
Ltac ex_call := split; [ex_contract|split; [ex_reaches|run_it]].
Ltac ex_opt := apply opt_after_intro; run_it.
Ltac ex_fresh := apply fresh_after_intro; run_it.
