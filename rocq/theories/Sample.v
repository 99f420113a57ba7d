(** * Sample: concrete environments, to show that hypotheses can be met

    Not library code.  A payload class [P] of two cells whose special members may
    throw according to a schedule in the world, with a moved-from state, stored in
    different ways; double and bool with their in-place strategies. *)

From Coq Require Import List NArith ZArith Bool Arith Lia.
From Verif Require Import Cells CellsFacts Machine Optional Program Spec Laws Bits Manip.
Import ListNotations.

(** The world: for each coming user call, whether it throws; and a call counter. *)
Record sworld_t : Type := MkSW { sched : list (option nat); calls : nat }.
Definition quiet : sworld_t := MkSW [] 0.
Definition plan (l : list (option nat)) : sworld_t := MkSW l 0.

Definition user {A} (a : A) (w : sworld_t) : res A * sworld_t :=
  match sched w with
  | [] => (ROk a, MkSW [] (1 + calls w))
  | None :: l => (ROk a, MkSW l (1 + calls w))
  | Some n :: l => (RThrow (UserExn n), MkSW l (1 + calls w))
  end.

(** Moved-from state of [P]. *)
Definition moved (v : rep) : rep :=
  match v with _ :: l => Atom 99 :: l | [] => [] end.
Definition on_ok {A B} (r : res A) (x y : B) : B := match r with ROk _ => x | RThrow _ => y end.

Definition p_ops : payops sworld_t :=
  MkPayOps _
    (fun v w => user v w)
    (fun v w => let (r, w') := user v w in ((r, on_ok r (moved v) v), w'))
    (fun d v w => let (r, w') := user tt w in ((r, on_ok r v d), w'))
    (fun d v w => let (r, w') := user tt w in ((r, on_ok r (v, moved v) (d, v)), w'))
    (fun v w => let (r, w') := user tt w in ((r, v), w'))
    (fun v w => let (r, w') := user tt w in ((r, v), w'))
    (fun a b w => let (r, w') := user tt w in ((r, on_ok r (b, a) (a, b)), w'))
    (fun v w => let (r, w') := user tt w in ((r, v), w'))
    (fun _ w => MkSW (sched w) (1 + calls w))
    false false false false.

(** A trivial type such as double: nothing throws, a move is a copy. *)
Definition t_ops : payops sworld_t :=
  MkPayOps _
    (fun v w => (ROk v, w))
    (fun v w => ((ROk v, v), w))
    (fun _ v w => ((ROk tt, v), w))
    (fun _ v w => ((ROk tt, (v, v)), w))
    (fun v w => ((ROk tt, v), w))
    (fun v w => ((ROk tt, v), w))
    (fun a b w => ((ROk tt, (b, a)), w))
    (fun v w => ((ROk tt, v), w))
    (fun _ w => w)
    true true true true.

Lemma p_ops_ok : payops_ok p_ops.
Proof. split; cbn; discriminate. Qed.
Lemma t_ops_ok : payops_ok t_ops.
Proof. split; cbn; intros; exact I. Qed.

(** [P]'s operator== against a sentinel whose first member is 0 looks only at the
    first member. *)
Definition p_is0 (c : rep) : option bool :=
  match c with
  | Atom z :: _ => Some (Z.eqb z 0)
  | _ => None
  end.

Definition ty_sep : optty sworld_t := MkOptTy _ (dec_separate 2 1) man_separate p_ops.
Definition ty_sen : optty sworld_t :=
  MkOptTy _ (dec_inplace 2) (man_assign [Atom 0; Atom 0] p_is0) p_ops.
Definition ty_dbl : optty sworld_t := MkOptTy _ (dec_inplace 8) man_double t_ops.
Definition ty_mem : optty sworld_t :=
  MkOptTy _ (dec_member 2 1 1) (man_assign [Atom 0] p_is0) p_ops.
Definition ty_bool : optty sworld_t := MkOptTy _ (dec_inplace 1) man_bool t_ops.

(** Variables 0-9 have type 0, 10-19 type 1, and so on. *)
Definition sample_tys (t : nat) : optty sworld_t :=
  match t with
  | 1 => ty_sen
  | 2 => ty_dbl
  | 3 => ty_mem
  | 4 => ty_bool
  | _ => ty_sep
  end.
Definition sample (dbg : bool) : env sworld_t := MkEnv _ sample_tys (fun i => i / 10) dbg.

Lemma ty_sep_ok : optty_ok ty_sep.
Proof. split; [apply dec_separate_ok; lia|apply man_separate_ok|apply p_ops_ok]. Qed.
Lemma ty_sen_ok : optty_ok ty_sen.
Proof. split; [apply dec_inplace_ok|apply man_assign_ok; reflexivity|apply p_ops_ok]. Qed.
Lemma ty_dbl_ok : optty_ok ty_dbl.
Proof.
  split; [apply dec_inplace_ok|apply man_memcmp_ok; [reflexivity|cbn; lia]|apply t_ops_ok].
Qed.
Lemma ty_mem_ok : optty_ok ty_mem.
Proof. split; [apply dec_member_ok; lia|apply man_assign_ok; reflexivity|apply p_ops_ok]. Qed.
Lemma ty_bool_ok : optty_ok ty_bool.
Proof.
  split; [apply dec_inplace_ok|apply man_memcmp_ok; [reflexivity|cbn; lia]|apply t_ops_ok].
Qed.

Lemma sample_ok dbg : env_ok (sample dbg).
Proof.
  intros t. cbn. unfold sample_tys.
  destruct t as [|[|[|[|[|t]]]]]; auto using ty_sep_ok, ty_sen_ok, ty_dbl_ok, ty_mem_ok, ty_bool_ok.
Qed.

(** ** Ready made arguments *)

(** Construct [P] with these members; may throw according to the schedule. *)
Definition mkP (x y : Z) : ini sworld_t :=
  MkIni None true (fun _ w => let (r, w') := user [Atom x; Atom y] w in ((r, []), w')) false.
(** [P( *i, std::move( *j))]: the first member of one, the second member of the other,
    which is moved from. *)
Definition from_both (i j : loc) : ini sworld_t :=
  MkInis (Some i) true
    (fun v w => let (r, w') := user (sub 0 1 v ++ sub 3 1 v) w in
                ((r, sub 0 3 v ++ [on_ok r (Atom 99) (nth 3 v (Atom 0))]), w'))
    false [(j, false)].
(** The same as right hand side of an assignment. *)
Definition argP (x y : Z) : arg sworld_t :=
  MkArg (mkP x y)
        (fun d _ w => let (r, w') := user tt w in
                      ((r, (on_ok r [Atom x; Atom y] d, [])), w'))
        (fun v w => ((ROk tt, v), w)).
(** A double / a bool from its bits. *)
Definition mkBits (n : nat) (x : N) : ini sworld_t :=
  MkIni None true (fun _ w => ((ROk (word n x), []), w)) true.
(** Look at the payload. *)
Definition look : fn_use sworld_t := fun v w => ((ROk v, v), w).

Lemma mkP_ok x y : ini_ok (mkP x y).
Proof. intros H. discriminate H. Qed.
Lemma mkBits_ok n x : ini_ok (mkBits n x).
Proof. intros _ v w. exact I. Qed.

Ltac op_oks :=
  repeat (apply Forall_cons || apply Forall_nil);
  cbn [op_ok]; try apply cmp_ok_direct; cbn; auto using mkP_ok, mkBits_ok; try (intros; discriminate).

(** A closed goal about the sample environment: prove by running it. *)
Ltac run_it :=
  repeat match goal with b : bool |- _ => destruct b end; vm_compute; reflexivity.

(** The whole machinery runs. *)
Example sample_run dbg :
  fst (run (sample dbg)
         [ODefault 0; OHasValue 0; OEmplace 0 (mkP 5 6); OAccess AccDeref 0 true look;
          OCopyCtor 1 0; OAssign 1 (argP 7 8); OMoveAssign 0 1; OAccess AccValue 0 true look;
          OAccess AccValue 1 true look; OReset 0; OAccess AccValue 0 true look; ODtor 0; ODtor 1]
         (init_state quiet))
  = inl [ObUnit; ObBool false; ObUnit; ObVal [Atom 5; Atom 6]; ObUnit; ObUnit; ObUnit;
         ObVal [Atom 7; Atom 8]; ObVal [Atom 99; Atom 8]; ObUnit; ObThrow BadOptionalAccess;
         ObUnit; ObUnit].
Proof. destruct dbg; reflexivity. Qed.
