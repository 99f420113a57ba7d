(** * Program: histories of API calls

    A program is a list of API calls on named variables.  Exceptions are caught
    after each call (they become observations), everything else that is not a
    normal return stops the run.  Not library code: this is the client. *)

From Coq Require Import List NArith ZArith Bool Arith.
From Verif Require Import Cells Machine Optional.
Import ListNotations.

(** How a payload reference is obtained: [*o], [o->], [o.value()]
    (optional.h:1561-1629). *)
Inductive accessor : Type := AccDeref | AccArrow | AccValue.

(** API calls; the lines are those cited in [Optional.v]. *)
Inductive op (W : Type) : Type :=
| ODefault (i : loc)
| ONullopt (i : loc)
| OInPlace (i : loc) (n : ini W)
| OCopyCtor (i j : loc)
| OMoveCtor (i j : loc)
| ODtor (i : loc)
| OAssignNull (i : loc)
| OAssign (i : loc) (a : arg W)
| OCopyAssign (i j : loc)
| OMoveAssign (i j : loc)
| OEmplace (i : loc) (n : ini W)
| OReset (i : loc)
| OSwap (i j : loc)
| OStdSwap (i j k : loc)
| OHasValue (i : loc)
| OBool (i : loc)
| OAccess (k : accessor) (i : loc) (cst : bool) (f : fn_use W)
| OValueOrCopy (i : loc) (d : ini W)
| OValueOrMove (i : loc) (d : ini W)
| OAndThen (k i : loc) (cst : bool) (f : fn_opt W)
| OTransform (k i : loc) (cst : bool) (f : fn_use W) (nt : bool)
| OOrElse (k i : loc) (mv : bool) (f : W -> res (option rep) * W)
| OCompare (rt : route) (c : cmpops W) (r : relop) (L R : operand)
| OThreeWay (gcc : bool) (c : cmpops W) (L R : operand)
| OHash (h : rep -> W -> res N * W) (i : loc)
| OVarNew (i : loc) (v : rep)     (* a user variable of payload type *)
| OVarDrop (i : loc).
Arguments ODefault {W} i.
Arguments ONullopt {W} i.
Arguments OInPlace {W} i n.
Arguments OCopyCtor {W} i j.
Arguments OMoveCtor {W} i j.
Arguments ODtor {W} i.
Arguments OAssignNull {W} i.
Arguments OAssign {W} i a.
Arguments OCopyAssign {W} i j.
Arguments OMoveAssign {W} i j.
Arguments OEmplace {W} i n.
Arguments OReset {W} i.
Arguments OSwap {W} i j.
Arguments OStdSwap {W} i j k.
Arguments OHasValue {W} i.
Arguments OBool {W} i.
Arguments OAccess {W} k i cst f.
Arguments OValueOrCopy {W} i d.
Arguments OValueOrMove {W} i d.
Arguments OAndThen {W} k i cst f.
Arguments OTransform {W} k i cst f nt.
Arguments OOrElse {W} k i mv f.
Arguments OCompare {W} rt c r L R.
Arguments OThreeWay {W} gcc c L R.
Arguments OHash {W} h i.
Arguments OVarNew {W} i v.
Arguments OVarDrop {W} i.

(** What the client can see of one call. *)
Inductive obs : Type :=
| ObUnit
| ObBool (b : bool)
| ObVal (v : rep)
| ObOrd (o : ordering)
| ObHash (h : N)
| ObThrow (e : exn).

Section Program.
  Context {W : Type}.
  Variable E : env W.

  (** A user variable holding a payload value. *)
  Definition var_new (i : loc) (v : rep) : M W unit :=
    (fun s => match mem s i with
              | Some _ => (Dead NoStorage, s)
              | None => if Nat.eqb (length v) (d_psize (dec E i))
                        then set_region i (Some (MkRegion v false true)) s
                        else (Dead IllTyped, s)
              end) ;;
    log (EvPayBegin i).
  Definition var_drop (i : loc) : M W unit :=
    v <- load_payload E i ;;
    call (fun w => (tt, po_dtor (ops E i) v w)) ;;
    set_region i None ;;
    log (EvPayEnd i).

  Definition acc (k : accessor) (i : loc) : M W unit :=
    match k with
    | AccDeref => op_deref E i
    | AccArrow => op_arrow E i
    | AccValue => value E i
    end.

  Definition unit_ (m : M W unit) : M W obs := m ;; ret ObUnit.
  Definition bool_ (m : M W bool) : M W obs := b <- m ;; ret (ObBool b).
  Definition val_ (m : M W rep) : M W obs := v <- m ;; ret (ObVal v).

  (** One API call. *)
  Definition step (o : op W) : M W obs :=
    match o with
    | ODefault i => unit_ (ctor_default E i)
    | ONullopt i => unit_ (ctor_nullopt E i)
    | OInPlace i n => unit_ (ctor_in_place E i n)
    | OCopyCtor i j => unit_ (ctor_copy E i j)
    | OMoveCtor i j => unit_ (ctor_move E i j)
    | ODtor i => unit_ (dtor E i)
    | OAssignNull i => unit_ (assign_nullopt E i)
    | OAssign i a => unit_ (assign E i a)
    | OCopyAssign i j => unit_ (assign_copy E i j)
    | OMoveAssign i j => unit_ (assign_move E i j)
    | OEmplace i n => unit_ (emplace E i n)
    | OReset i => unit_ (reset E i)
    | OSwap i j => unit_ (swap E i j)
    | OStdSwap i j k => unit_ (std_swap E i j k)
    | OHasValue i => bool_ (has_value E i)
    | OBool i => bool_ (op_bool E i)
    | OAccess k i c f => val_ (acc k i ;; use_payload E i c f)
    | OValueOrCopy i d => val_ (value_or_copy E i d)
    | OValueOrMove i d => val_ (value_or_move E i d)
    | OAndThen k i c f => unit_ (and_then E k i c f)
    | OTransform k i c f nt => unit_ (transform E k i c f nt)
    | OOrElse k i mv f => unit_ (or_else E k i mv f)
    | OCompare m c r L R => bool_ (compare E m c r L R)
    | OThreeWay g c L R => o <- three_way E g c L R ;; ret (ObOrd o)
    | OHash h i => x <- hash E h i ;; ret (ObHash x)
    | OVarNew i v => unit_ (var_new i v)
    | OVarDrop i => unit_ (var_drop i)
    end.

  (** Run a whole history.  [inl]: the observations; [inr]: the fault that stopped
      the run (and what was observed before is irrelevant). *)
  Fixpoint run (p : list (op W)) (s : state W) : (list obs + fault) * state W :=
    match p with
    | [] => (inl [], s)
    | o :: p' =>
        match step o s with
        | (Ok x, s') =>
            let (r, s'') := run p' s' in
            (match r with inl xs => inl (x :: xs) | inr f => inr f end, s'')
        | (Throw e, s') =>
            let (r, s'') := run p' s' in
            (match r with inl xs => inl (ObThrow e :: xs) | inr f => inr f end, s'')
        | (Dead f, s') => (inr f, s')
        end
    end.

  (** The start: no variable exists. *)
  Definition init_state (w : W) : state W := MkState (fun _ => None) w [].
End Program.
