(** * Laws: what a storage strategy and a payload type have to satisfy

    These are the hypotheses under which the theorems about histories hold.  Each
    concrete strategy of the library is shown to satisfy them in [Manip.v]; the
    documentation of optional.h:551-567 and 654-675 and README 399-472 states the
    same obligations for user supplied manipulators. *)

From Coq Require Import List NArith ZArith Bool Arith.
From Verif Require Import Cells Machine Optional Program.
Import ListNotations.

(** Cells of the flag in the cells of a region. *)
Definition flag_cells (D : decomp) (c : rep) : rep := sub (d_foff D) (d_fsize D) c.

(** A lawful decomposition: payload and flag lie in the storage; a separate flag
    lies behind the payload; an in-place flag lies inside the payload, which then
    fills the storage (optional.h:516-646). *)
Record decomp_ok (D : decomp) : Prop := {
  do_pay : d_psize D <= d_ssize D;
  do_flag : d_foff D + d_fsize D <= d_ssize D;
  do_sep : d_sep D = true -> d_psize D <= d_foff D;
  do_inpl : d_sep D = false -> d_foff D + d_fsize D <= d_psize D;
  do_size : d_sep D = false -> d_ssize D = d_psize D
}.

(** A lawful manipulator for that decomposition (optional.h:654-675): after
    [init_empty_flag], on whatever memory, the flag says "empty"; for a separate
    flag, after [invalidate_empty_flag] it says "not empty". *)
Record manip_ok (D : decomp) (F : manip) : Prop := {
  mo_init_len : forall c, length c = d_fsize D -> length (m_init F c) = d_fsize D;
  mo_inval_len : forall c, length c = d_fsize D -> length (m_inval F c) = d_fsize D;
  mo_init : forall c, length c = d_fsize D -> m_is_empty F (m_init F c) = Some true;
  mo_inval : forall c, length c = d_fsize D -> d_sep D = true ->
             m_is_empty F (m_inval F c) = Some false
}.

(** The values that an optional of this type may contain: values of the payload
    type which, if the flag is in place, do not look empty. *)
Definition storable_in (D : decomp) (F : manip) (v : rep) : bool :=
  Nat.eqb (length v) (d_psize D) &&
  (d_sep D || match m_is_empty F (flag_cells D v) with Some false => true | _ => false end).

(** No result of the user function is an exception. *)
Definition no_throw {A} (r : res A) : Prop := match r with ROk _ => True | RThrow _ => False end.

(** The payload's nothrow traits are truthful. *)
Record payops_ok {W} (p : payops W) : Prop := {
  py_copy : po_nt_copy p = true -> forall v w, no_throw (fst (po_copy p v w));
  py_move : po_nt_move p = true -> forall v w, no_throw (fst (fst (po_move p v w)));
  py_massign : po_nt_massign p = true ->
    forall d v w, no_throw (fst (fst (po_massign p d v w)));
  py_self_massign : po_nt_massign p = true ->
    forall v w, no_throw (fst (fst (po_self_massign p v w)));
  py_swap : po_nt_swap p = true -> forall a b w, no_throw (fst (fst (po_swap p a b w)));
  py_self_swap : po_nt_swap p = true ->
    forall v w, no_throw (fst (fst (po_self_swap p v w)))
}.

Definition ini_ok {W} (n : ini W) : Prop :=
  i_nothrow n = true -> forall v w, no_throw (fst (fst (i_fun n v w))).

Record optty_ok {W} (T : optty W) : Prop := {
  ok_dec : decomp_ok (ot_dec T);
  ok_man : manip_ok (ot_dec T) (ot_man T);
  ok_ops : payops_ok (ot_ops T)
}.

Definition env_ok {W} (E : env W) : Prop := forall t, optty_ok (e_tys E t).

(** The expression on payloads that evaluating [L Op R] amounts to if both operands
    have values [a] and [b]. *)
Definition payload_via {W} (c : cmpops W) (rt : route) (r : relop) (a b : rep) (w : W)
  : res bool * W :=
  match rt with
  | RtDirect => c_rel c r a b w
  | RtRewritten rev =>
      let x := if rev then b else a in
      let y := if rev then a else b in
      match r with
      | REq => c_rel c REq x y w
      | RNe =>
          let (z, w') := c_rel c REq x y w in
          (match z with ROk q => ROk (negb q) | RThrow e => RThrow e end, w')
      | _ =>
          let (z, w') := c_three c x y w in
          (match z with ROk o => ROk (ord_test r (if rev then flip o else o)) | RThrow e => RThrow e end, w')
      end
  end.
(** The rewritten expression names a function that exists. *)
Definition route_defined (rt : route) (r : relop) (L R : operand) : bool :=
  match rt, r with
  | RtDirect, _ | _, REq | _, RNe => true
  | RtRewritten rev, _ =>
      match (if rev then R else L), (if rev then L else R) with
      | OpTiny _, _ | OpStd _, OpTiny _ => true
      | _, _ => false
      end
  end.
Definition with_null (L R : operand) : bool :=
  match L, R with OpNull, _ | _, OpNull => true | _, _ => false end.
(** If the compiler rewrites the expression (which is the case in C++20 if the
    payloads have [<=>], see [CmpOverload.v]) then the payload operators it uses
    must agree with the operator that the client wrote. *)
Definition cmp_ok {W} (rt : route) (c : cmpops W) (r : relop) (L R : operand) : Prop :=
  route_defined rt r L R = true /\
  (with_null L R = true \/ forall a b w, payload_via c rt r a b w = c_rel c r a b w).
Lemma cmp_ok_direct {W} (c : cmpops W) r L R : cmp_ok RtDirect c r L R.
Proof. split; [reflexivity|]. right. reflexivity. Qed.

(** What is required of the client's code in one call: the nothrow traits of the
    constructors it selects are truthful, and a callable passed to transform may
    throw only if constructing the result may throw (see
    [transform_throw_terminates] for why).  Rewritten comparisons: [cmp_ok]. *)
Definition op_ok {W} (o : op W) : Prop :=
  match o with
  | OInPlace _ n | OEmplace _ n => ini_ok n
  | OAssign _ a => ini_ok (a_ini a)
  | OTransform _ _ _ f nt => nt = true -> forall v w, no_throw (fst (fst (f v w)))
  | OCompare rt c r L R => cmp_ok rt c r L R
  | _ => True
  end.

(** The parameters of the specification that belong to an environment. *)
Definition storable {W} (E : env W) (i : loc) (v : rep) : bool :=
  storable_in (dec E i) (man E i) v.
Definition is_value {W} (E : env W) (i : loc) (v : rep) : bool :=
  Nat.eqb (length v) (d_psize (dec E i)).
