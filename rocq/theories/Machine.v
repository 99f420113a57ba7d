(** * Machine: the C++ abstract machine used to run the library

    Regions of memory with object lifetimes, user code with exceptions and side
    effects, [noexcept], [assert], and undefined behaviour.  Nothing in this file
    is library code; it is the semantics of the C++ constructs that the library
    code in optional.h uses.  The comments cite the lines that rely on each
    construct. *)

From Coq Require Import List NArith ZArith Bool Arith.
From Verif Require Import Cells.
Import ListNotations.

(** Names of memory regions.  One region is the [mStorage] member of one
    optional (optional.h:1147), or one variable of the user's program. *)
Definition loc : Type := nat.

(** Exceptions: [std::bad_optional_access] (optional.h:1602) and arbitrary
    exceptions of user code, identified by a number. *)
Inductive exn : Type :=
| BadOptionalAccess
| UserExn (n : nat).

(** Ways a run can stop for good. *)
Inductive fault : Type :=
| NoStorage          (* operation on a variable that does not exist *)
| NoObject           (* access to, or destruction of, an object that is not alive *)
| IndetRead          (* decision based on an indeterminate value *)
| LifetimeError      (* a live object would be overwritten without destruction *)
| Precondition       (* a flag manipulator is called outside its documented contract *)
| AssertFailed       (* assert() with NDEBUG not defined *)
| Terminated         (* std::terminate *)
| IllTyped.          (* not a C++ program: the compiler rejects it *)

(** Result of running a piece of code. *)
Inductive out (A : Type) : Type :=
| Ok (a : A)
| Throw (e : exn)
| Dead (f : fault).
Arguments Ok {A} a.
Arguments Throw {A} e.
Arguments Dead {A} f.

(** Result of user code: normal or exceptional.  User code that misbehaves in
    other ways (own undefined behaviour, endless loops) is not modelled. *)
Inductive res (A : Type) : Type :=
| ROk (a : A)
| RThrow (e : exn).
Arguments ROk {A} a.
Arguments RThrow {A} e.

(** A memory region.  [flag_obj]: an object serving as 'IsEmpty'-flag is alive in
    it.  [pay_obj]: a payload object is alive at offset 0. *)
Record region : Type := MkRegion {
  cells : rep;
  flag_obj : bool;
  pay_obj : bool
}.

(** Lifetime events, recorded for the accounting theorems.  Flag events are only
    recorded for flags that live inside the payload's memory; the separate bool of
    [SeparateFlagStorage] (optional.h:524) lives exactly as long as the region. *)
Inductive event : Type :=
| EvPayBegin (i : loc)       (* payload constructor finished *)
| EvPayEnd (i : loc)         (* payload destructor ran *)
| EvPayAbandoned (i : loc)   (* storage went away under a live payload: leak *)
| EvFlagBegin (i : loc)      (* init_empty_flag created a flag object *)
| EvFlagEnd (i : loc)        (* invalidate_empty_flag destroyed it *)
| EvFlagAbandoned (i : loc). (* storage went away under a live flag object: leak *)

(** Machine state.  [W] is the state of the user's program ("world"): it lets user
    code behave differently at every call. *)
Record state (W : Type) : Type := MkState {
  mem : loc -> option region;
  world : W;
  trace : list event       (* newest first *)
}.
Arguments MkState {W} mem world trace.
Arguments mem {W} s _.
Arguments world {W} s.
Arguments trace {W} s.

(** Update of a partial map. *)
Definition upd {A : Type} (f : loc -> option A) (i : loc) (x : option A)
  : loc -> option A :=
  fun j => if Nat.eqb i j then x else f j.

(** Behaviour of the payload type's special member functions.  Every function
    threads the world and may throw.  A source that may be modified (move) is
    returned in its new state, also if the operation throws.  The [po_self_*]
    functions are the same operators when both operands are the same object. *)
Record payops (W : Type) : Type := MkPayOps {
  po_copy : rep -> W -> res rep * W;                          (* P(P const &) *)
  po_move : rep -> W -> (res rep * rep) * W;                  (* P(P &&) *)
  po_cassign : rep -> rep -> W -> (res unit * rep) * W;       (* dst = src *)
  po_massign : rep -> rep -> W -> (res unit * (rep * rep)) * W; (* dst = move(src) *)
  po_self_cassign : rep -> W -> (res unit * rep) * W;
  po_self_massign : rep -> W -> (res unit * rep) * W;
  po_swap : rep -> rep -> W -> (res unit * (rep * rep)) * W;  (* using std::swap; swap(a,b) *)
  po_self_swap : rep -> W -> (res unit * rep) * W;
  po_dtor : rep -> W -> W;                                    (* ~P(), noexcept *)
  po_nt_copy : bool;      (* is_nothrow_constructible_v<P, P const &> *)
  po_nt_move : bool;      (* is_nothrow_move_constructible_v<P> *)
  po_nt_massign : bool;   (* is_nothrow_move_assignable_v<P> *)
  po_nt_swap : bool       (* is_nothrow_swappable_v<P> *)
}.
Arguments po_copy {W} _ _ _.
Arguments po_move {W} _ _ _.
Arguments po_cassign {W} _ _ _ _.
Arguments po_massign {W} _ _ _ _.
Arguments po_self_cassign {W} _ _ _.
Arguments po_self_massign {W} _ _ _.
Arguments po_swap {W} _ _ _ _.
Arguments po_self_swap {W} _ _ _.
Arguments po_dtor {W} _ _ _.
Arguments po_nt_copy {W} _.
Arguments po_nt_move {W} _.
Arguments po_nt_massign {W} _.
Arguments po_nt_swap {W} _.

(** Where payload and flag are inside the region: the StoredTypeDecomposition
    concept (optional.h:551-567).  The payload is always at offset 0. *)
Record decomp : Type := MkDecomp {
  d_ssize : nat;   (* sizeof(StoredType) *)
  d_psize : nat;   (* sizeof(PayloadType) *)
  d_foff : nat;    (* offset of the object returned by GetIsEmptyFlag *)
  d_fsize : nat;   (* its size *)
  d_sep : bool     (* the flag is its own object, disjoint from the payload *)
}.

(** The FlagManipulator concept (optional.h:654-675) as functions on the cells of
    the flag.  [m_is_empty] returns [None] if it would have to inspect an
    indeterminate value or an invalid representation.  [m_init c] are the cells
    after [init_empty_flag] on memory that contained [c]; [m_inval c] those after
    [invalidate_empty_flag].  All three are noexcept in C++ (optional.h:935-943).
    Simplification: flag manipulators have no side effects outside the flag. *)
Record manip : Type := MkManip {
  m_is_empty : rep -> option bool;
  m_init : rep -> rep;
  m_inval : rep -> rep
}.

(** One optional type [TinyOptionalImpl<D, F>] (optional.h:1390-1391) together
    with the behaviour of its payload type. *)
Record optty (W : Type) : Type := MkOptTy {
  ot_dec : decomp;
  ot_man : manip;
  ot_ops : payops W
}.
Arguments ot_dec {W} _.
Arguments ot_man {W} _.
Arguments ot_ops {W} _.

(** Static environment of a program: the type of every variable ([e_ty] of the
    type number [e_tid i]) and whether assertions are enabled. *)
Record env (W : Type) : Type := MkEnv {
  e_tys : nat -> optty W;
  e_tid : loc -> nat;
  e_dbg : bool
}.
Arguments e_tys {W} _ _.
Arguments e_tid {W} _ _.
Arguments e_dbg {W} _.

(** An initializer: "construct a payload from these arguments".  The arguments may
    contain references to payloads of regions (e.g. [*o], or a user variable): [i_src],
    if there is any, and the further ones [i_more]; everything else is part of the
    world.  [i_fun] maps the referenced values, one after the other, to the constructed
    value (or an exception) and the new values of the referenced objects; [i_const], and
    the bool in [i_more], say that the reference is to const, i.e. the referenced object
    is not changed.  [i_nothrow] is
    [std::is_nothrow_constructible_v<PayloadType, ArgsT...>].
    Simplification: if two references that are not to const refer to the same object,
    then its new value is the one given for the later of them. *)
Record ini (W : Type) : Type := MkInis {
  i_src : option loc;
  i_const : bool;
  i_fun : rep -> W -> (res rep * rep) * W;
  i_nothrow : bool;
  i_more : list (loc * bool)
}.
Arguments MkInis {W} _ _ _ _ _.
(** At most one reference. *)
Notation MkIni src c f nt := (MkInis src c f nt []).
Arguments i_more {W} _.
Arguments i_src {W} _.
Arguments i_const {W} _.
Arguments i_fun {W} _ _ _.
Arguments i_nothrow {W} _.

(** The values that the arguments refer to, one after the other; and back. *)
Fixpoint joined (v : rep) (vs : list rep) : rep :=
  match vs with [] => v | x :: vs' => v ++ joined x vs' end.
Fixpoint parted (v : rep) (vs : list rep) (new : rep) : rep * list rep :=
  match vs with
  | [] => (new, [])
  | x :: vs' =>
      let (y, ys) := parted x vs' (skipn (length v) new) in (firstn (length v) new, y :: ys)
  end.

(** The argument of [operator=(U&&)]: how to construct from it and how to assign
    it to an existing payload ([a_self]: when it refers to that payload itself). *)
Record arg (W : Type) : Type := MkArg {
  a_ini : ini W;
  a_assign : rep -> rep -> W -> (res unit * (rep * rep)) * W;
  a_self : rep -> W -> (res unit * rep) * W
}.
Arguments MkArg {W} _ _ _.
Arguments a_ini {W} _.
Arguments a_assign {W} _ _ _ _.
Arguments a_self {W} _ _ _.

Section Machine.
  Context {W : Type}.
  Variable E : env W.

  (** Code producing an [A]. *)
  Definition M (A : Type) : Type := state W -> out A * state W.

  Definition ret {A} (a : A) : M A := fun s => (Ok a, s).
  Definition throw {A} (e : exn) : M A := fun s => (Throw e, s).
  Definition dead {A} (f : fault) : M A := fun s => (Dead f, s).
  Definition bind {A B} (m : M A) (k : A -> M B) : M B :=
    fun s => match m s with
             | (Ok a, s') => k a s'
             | (Throw e, s') => (Throw e, s')
             | (Dead f, s') => (Dead f, s')
             end.

  (** [noexcept(b)]: an exception leaving the function terminates the program if
      [b] holds (optional.h:955, 1044, 1084, 1136, 1179, 1293, 1656, ...). *)
  Definition noexcept_if {A} (b : bool) (m : M A) : M A :=
    fun s => match m s with
             | (Throw e, s') => if b then (Dead Terminated, s') else (Throw e, s')
             | r => r
             end.

  (** Clean-up code that runs during stack unwinding (destructors of scope guards
      and of completely constructed base classes), then the exception continues.
      An exception from the clean-up terminates.  Used for
      [InitializeIsEmptyFlagScope] (optional.h:1024-1040) and base class
      destructors. *)
  Definition on_throw {A} (m : M A) (cleanup : M unit) : M A :=
    fun s => match m s with
             | (Throw e, s') =>
                 match cleanup s' with
                 | (Ok _, s'') => (Throw e, s'')
                 | (Throw _, s'') => (Dead Terminated, s'')
                 | (Dead f, s'') => (Dead f, s'')
                 end
             | r => r
             end.

  (** [assert(cond)]; the condition is evaluated only if assertions are on. *)
  Definition assert_ (cond : M bool) : M unit :=
    if e_dbg E
    then bind cond (fun b => if b then ret tt else dead AssertFailed)
    else ret tt.

  (** Static type of a variable and its parts. *)
  Definition ty (i : loc) : optty W := e_tys E (e_tid E i).
  Definition dec (i : loc) : decomp := ot_dec (ty i).
  Definition man (i : loc) : manip := ot_man (ty i).
  Definition ops (i : loc) : payops W := ot_ops (ty i).

  (** Memory access. *)
  Definition get_region (i : loc) : M region :=
    fun s => match mem s i with
             | Some r => (Ok r, s)
             | None => (Dead NoStorage, s)
             end.
  Definition set_region (i : loc) (r : option region) : M unit :=
    fun s => (Ok tt, MkState (upd (mem s) i r) (world s) (trace s)).
  Definition log (e : event) : M unit :=
    fun s => (Ok tt, MkState (mem s) (world s) (e :: trace s)).

  (** Run user code that only touches the world. *)
  Definition call {A} (f : W -> A * W) : M A :=
    fun s => let (a, w') := f (world s) in (Ok a, MkState (mem s) w' (trace s)).
  Definition lift_res {A} (r : res A) : M A :=
    match r with ROk a => ret a | RThrow e => throw e end.

  (** Reserve the storage of an optional: [mStorage] comes into existence without
      payload (the union members of optional.h:519-522, 537-540 are not
      constructed); the separate bool flag exists with an indeterminate value
      (optional.h:524, comment 689-691). *)
  Definition alloc (i : loc) : M unit :=
    fun s => match mem s i with
             | Some _ => (Dead NoStorage, s)
             | None => set_region i (Some (MkRegion (indets (d_ssize (dec i)))
                                                   (d_sep (dec i)) false)) s
             end.

  (** The storage disappears.  The destructors of [SeparateFlagStorage] and
      [InplaceStorage] do nothing (optional.h:527, 543), so objects still alive in
      it are abandoned. *)
  Definition dealloc (i : loc) : M unit :=
    bind (get_region i) (fun r =>
    bind (if pay_obj r then log (EvPayAbandoned i) else ret tt) (fun _ =>
    bind (if flag_obj r && negb (d_sep (dec i)) then log (EvFlagAbandoned i) else ret tt)
         (fun _ => set_region i None))).

  (** Read the payload object of a region; undefined if there is none. *)
  Definition load_payload (i : loc) : M rep :=
    bind (get_region i) (fun r =>
      if pay_obj r then ret (sub 0 (d_psize (dec i)) (cells r)) else dead NoObject).

  (** Modify the payload object of a region (assignment, move from, user code
      writing through a reference). *)
  Definition store_payload (i : loc) (v : rep) : M unit :=
    bind (get_region i) (fun r =>
      if pay_obj r
      then if Nat.eqb (length v) (d_psize (dec i))
           then set_region i (Some (MkRegion (put 0 v (cells r)) (flag_obj r) true))
           else dead IllTyped
      else dead NoObject).

  (** Read and modify the objects that further arguments refer to. *)
  Fixpoint load_more (l : list (loc * bool)) : M (list rep) :=
    match l with
    | [] => ret []
    | (j, _) :: l' =>
        bind (load_payload j) (fun v => bind (load_more l') (fun vs => ret (v :: vs)))
    end.
  Fixpoint store_more (l : list (loc * bool)) (vs : list rep) : M unit :=
    match l, vs with
    | (j, c) :: l', v :: vs' =>
        bind (if c then ret tt else store_payload j v) (fun _ => store_more l' vs')
    | _, _ => ret tt
    end.

  (** Evaluate an initializer to the value of the constructed object. *)
  Definition run_ini (n : ini W) : M rep :=
    bind (match i_src n with None => ret [] | Some j => load_payload j end) (fun src =>
    bind (load_more (i_more n)) (fun more =>
    bind (call (i_fun n (joined src more))) (fun p =>
    bind (match i_src n with
          | None => ret tt
          | Some j => if i_const n then ret tt
                      else store_payload j (fst (parted src more (snd p)))
          end) (fun _ =>
    bind (store_more (i_more n) (snd (parted src more (snd p)))) (fun _ =>
    lift_res (fst p)))))).
End Machine.

Arguments M W A : clear implicits.

Notation "x <- m ;; k" := (bind m (fun x => k))
  (at level 61, m at next level, right associativity).
Notation "m ;; k" := (bind m (fun _ => k))
  (at level 61, right associativity).
