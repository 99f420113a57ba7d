(** * Optional: the library code, function by function

    Every definition mirrors one function of /repo/include/tiny/optional.h and is
    generic in the decomposition and the flag manipulator, as the C++ templates
    are.  The location [i] plays the role of [*this]. *)

From Coq Require Import List NArith ZArith Bool Arith.
From Verif Require Import Cells Machine.
Import ListNotations.

(** The relational operators (optional.h:2437-2696). *)
Inductive relop : Type := REq | RNe | RLt | RLe | RGt | RGe.

(** Results of [<=>] (std::partial_ordering; strong and weak orderings embed). *)
Inductive ordering : Type := OLess | OEquiv | OGreater | OUnordered.

(** Comparison operators of the payload types, arbitrary user code. *)
Record cmpops (W : Type) : Type := MkCmp {
  c_rel : relop -> rep -> rep -> W -> res bool * W;
  c_three : rep -> rep -> W -> res ordering * W
}.
Arguments c_rel {W} _ _ _ _ _.
Arguments c_three {W} _ _ _ _.

(** Operands of comparisons: a tiny optional, a std::optional, std::nullopt, or
    some other value. *)
Inductive operand : Type :=
| OpTiny (i : loc)
| OpStd (o : option rep)
| OpNull
| OpVal (v : rep).

(** How the compiler resolves an expression [L Op R] with a relational operator:
    to a function [operator Op], or to a rewritten expression in terms of [==] (for
    [!=] and, with exchanged operands, [==]) or [<=>] (for the others), with the
    operands exchanged ([rev]) or not ([over.match.oper] since C++20). *)
Inductive route : Type := RtDirect | RtRewritten (rev : bool).

(** The [f] of and_then/or_else: it returns an optional, given here by its
    contents.  Simplification: the returned optional is constructed by its default
    constructor or, from a complete value, by its in_place constructor. *)
Definition fn_opt (W : Type) : Type := rep -> W -> (res (option rep) * rep) * W.

(** User code using a reference to a payload; returns an observation. *)
Definition fn_use (W : Type) : Type := rep -> W -> (res rep * rep) * W.

Section Optional.
  Context {W : Type}.
  Variable E : env W.

  (** ** Flag manipulation and storage *)

  (** [FlagManipulator::is_empty(GetIsEmptyFlag())] (optional.h:993-1005).  The
      flag can be read if the flag object is alive or, for in-place flags, if the
      payload is (then the flag is the payload or a member of it). *)
  Definition fm_is_empty (i : loc) : M W bool :=
    r <- get_region i ;;
    if flag_obj r || (pay_obj r && negb (d_sep (dec E i)))
    then match m_is_empty (man E i) (sub (d_foff (dec E i)) (d_fsize (dec E i)) (cells r)) with
         | Some b => ret b
         | None => dead IndetRead
         end
    else dead NoObject.

  (** [FlagManipulator::init_empty_flag(GetIsEmptyFlag())] (optional.h:957, 965,
      973, 1034, 1140).  In place, neither flag nor payload may be alive: the
      manipulators create the flag object by placement new (optional.h:725-744,
      835-842; README 399-472). *)
  Definition fm_init (i : loc) : M W unit :=
    r <- get_region i ;;
    if negb (d_sep (dec E i)) && (flag_obj r || pay_obj r) then dead LifetimeError
    else
      set_region i (Some (MkRegion
        (put (d_foff (dec E i))
             (m_init (man E i) (sub (d_foff (dec E i)) (d_fsize (dec E i)) (cells r)))
             (cells r))
        true (pay_obj r))) ;;
      (if d_sep (dec E i) then ret tt else log (EvFlagBegin i)).

  (** [FlagManipulator::invalidate_empty_flag(GetIsEmptyFlag())] (optional.h:1054,
      1087).  In place, the flag object must be alive, must say "empty" (documented
      precondition, optional.h:660-661) and ceases to exist (optional.h:746-758,
      844-849); the separate bool continues to exist (optional.h:696-700). *)
  Definition fm_invalidate (i : loc) : M W unit :=
    r <- get_region i ;;
    if flag_obj r
    then
      if d_sep (dec E i) ||
         match m_is_empty (man E i) (sub (d_foff (dec E i)) (d_fsize (dec E i)) (cells r)) with
         | Some true => true
         | _ => false
         end
      then
        set_region i (Some (MkRegion
          (put (d_foff (dec E i))
               (m_inval (man E i) (sub (d_foff (dec E i)) (d_fsize (dec E i)) (cells r)))
               (cells r))
          (d_sep (dec E i)) (pay_obj r))) ;;
        (if d_sep (dec E i) then ret tt else log (EvFlagEnd i))
      else dead Precondition
    else dead NoObject.

  (** [::new (addressof(GetPayload())) PayloadType(args...)] (optional.h:1060-1069,
      1095-1103).  The arguments are evaluated by [run_ini]; on success the payload
      begins its lifetime.  Overwriting a live payload or a live in-place flag is
      an error of the program. *)
  Definition placement_new (i : loc) (n : ini W) : M W unit :=
    v <- run_ini E n ;;
    r <- get_region i ;;
    if pay_obj r || (flag_obj r && negb (d_sep (dec E i))) then dead LifetimeError
    else if Nat.eqb (length v) (d_psize (dec E i))
    then set_region i (Some (MkRegion (put 0 v (cells r)) (flag_obj r) true)) ;;
         log (EvPayBegin i)
    else dead IllTyped.

  (** StorageBase::has_value (optional.h:993-996). *)
  Definition has_value (i : loc) : M W bool :=
    b <- fm_is_empty i ;; ret (negb b).

  (** StorageBase::DestroyPayload (optional.h:1018-1021).  After the destructor
      the payload's bytes are indeterminate. *)
  Definition destroy_payload (i : loc) : M W unit :=
    r <- get_region i ;;
    if pay_obj r
    then
      call (fun w => (tt, po_dtor (ops E i) (sub 0 (d_psize (dec E i)) (cells r)) w)) ;;
      set_region i (Some (MkRegion (put 0 (indets (d_psize (dec E i))) (cells r))
                                   (flag_obj r) false)) ;;
      log (EvPayEnd i)
    else dead NoObject.

  (** [not] of a condition, for assertions. *)
  Definition not_ (m : M W bool) : M W bool := b <- m ;; ret (negb b).

  (** [assert(this->has_value() == rhs.has_value())] (optional.h:1192, 1247, 1305,
      1362). *)
  Definition same_has (i j : loc) : M W bool :=
    a <- has_value i ;; b <- has_value j ;; ret (Bool.eqb a b).

  (** StorageBase() noexcept (optional.h:955-959), on already reserved storage. *)
  Definition storage_default (i : loc) : M W unit :=
    noexcept_if true (fm_init i ;; assert_ E (not_ (has_value i))).

  (** ~StorageBase() (optional.h:978-983) followed by the end of the storage. *)
  Definition storage_dtor (i : loc) : M W unit :=
    noexcept_if true
      (b <- has_value i ;;
       (if b then destroy_payload i else ret tt) ;;
       dealloc E i).

  (** StorageBase::ConstructPayload (optional.h:1043-1080).  [on_throw ... fm_init]
      is the [InitializeIsEmptyFlagScope] guard (optional.h:1024-1040). *)
  Definition construct_payload (i : loc) (n : ini W) : M W unit :=
    noexcept_if (i_nothrow n)
      (assert_ E (not_ (has_value i)) ;;
       fm_invalidate i ;;
       (if i_nothrow n
        then placement_new i n
        else on_throw (placement_new i n) (fm_init i)) ;;
       assert_ E (has_value i)).

  (** StorageBase::ConstructPayloadFromFunction (optional.h:1083-1114).  [n]
      evaluates the callable; [i_nothrow n] is
      [is_nothrow_constructible_v<PayloadType, invoke_result_t<FuncT, ArgT>>], which
      says nothing about the callable itself. *)
  Definition construct_payload_from_function (i : loc) (n : ini W) : M W unit :=
    noexcept_if (i_nothrow n)
      (assert_ E (not_ (has_value i)) ;;
       fm_invalidate i ;;
       (if i_nothrow n
        then placement_new i n
        else on_throw (placement_new i n) (fm_init i)) ;;
       assert_ E (has_value i)).

  (** [GetPayload() = std::forward<T>(v)] (optional.h:1121).  If [v] is the payload
      itself the self assignment behaviour applies. *)
  Definition assign_payload (i : loc) (a : arg W) : M W unit :=
    match i_src (a_ini a) with
    | None =>
        d <- load_payload E i ;;
        p <- call (a_assign a d []) ;;
        store_payload E i (fst (snd p)) ;;
        lift_res (fst p)
    | Some j =>
        if Nat.eqb i j
        then
          d <- load_payload E i ;;
          p <- call (a_self a d) ;;
          store_payload E i (snd p) ;;
          lift_res (fst p)
        else
          d <- load_payload E i ;;
          v <- load_payload E j ;;
          p <- call (a_assign a d v) ;;
          store_payload E i (fst (snd p)) ;;
          (if i_const (a_ini a) then ret tt else store_payload E j (snd (snd p))) ;;
          lift_res (fst p)
    end.

  (** StorageBase::AssignValue (optional.h:1116-1133). *)
  Definition assign_value (i : loc) (a : arg W) : M W unit :=
    b <- has_value i ;;
    (if b then assign_payload i a else construct_payload i (a_ini a)) ;;
    assert_ E (has_value i).

  (** StorageBase::reset (optional.h:1136-1143). *)
  Definition reset (i : loc) : M W unit :=
    noexcept_if true
      (b <- has_value i ;;
       if b
       then destroy_payload i ;; fm_init i ;; assert_ E (not_ (has_value i))
       else ret tt).

  (** ** Arguments built by the library itself *)

  (** [rhs.GetPayload()] as [PayloadType const &] (optional.h:1242). *)
  Definition copy_ini (j : loc) : ini W :=
    MkIni (Some j) true
          (fun v w => let (r, w') := po_copy (ops E j) v w in ((r, v), w'))
          (po_nt_copy (ops E j)).

  (** [std::move(rhs.GetPayload())] (optional.h:1185, 1669, 1673). *)
  Definition move_ini (j : loc) : ini W :=
    MkIni (Some j) false (po_move (ops E j)) (po_nt_move (ops E j)).

  (** The same as right hand side of an assignment (optional.h:1356, 1297). *)
  Definition copy_arg (j : loc) : arg W :=
    MkArg (copy_ini j)
          (fun d v w => let '((r, d'), w') := po_cassign (ops E j) d v w in
                        ((r, (d', v)), w'))
          (po_self_cassign (ops E j)).
  Definition move_arg (j : loc) : arg W :=
    MkArg (move_ini j) (po_massign (ops E j)) (po_self_massign (ops E j)).

  (** Both operands must have the same optional type: the special members take
      their own class, and there is no conversion (optional.h:1499-1514). *)
  Definition same_type {A} (i j : loc) (m : M W A) : M W A :=
    if Nat.eqb (e_tid E i) (e_tid E j) then m else dead IllTyped.

  (** ** Construction and destruction *)

  (** TinyOptionalImpl() (optional.h:1441) and TinyOptionalImpl(nullopt_t)
      (optional.h:1449-1452). *)
  Definition ctor_default (i : loc) : M W unit := alloc E i ;; storage_default i.
  Definition ctor_nullopt (i : loc) : M W unit := noexcept_if true (ctor_default i).

  (** StorageBase(in_place_t, args...) (optional.h:961-967), reached from the
      in_place constructors (optional.h:1455-1470), the converting constructors
      (optional.h:1478-1496) and make_optional (optional.h:2279-2309).  If it
      throws, the destructor of StorageBase does not run, but the storage ends. *)
  Definition ctor_in_place (i : loc) (n : ini W) : M W unit :=
    alloc E i ;;
    on_throw (fm_init i ;; construct_payload i n) (dealloc E i).

  (** StorageBase(DirectInitializationFromFunctionTag, ...) (optional.h:969-975),
      reached from optional.h:1473-1476. *)
  Definition ctor_from_function (i : loc) (n : ini W) : M W unit :=
    alloc E i ;;
    on_throw (fm_init i ;; construct_payload_from_function i n) (dealloc E i).

  (** MoveConstructionBase(MoveConstructionBase &&) (optional.h:1179-1194).  If the
      body throws, the already constructed base StorageBase is destroyed. *)
  Definition ctor_move (i j : loc) : M W unit :=
    same_type i j
    (alloc E i ;;
     noexcept_if (po_nt_move (ops E i))
       (storage_default i ;;
        on_throw
          (b <- has_value j ;;
           (if b then construct_payload i (move_ini j)
            else assert_ E (not_ (has_value i))) ;;
           assert_ E (same_has i j))
          (storage_dtor i))).

  (** CopyConstructionBase(CopyConstructionBase const &) (optional.h:1236-1248). *)
  Definition ctor_copy (i j : loc) : M W unit :=
    same_type i j
    (alloc E i ;;
     (storage_default i ;;
      on_throw
        (b <- has_value j ;;
         (if b then construct_payload i (copy_ini j)
          else assert_ E (not_ (has_value i))) ;;
         assert_ E (same_has i j))
        (storage_dtor i))).

  (** ~TinyOptionalImpl() = default (optional.h:1446). *)
  Definition dtor (i : loc) : M W unit := storage_dtor i.

  (** ** Assignment *)

  (** MoveAssignmentBase::operator=(MoveAssignmentBase &&) (optional.h:1293-1308). *)
  Definition assign_move (i j : loc) : M W unit :=
    same_type i j
    (noexcept_if (po_nt_massign (ops E i) && po_nt_move (ops E i))
       (b <- has_value j ;;
        (if b then assign_value i (move_arg j) else reset i) ;;
        assert_ E (same_has i j))).

  (** CopyAssignmentBase::operator=(CopyAssignmentBase const &)
      (optional.h:1353-1364). *)
  Definition assign_copy (i j : loc) : M W unit :=
    same_type i j
    (b <- has_value j ;;
     (if b then assign_value i (copy_arg j) else reset i) ;;
     assert_ E (same_has i j)).

  (** operator=(nullopt_t) noexcept (optional.h:1517-1521, 2230-2234). *)
  Definition assign_nullopt (i : loc) : M W unit := noexcept_if true (reset i).

  (** operator=(U &&) (optional.h:1524-1529, 2237-2247). *)
  Definition assign (i : loc) (a : arg W) : M W unit := assign_value i a.

  (** emplace (optional.h:1532-1552); the returned reference is that of
      [access]. *)
  Definition emplace (i : loc) (n : ini W) : M W unit :=
    reset i ;; construct_payload i n ;; assert_ E (has_value i).

  (** ** Observers *)

  (** explicit operator bool (optional.h:1555-1558). *)
  Definition op_bool (i : loc) : M W bool := has_value i.

  (** operator-> and operator* (optional.h:1561-1596): assertion, then a reference
      to the payload.  The result is "the reference is valid"; using it is
      [load_payload] / [store_payload]. *)
  Definition op_arrow (i : loc) : M W unit := assert_ E (has_value i).
  Definition op_deref (i : loc) : M W unit := assert_ E (has_value i).

  (** value() (optional.h:1599-1629). *)
  Definition value (i : loc) : M W unit :=
    b <- has_value i ;;
    if negb b then throw BadOptionalAccess else ret tt.

  (** User code using the reference obtained; [c]: the reference is to const. *)
  Definition use_payload (i : loc) (c : bool) (f : fn_use W) : M W rep :=
    v <- load_payload E i ;;
    p <- call (f v) ;;
    (if c then ret tt else store_payload E i (snd p)) ;;
    lift_res (fst p).

  (** value_or const & (optional.h:1632-1641) and && (optional.h:1643-1653).  The
      result is the returned prvalue. *)
  Definition value_or_copy (i : loc) (d : ini W) : M W rep :=
    b <- has_value i ;;
    if b then run_ini E (copy_ini i) else run_ini E d.
  Definition value_or_move (i : loc) (d : ini W) : M W rep :=
    b <- has_value i ;;
    if b then run_ini E (move_ini i) else run_ini E d.

  (** ** swap (optional.h:1656-1678; free swap 1842-1855) *)

  (** [using std::swap; swap(GetPayload(), other.GetPayload())]
      (optional.h:1664-1665). *)
  Definition swap_payloads (i j : loc) : M W unit :=
    if Nat.eqb i j
    then
      v <- load_payload E i ;;
      p <- call (po_self_swap (ops E i) v) ;;
      store_payload E i (snd p) ;;
      lift_res (fst p)
    else
      a <- load_payload E i ;;
      b <- load_payload E j ;;
      p <- call (po_swap (ops E i) a b) ;;
      store_payload E i (fst (snd p)) ;;
      store_payload E j (snd (snd p)) ;;
      lift_res (fst p).

  Definition swap (i j : loc) : M W unit :=
    same_type i j
    (noexcept_if (po_nt_move (ops E i) && po_nt_swap (ops E i))
       (a <- has_value i ;;
        b <- has_value j ;;
        if Bool.eqb a b
        then (if a then swap_payloads i j else ret tt)
        else if a
        then construct_payload j (move_ini i) ;; reset i
        else construct_payload i (move_ini j) ;; reset j)).

  (** The generic [std::swap<T>(T & a, T & b)] of <utility> for [T] a tiny optional:
      [T tmp(std::move(a)); a = std::move(b); b = std::move(tmp);], noexcept iff [T] is
      nothrow move constructible and nothrow move assignable.  Not code of the library,
      but this is what [using std::swap; swap(o1, o2)] calls for [tiny::optional]
      ([SwapCall.v]).  [k] names the local variable [tmp]. *)
  Definition std_swap (i j k : loc) : M W unit :=
    same_type i j
    (noexcept_if (po_nt_move (ops E i) && (po_nt_massign (ops E i) && po_nt_move (ops E i)))
       (ctor_move k i ;;
        on_throw (assign_move i j ;; assign_move j k) (dtor k) ;;
        dtor k)).

  (** ** Monadic operations *)

  (** Construction of the optional that a callable returns, at [k]. *)
  Definition const_ini (v : rep) : ini W :=
    MkIni None true (fun _ w => ((ROk v, []), w)) true.
  Definition build_result (k : loc) (o : option rep) : M W unit :=
    match o with
    | None => ctor_default k
    | Some v => ctor_in_place k (const_ini v)
    end.

  (** and_then (optional.h:1680-1731); [c]: called on a const optional.  The
      result optional is [k]. *)
  Definition and_then (k i : loc) (c : bool) (f : fn_opt W) : M W unit :=
    b <- has_value i ;;
    if b
    then
      op_deref i ;;
      v <- load_payload E i ;;
      p <- call (f v) ;;
      (if c then ret tt else store_payload E i (snd p)) ;;
      o <- lift_res (fst p) ;;
      build_result k o
    else ctor_default k.

  (** transform (optional.h:1733-1814); [f] is the callable, [nt] is
      [is_nothrow_constructible_v<U, invoke_result_t<F, ...>>]. *)
  Definition transform (k i : loc) (c : bool) (f : fn_use W) (nt : bool) : M W unit :=
    b <- has_value i ;;
    if b
    then op_deref i ;; ctor_from_function k (MkIni (Some i) c f nt)
    else ctor_default k.

  (** or_else const & and && (optional.h:1817-1837, 2250-2270). *)
  Definition or_else (k i : loc) (mv : bool) (f : W -> res (option rep) * W) : M W unit :=
    same_type k i
    (b <- has_value i ;;
     if b
     then (if mv then ctor_move k i else ctor_copy k i)
     else r <- call f ;; o <- lift_res r ;; build_result k o).

  (** ** Comparisons *)

  (** [has_value()] and [operator*] of an optional operand; std::optional's are
      those of the standard library (modelled as a plain option). *)
  Definition od_has (o : operand) : M W bool :=
    match o with
    | OpTiny i => has_value i
    | OpStd x => ret (match x with Some _ => true | None => false end)
    | _ => dead IllTyped
    end.
  Definition od_get (o : operand) : M W rep :=
    match o with
    | OpTiny i => op_deref i ;; load_payload E i
    | OpStd (Some v) => ret v
    | OpStd None => dead NoObject
    | _ => dead IllTyped
    end.

  Definition rel_call (c : cmpops W) (r : relop) (a b : rep) : M W bool :=
    x <- call (c_rel c r a b) ;; lift_res x.
  Definition three_call (c : cmpops W) (a b : rep) : M W ordering :=
    x <- call (c_three c a b) ;; lift_res x.

  (** [*lhs Op *rhs]. *)
  Definition deref_cmp (c : cmpops W) (r : relop) (L R : operand) : M W bool :=
    a <- od_get L ;; b <- od_get R ;; rel_call c r a b.

  (** Operators between two optionals (optional.h:2437-2441, 2482-2486, 2527-2530,
      2571-2574, 2615-2618, 2659-2662), the same code for tiny/tiny, tiny/std and
      std/tiny (optional.h:2398-2430). *)
  Definition cmp_opt_opt (c : cmpops W) (r : relop) (L R : operand) : M W bool :=
    match r with
    | REq =>
        l <- od_has L ;; h <- od_has R ;;
        if Bool.eqb l h then (if negb l then ret true else deref_cmp c REq L R) else ret false
    | RNe =>
        l <- od_has L ;; h <- od_has R ;;
        if xorb l h then ret true else (if l then deref_cmp c RNe L R else ret false)
    | RLt =>
        h <- od_has R ;;
        if h then (l <- od_has L ;; if negb l then ret true else deref_cmp c RLt L R)
        else ret false
    | RLe =>
        l <- od_has L ;;
        if negb l then ret true
        else (h <- od_has R ;; if h then deref_cmp c RLe L R else ret false)
    | RGt =>
        l <- od_has L ;;
        if l then (h <- od_has R ;; if negb h then ret true else deref_cmp c RGt L R)
        else ret false
    | RGe =>
        h <- od_has R ;;
        if negb h then ret true
        else (l <- od_has L ;; if l then deref_cmp c RGe L R else ret false)
    end.

  (** [opt Op nullopt] (optional.h:2446-2450, 2492-2496, 2536-2540, 2580-2584,
      2624-2628, 2668-2672) and [nullopt Op opt] (optional.h:2453-2457, 2498-2502,
      2542-2546, 2586-2590, 2630-2634, 2674-2678). *)
  Definition cmp_opt_null (r : relop) (i : loc) : M W bool :=
    match r with
    | REq => not_ (has_value i)
    | RNe => has_value i
    | RLt => ret false
    | RLe => not_ (has_value i)
    | RGt => has_value i
    | RGe => ret true
    end.
  Definition cmp_null_opt (r : relop) (i : loc) : M W bool :=
    match r with
    | REq => not_ (has_value i)
    | RNe => has_value i
    | RLt => has_value i
    | RLe => ret true
    | RGt => ret false
    | RGe => not_ (has_value i)
    end.

  (** [opt Op value] (optional.h:2460-2466, 2505-2511, 2549-2555, 2593-2599,
      2637-2643, 2681-2687) and [value Op opt] (optional.h:2468-2474, 2513-2519,
      2557-2563, 2601-2607, 2645-2651, 2689-2695). *)
  Definition cmp_opt_val (c : cmpops W) (r : relop) (i : loc) (v : rep) : M W bool :=
    h <- has_value i ;;
    if h then (a <- od_get (OpTiny i) ;; rel_call c r a v)
    else ret (match r with REq => false | RNe => true | RLt => true
                         | RLe => true | RGt => false | RGe => false end).
  Definition cmp_val_opt (c : cmpops W) (r : relop) (v : rep) (i : loc) : M W bool :=
    h <- has_value i ;;
    if h then (a <- od_get (OpTiny i) ;; rel_call c r v a)
    else ret (match r with REq => false | RNe => true | RLt => false
                         | RLe => false | RGt => true | RGe => true end).

  (** [bool <=> bool]. *)
  Definition bool_three (a b : bool) : ordering :=
    match a, b with
    | false, true => OLess
    | true, false => OGreater
    | _, _ => OEquiv
    end.

  (** The rewritten expression [0 <=> x]. *)
  Definition flip (o : ordering) : ordering :=
    match o with OLess => OGreater | OGreater => OLess | x => x end.

  (** [x Op 0] for an ordering [x]. *)
  Definition ord_test (r : relop) (o : ordering) : bool :=
    match r, o with
    | REq, OEquiv => true
    | RNe, OEquiv => false
    | RNe, _ => true
    | RLt, OLess => true
    | RLe, OLess => true
    | RLe, OEquiv => true
    | RGt, OGreater => true
    | RGe, OGreater => true
    | RGe, OEquiv => true
    | _, _ => false
    end.

  (** [opt <=> opt] (optional.h:2705-2747). *)
  Definition three_opt_opt (c : cmpops W) (L R : operand) : M W ordering :=
    l <- od_has L ;;
    h <- (if l then od_has R else ret false) ;;
    if h
    then a <- od_get L ;; b <- od_get R ;; three_call c a b
    else l' <- od_has L ;; h' <- od_has R ;; ret (bool_three l' h').
  (** [opt <=> nullopt] (optional.h:2750-2754). *)
  Definition three_opt_null (i : loc) : M W ordering :=
    h <- has_value i ;; ret (bool_three h false).
  (** [opt <=> value] (optional.h:2756-2763). *)
  Definition three_opt_val (c : cmpops W) (i : loc) (v : rep) : M W ordering :=
    h <- has_value i ;;
    if h then (a <- od_get (OpTiny i) ;; three_call c a v) else ret OLess.

  (** The operator functions for [L Op R] that the header declares, by the kinds of
      the operands (optional.h:2398-2696). *)
  Definition declared (c : cmpops W) (r : relop) (L R : operand) : M W bool :=
    match L, R with
    | OpTiny _, OpTiny _ | OpTiny _, OpStd _ | OpStd _, OpTiny _ => cmp_opt_opt c r L R
    | OpTiny i, OpNull => cmp_opt_null r i
    | OpNull, OpTiny i => cmp_null_opt r i
    | OpTiny i, OpVal v => cmp_opt_val c r i v
    | OpVal v, OpTiny i => cmp_val_opt c r v i
    | _, _ => dead IllTyped
    end.
  (** The functions [operator<=>] that the header declares (optional.h:2705-2763). *)
  Definition declared3 (c : cmpops W) (L R : operand) : M W ordering :=
    match L, R with
    | OpTiny _, OpTiny _ | OpTiny _, OpStd _ | OpStd _, OpTiny _ => three_opt_opt c L R
    | OpTiny i, OpNull => three_opt_null i
    | OpTiny i, OpVal v => three_opt_val c i v
    | _, _ => dead IllTyped
    end.

  (** Evaluation of the expression [L Op R].  The compiler either calls the
      function for [Op] itself, or, since C++20, rewrites the expression in terms of
      [==] or [<=>] ([RtRewritten]), possibly with the operands exchanged.  Which of
      these happens is decided by overload resolution, see [CmpOverload.v]. *)
  Definition compare (rt : route) (c : cmpops W) (r : relop) (L R : operand) : M W bool :=
    match rt with
    | RtDirect => declared c r L R
    | RtRewritten rev =>
        let A := if rev then R else L in
        let B := if rev then L else R in
        match r with
        | REq => declared c REq A B
        | RNe => not_ (declared c REq A B)
        | _ => o <- declared3 c A B ;; ret (ord_test r (if rev then flip o else o))
        end
    end.

  (** Overload selection for [L <=> R]; with the tiny optional on the right the
      compiler rewrites to [0 <=> (R <=> L)], except for std::optional on the left
      under the gcc workaround (optional.h:2737-2747), which is [three_opt_opt]
      directly ([gcc]). *)
  Definition three_way (gcc : bool) (c : cmpops W) (L R : operand) : M W ordering :=
    match L, R with
    | OpTiny _, OpTiny _ | OpTiny _, OpStd _ => three_opt_opt c L R
    | OpStd _, OpTiny _ =>
        if gcc then three_opt_opt c L R
        else o <- three_opt_opt c R L ;; ret (flip o)
    | OpTiny i, OpNull => three_opt_null i
    | OpNull, OpTiny i => o <- three_opt_null i ;; ret (flip o)
    | OpTiny i, OpVal v => three_opt_val c i v
    | OpVal v, OpTiny i => o <- three_opt_val c i v ;; ret (flip o)
    | _, _ => dead IllTyped
    end.

  (** std::hash (optional.h:2786-2789, 2801-2804); [h] is the payload's hash. *)
  Definition hash (h : rep -> W -> res N * W) (i : loc) : M W N :=
    b <- has_value i ;;
    if b then (v <- od_get (OpTiny i) ;; x <- call (h v) ;; lift_res x) else ret 0%N.
End Optional.
