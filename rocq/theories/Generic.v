(** * Generic: the library over any machine

    The functions of [Optional.v] use the machine of [Machine.v] through few primitives:
    reserve and give up storage, read and write a payload, create and destroy it, the
    three functions of the flag manipulator, and calling user code.  Here they are stated
    for arbitrary such primitives on an arbitrary state; with those of [Machine.v] they
    are the functions of [Optional.v], by computation ([step_machine]).  The definitions
    correspond one to one, see there for the lines of optional.h. *)

From Coq Require Import List NArith ZArith Bool Arith Lia.
From Verif Require Import Cells Machine Optional Program Effects Threads.
Import ListNotations.

Record prims (W St : Type) : Type := MkPrims {
  p_call : forall A, (W -> A * W) -> St -> out A * St;     (* user code *)
  p_alloc : loc -> St -> out unit * St;                    (* storage begins *)
  p_dealloc : loc -> St -> out unit * St;                  (* storage ends *)
  p_load : loc -> St -> out rep * St;                      (* value of a payload *)
  p_store : loc -> rep -> St -> out unit * St;             (* modify a payload *)
  p_begin : loc -> rep -> St -> out unit * St;             (* a payload comes into existence *)
  p_end : loc -> St -> out unit * St;                      (* destructor of the payload *)
  p_is_empty : loc -> St -> out bool * St;                 (* the flag manipulator *)
  p_init : loc -> St -> out unit * St;
  p_invalidate : loc -> St -> out unit * St;
  p_var_new : loc -> rep -> St -> out unit * St;           (* the user's variables *)
  p_var_drop : loc -> St -> out unit * St
}.
Arguments p_call {W St} _ _ _ _.
Arguments p_alloc {W St} _ _ _.
Arguments p_dealloc {W St} _ _ _.
Arguments p_load {W St} _ _ _.
Arguments p_store {W St} _ _ _ _.
Arguments p_begin {W St} _ _ _ _.
Arguments p_end {W St} _ _ _.
Arguments p_is_empty {W St} _ _ _.
Arguments p_init {W St} _ _ _.
Arguments p_invalidate {W St} _ _ _.
Arguments p_var_new {W St} _ _ _ _.
Arguments p_var_drop {W St} _ _ _.

Section Generic.
  Context {W St : Type}.
  Variable E : env W.
  Variable P : prims W St.

  Definition G (A : Type) : Type := St -> out A * St.
  Definition ret' {A} (a : A) : G A := fun s => (Ok a, s).
  Definition throw' {A} (e : exn) : G A := fun s => (Throw e, s).
  Definition dead' {A} (f : fault) : G A := fun s => (Dead f, s).
  Definition bind' {A B} (m : G A) (k : A -> G B) : G B :=
    fun s => match m s with
             | (Ok a, s') => k a s'
             | (Throw e, s') => (Throw e, s')
             | (Dead f, s') => (Dead f, s')
             end.
  Local Notation "x <- m ;; k" := (bind' m (fun x => k))
    (at level 61, m at next level, right associativity).
  Local Notation "m ;; k" := (bind' m (fun _ => k))
    (at level 61, right associativity).
  (** optional.h:955, 1044, 1084, 1136, 1179, 1293, 1656. *)
  Definition noexcept_if' {A} (b : bool) (m : G A) : G A :=
    fun s => match m s with
             | (Throw e, s') => if b then (Dead Terminated, s') else (Throw e, s')
             | r => r
             end.
  (** optional.h:1024-1040. *)
  Definition on_throw' {A} (m : G A) (cleanup : G unit) : G A :=
    fun s => match m s with
             | (Throw e, s') =>
                 match cleanup s' with
                 | (Ok _, s'') => (Throw e, s'')
                 | (Throw _, s'') => (Dead Terminated, s'')
                 | (Dead f, s'') => (Dead f, s'')
                 end
             | r => r
             end.
  Definition assert_' (cond : G bool) : G unit :=
    if e_dbg E then b <- cond ;; (if b then ret' tt else dead' AssertFailed) else ret' tt.
  Definition lift_res' {A} (r : res A) : G A :=
    match r with ROk a => ret' a | RThrow e => throw' e end.

  Fixpoint load_more' (l : list (loc * bool)) : G (list rep) :=
    match l with
    | [] => ret' []
    | (j, _) :: l' => v <- p_load P j ;; vs <- load_more' l' ;; ret' (v :: vs)
    end.
  Fixpoint store_more' (l : list (loc * bool)) (vs : list rep) : G unit :=
    match l, vs with
    | (j, c) :: l', v :: vs' => (if c then ret' tt else p_store P j v) ;; store_more' l' vs'
    | _, _ => ret' tt
    end.
  Definition run_ini' (n : ini W) : G rep :=
    src <- (match i_src n with None => ret' [] | Some j => p_load P j end) ;;
    more <- load_more' (i_more n) ;;
    p <- p_call P _ (i_fun n (joined src more)) ;;
    (match i_src n with
     | None => ret' tt
     | Some j => if i_const n then ret' tt else p_store P j (fst (parted src more (snd p)))
     end) ;;
    store_more' (i_more n) (snd (parted src more (snd p))) ;;
    lift_res' (fst p).
  (** optional.h:1060-1069, 1095-1103. *)
  Definition placement_new' (i : loc) (n : ini W) : G unit :=
    v <- run_ini' n ;; p_begin P i v.

  (** optional.h:993-996. *)
  Definition has_value' (i : loc) : G bool :=
    b <- p_is_empty P i ;; ret' (negb b).
  Definition not_' (m : G bool) : G bool := b <- m ;; ret' (negb b).
  (** optional.h:1192, 1247, 1305, 1362. *)
  Definition same_has' (i j : loc) : G bool :=
    a <- has_value' i ;; b <- has_value' j ;; ret' (Bool.eqb a b).
  (** optional.h:955-959. *)
  Definition storage_default' (i : loc) : G unit :=
    noexcept_if' true (p_init P i ;; assert_' (not_' (has_value' i))).
  (** optional.h:978-983. *)
  Definition storage_dtor' (i : loc) : G unit :=
    noexcept_if' true
      (b <- has_value' i ;;
       (if b then p_end P i else ret' tt) ;;
       p_dealloc P i).
  (** optional.h:1043-1080, 1024-1040. *)
  Definition construct_payload' (i : loc) (n : ini W) : G unit :=
    noexcept_if' (i_nothrow n)
      (assert_' (not_' (has_value' i)) ;;
       p_invalidate P i ;;
       (if i_nothrow n
        then placement_new' i n
        else on_throw' (placement_new' i n) (p_init P i)) ;;
       assert_' (has_value' i)).
  (** optional.h:1083-1114. *)
  Definition construct_payload_from_function' (i : loc) (n : ini W) : G unit :=
    noexcept_if' (i_nothrow n)
      (assert_' (not_' (has_value' i)) ;;
       p_invalidate P i ;;
       (if i_nothrow n
        then placement_new' i n
        else on_throw' (placement_new' i n) (p_init P i)) ;;
       assert_' (has_value' i)).
  (** optional.h:1121. *)
  Definition assign_payload' (i : loc) (a : arg W) : G unit :=
    match i_src (a_ini a) with
    | None =>
        d <- p_load P i ;;
        p <- p_call P _ (a_assign a d []) ;;
        p_store P i (fst (snd p)) ;;
        lift_res' (fst p)
    | Some j =>
        if Nat.eqb i j
        then
          d <- p_load P i ;;
          p <- p_call P _ (a_self a d) ;;
          p_store P i (snd p) ;;
          lift_res' (fst p)
        else
          d <- p_load P i ;;
          v <- p_load P j ;;
          p <- p_call P _ (a_assign a d v) ;;
          p_store P i (fst (snd p)) ;;
          (if i_const (a_ini a) then ret' tt else p_store P j (snd (snd p))) ;;
          lift_res' (fst p)
    end.
  (** optional.h:1116-1133. *)
  Definition assign_value' (i : loc) (a : arg W) : G unit :=
    b <- has_value' i ;;
    (if b then assign_payload' i a else construct_payload' i (a_ini a)) ;;
    assert_' (has_value' i).
  (** optional.h:1136-1143. *)
  Definition reset' (i : loc) : G unit :=
    noexcept_if' true
      (b <- has_value' i ;;
       if b
       then p_end P i ;; p_init P i ;; assert_' (not_' (has_value' i))
       else ret' tt).
  (** optional.h:1499-1514. *)
  Definition same_type' {A} (i j : loc) (m : G A) : G A :=
    if Nat.eqb (e_tid E i) (e_tid E j) then m else dead' IllTyped.
  (** optional.h:1441, 1449-1452. *)
  Definition ctor_default' (i : loc) : G unit := p_alloc P i ;; storage_default' i.
  (** optional.h:1441, 1449-1452. *)
  Definition ctor_nullopt' (i : loc) : G unit := noexcept_if' true (ctor_default' i).
  (** optional.h:961-967, 1455-1470, 1478-1496, 2279-2309. *)
  Definition ctor_in_place' (i : loc) (n : ini W) : G unit :=
    p_alloc P i ;;
    on_throw' (p_init P i ;; construct_payload' i n) (p_dealloc P i).
  (** optional.h:969-975, 1473-1476. *)
  Definition ctor_from_function' (i : loc) (n : ini W) : G unit :=
    p_alloc P i ;;
    on_throw' (p_init P i ;; construct_payload_from_function' i n) (p_dealloc P i).
  (** optional.h:1179-1194. *)
  Definition ctor_move' (i j : loc) : G unit :=
    same_type' i j
    (p_alloc P i ;;
     noexcept_if' (po_nt_move (ops E i))
       (storage_default' i ;;
        on_throw'
          (b <- has_value' j ;;
           (if b then construct_payload' i (move_ini E j)
            else assert_' (not_' (has_value' i))) ;;
           assert_' (same_has' i j))
          (storage_dtor' i))).
  (** optional.h:1236-1248. *)
  Definition ctor_copy' (i j : loc) : G unit :=
    same_type' i j
    (p_alloc P i ;;
     (storage_default' i ;;
      on_throw'
        (b <- has_value' j ;;
         (if b then construct_payload' i (copy_ini E j)
          else assert_' (not_' (has_value' i))) ;;
         assert_' (same_has' i j))
        (storage_dtor' i))).
  (** optional.h:1446. *)
  Definition dtor' (i : loc) : G unit := storage_dtor' i.
  (** optional.h:1293-1308. *)
  Definition assign_move' (i j : loc) : G unit :=
    same_type' i j
    (noexcept_if' (po_nt_massign (ops E i) && po_nt_move (ops E i))
       (b <- has_value' j ;;
        (if b then assign_value' i (move_arg E j) else reset' i) ;;
        assert_' (same_has' i j))).
  (** optional.h:1353-1364. *)
  Definition assign_copy' (i j : loc) : G unit :=
    same_type' i j
    (b <- has_value' j ;;
     (if b then assign_value' i (copy_arg E j) else reset' i) ;;
     assert_' (same_has' i j)).
  (** optional.h:1517-1521, 2230-2234. *)
  Definition assign_nullopt' (i : loc) : G unit := noexcept_if' true (reset' i).
  (** optional.h:1524-1529, 2237-2247. *)
  Definition assign' (i : loc) (a : arg W) : G unit := assign_value' i a.
  (** optional.h:1532-1552. *)
  Definition emplace' (i : loc) (n : ini W) : G unit :=
    reset' i ;; construct_payload' i n ;; assert_' (has_value' i).
  (** optional.h:1555-1558. *)
  Definition op_bool' (i : loc) : G bool := has_value' i.
  (** optional.h:1561-1596. *)
  Definition op_arrow' (i : loc) : G unit := assert_' (has_value' i).
  (** optional.h:1561-1596. *)
  Definition op_deref' (i : loc) : G unit := assert_' (has_value' i).
  (** optional.h:1599-1629. *)
  Definition value' (i : loc) : G unit :=
    b <- has_value' i ;;
    if negb b then throw' BadOptionalAccess else ret' tt.
  Definition use_payload' (i : loc) (c : bool) (f : fn_use W) : G rep :=
    v <- p_load P i ;;
    p <- p_call P _ (f v) ;;
    (if c then ret' tt else p_store P i (snd p)) ;;
    lift_res' (fst p).
  (** optional.h:1632-1641, 1643-1653. *)
  Definition value_or_copy' (i : loc) (d : ini W) : G rep :=
    b <- has_value' i ;;
    if b then run_ini' (copy_ini E i) else run_ini' d.
  (** optional.h:1632-1641, 1643-1653. *)
  Definition value_or_move' (i : loc) (d : ini W) : G rep :=
    b <- has_value' i ;;
    if b then run_ini' (move_ini E i) else run_ini' d.
  (** optional.h:1664-1665. *)
  Definition swap_payloads' (i j : loc) : G unit :=
    if Nat.eqb i j
    then
      v <- p_load P i ;;
      p <- p_call P _ (po_self_swap (ops E i) v) ;;
      p_store P i (snd p) ;;
      lift_res' (fst p)
    else
      a <- p_load P i ;;
      b <- p_load P j ;;
      p <- p_call P _ (po_swap (ops E i) a b) ;;
      p_store P i (fst (snd p)) ;;
      p_store P j (snd (snd p)) ;;
      lift_res' (fst p).
  (** optional.h:1664-1665. *)
  Definition swap' (i j : loc) : G unit :=
    same_type' i j
    (noexcept_if' (po_nt_move (ops E i) && po_nt_swap (ops E i))
       (a <- has_value' i ;;
        b <- has_value' j ;;
        if Bool.eqb a b
        then (if a then swap_payloads' i j else ret' tt)
        else if a
        then construct_payload' j (move_ini E i) ;; reset' i
        else construct_payload' i (move_ini E j) ;; reset' j)).
  Definition std_swap' (i j k : loc) : G unit :=
    same_type' i j
    (noexcept_if' (po_nt_move (ops E i) && (po_nt_massign (ops E i) && po_nt_move (ops E i)))
       (ctor_move' k i ;;
        on_throw' (assign_move' i j ;; assign_move' j k) (dtor' k) ;;
        dtor' k)).
  Definition build_result' (k : loc) (o : option rep) : G unit :=
    match o with
    | None => ctor_default' k
    | Some v => ctor_in_place' k (const_ini v)
    end.
  (** optional.h:1680-1731. *)
  Definition and_then' (k i : loc) (c : bool) (f : fn_opt W) : G unit :=
    b <- has_value' i ;;
    if b
    then
      op_deref' i ;;
      v <- p_load P i ;;
      p <- p_call P _ (f v) ;;
      (if c then ret' tt else p_store P i (snd p)) ;;
      o <- lift_res' (fst p) ;;
      build_result' k o
    else ctor_default' k.
  (** optional.h:1733-1814. *)
  Definition transform' (k i : loc) (c : bool) (f : fn_use W) (nt : bool) : G unit :=
    b <- has_value' i ;;
    if b
    then op_deref' i ;; ctor_from_function' k (MkIni (Some i) c f nt)
    else ctor_default' k.
  (** optional.h:1817-1837, 2250-2270. *)
  Definition or_else' (k i : loc) (mv : bool) (f : W -> res (option rep) * W) : G unit :=
    same_type' k i
    (b <- has_value' i ;;
     if b
     then (if mv then ctor_move' k i else ctor_copy' k i)
     else r <- p_call P _ f ;; o <- lift_res' r ;; build_result' k o).
  Definition od_has' (o : operand) : G bool :=
    match o with
    | OpTiny i => has_value' i
    | OpStd x => ret' (match x with Some _ => true | None => false end)
    | _ => dead' IllTyped
    end.
  Definition od_get' (o : operand) : G rep :=
    match o with
    | OpTiny i => op_deref' i ;; p_load P i
    | OpStd (Some v) => ret' v
    | OpStd None => dead' NoObject
    | _ => dead' IllTyped
    end.
  Definition rel_call' (c : cmpops W) (r : relop) (a b : rep) : G bool :=
    x <- p_call P _ (c_rel c r a b) ;; lift_res' x.
  Definition three_call' (c : cmpops W) (a b : rep) : G ordering :=
    x <- p_call P _ (c_three c a b) ;; lift_res' x.
  Definition deref_cmp' (c : cmpops W) (r : relop) (L R : operand) : G bool :=
    a <- od_get' L ;; b <- od_get' R ;; rel_call' c r a b.
  (** optional.h:2437-2441, 2482-2486, 2527-2530, 2571-2574, 2615-2618, 2659-2662, 2398-2430. *)
  Definition cmp_opt_opt' (c : cmpops W) (r : relop) (L R : operand) : G bool :=
    match r with
    | REq =>
        l <- od_has' L ;; h <- od_has' R ;;
        if Bool.eqb l h then (if negb l then ret' true else deref_cmp' c REq L R) else ret' false
    | RNe =>
        l <- od_has' L ;; h <- od_has' R ;;
        if xorb l h then ret' true else (if l then deref_cmp' c RNe L R else ret' false)
    | RLt =>
        h <- od_has' R ;;
        if h then (l <- od_has' L ;; if negb l then ret' true else deref_cmp' c RLt L R)
        else ret' false
    | RLe =>
        l <- od_has' L ;;
        if negb l then ret' true
        else (h <- od_has' R ;; if h then deref_cmp' c RLe L R else ret' false)
    | RGt =>
        l <- od_has' L ;;
        if l then (h <- od_has' R ;; if negb h then ret' true else deref_cmp' c RGt L R)
        else ret' false
    | RGe =>
        h <- od_has' R ;;
        if negb h then ret' true
        else (l <- od_has' L ;; if l then deref_cmp' c RGe L R else ret' false)
    end.
  (** optional.h:2446-2450, 2492-2496, 2536-2540, 2580-2584, 2624-2628, 2668-2672, 2453-2457, 2498-2502, 2542-2546, 2586-2590, 2630-2634, 2674-2678. *)
  Definition cmp_opt_null' (r : relop) (i : loc) : G bool :=
    match r with
    | REq => not_' (has_value' i)
    | RNe => has_value' i
    | RLt => ret' false
    | RLe => not_' (has_value' i)
    | RGt => has_value' i
    | RGe => ret' true
    end.
  (** optional.h:2446-2450, 2492-2496, 2536-2540, 2580-2584, 2624-2628, 2668-2672, 2453-2457, 2498-2502, 2542-2546, 2586-2590, 2630-2634, 2674-2678. *)
  Definition cmp_null_opt' (r : relop) (i : loc) : G bool :=
    match r with
    | REq => not_' (has_value' i)
    | RNe => has_value' i
    | RLt => has_value' i
    | RLe => ret' true
    | RGt => ret' false
    | RGe => not_' (has_value' i)
    end.
  (** optional.h:2460-2466, 2505-2511, 2549-2555, 2593-2599, 2637-2643, 2681-2687, 2468-2474, 2513-2519, 2557-2563, 2601-2607, 2645-2651, 2689-2695. *)
  Definition cmp_opt_val' (c : cmpops W) (r : relop) (i : loc) (v : rep) : G bool :=
    h <- has_value' i ;;
    if h then (a <- od_get' (OpTiny i) ;; rel_call' c r a v)
    else ret' (match r with REq => false | RNe => true | RLt => true
                         | RLe => true | RGt => false | RGe => false end).
  (** optional.h:2460-2466, 2505-2511, 2549-2555, 2593-2599, 2637-2643, 2681-2687, 2468-2474, 2513-2519, 2557-2563, 2601-2607, 2645-2651, 2689-2695. *)
  Definition cmp_val_opt' (c : cmpops W) (r : relop) (v : rep) (i : loc) : G bool :=
    h <- has_value' i ;;
    if h then (a <- od_get' (OpTiny i) ;; rel_call' c r v a)
    else ret' (match r with REq => false | RNe => true | RLt => false
                         | RLe => false | RGt => true | RGe => true end).
  (** optional.h:2705-2747. *)
  Definition three_opt_opt' (c : cmpops W) (L R : operand) : G ordering :=
    l <- od_has' L ;;
    h <- (if l then od_has' R else ret' false) ;;
    if h
    then a <- od_get' L ;; b <- od_get' R ;; three_call' c a b
    else l' <- od_has' L ;; h' <- od_has' R ;; ret' (bool_three l' h').
  (** optional.h:2750-2754. *)
  Definition three_opt_null' (i : loc) : G ordering :=
    h <- has_value' i ;; ret' (bool_three h false).
  (** optional.h:2756-2763. *)
  Definition three_opt_val' (c : cmpops W) (i : loc) (v : rep) : G ordering :=
    h <- has_value' i ;;
    if h then (a <- od_get' (OpTiny i) ;; three_call' c a v) else ret' OLess.
  (** optional.h:2398-2696. *)
  Definition declared' (c : cmpops W) (r : relop) (L R : operand) : G bool :=
    match L, R with
    | OpTiny _, OpTiny _ | OpTiny _, OpStd _ | OpStd _, OpTiny _ => cmp_opt_opt' c r L R
    | OpTiny i, OpNull => cmp_opt_null' r i
    | OpNull, OpTiny i => cmp_null_opt' r i
    | OpTiny i, OpVal v => cmp_opt_val' c r i v
    | OpVal v, OpTiny i => cmp_val_opt' c r v i
    | _, _ => dead' IllTyped
    end.
  (** optional.h:2705-2763. *)
  Definition declared3' (c : cmpops W) (L R : operand) : G ordering :=
    match L, R with
    | OpTiny _, OpTiny _ | OpTiny _, OpStd _ | OpStd _, OpTiny _ => three_opt_opt' c L R
    | OpTiny i, OpNull => three_opt_null' i
    | OpTiny i, OpVal v => three_opt_val' c i v
    | _, _ => dead' IllTyped
    end.
  Definition compare' (rt : route) (c : cmpops W) (r : relop) (L R : operand) : G bool :=
    match rt with
    | RtDirect => declared' c r L R
    | RtRewritten rev =>
        let A := if rev then R else L in
        let B := if rev then L else R in
        match r with
        | REq => declared' c REq A B
        | RNe => not_' (declared' c REq A B)
        | _ => o <- declared3' c A B ;; ret' (ord_test r (if rev then flip o else o))
        end
    end.
  (** optional.h:2737-2747. *)
  Definition three_way' (gcc : bool) (c : cmpops W) (L R : operand) : G ordering :=
    match L, R with
    | OpTiny _, OpTiny _ | OpTiny _, OpStd _ => three_opt_opt' c L R
    | OpStd _, OpTiny _ =>
        if gcc then three_opt_opt' c L R
        else o <- three_opt_opt' c R L ;; ret' (flip o)
    | OpTiny i, OpNull => three_opt_null' i
    | OpNull, OpTiny i => o <- three_opt_null' i ;; ret' (flip o)
    | OpTiny i, OpVal v => three_opt_val' c i v
    | OpVal v, OpTiny i => o <- three_opt_val' c i v ;; ret' (flip o)
    | _, _ => dead' IllTyped
    end.
  (** optional.h:2786-2789, 2801-2804. *)
  Definition hash' (h : rep -> W -> res N * W) (i : loc) : G N :=
    b <- has_value' i ;;
    if b then (v <- od_get' (OpTiny i) ;; x <- p_call P _ (h v) ;; lift_res' x) else ret' 0%N.
  Definition acc' (k : accessor) (i : loc) : G unit :=
    match k with
    | AccDeref => op_deref' i
    | AccArrow => op_arrow' i
    | AccValue => value' i
    end.

  Definition unit_' (m : G unit) : G obs := m ;; ret' ObUnit.
  Definition bool_' (m : G bool) : G obs := b <- m ;; ret' (ObBool b).
  Definition val_' (m : G rep) : G obs := v <- m ;; ret' (ObVal v).

  Definition step' (o : op W) : G obs :=
    match o with
    | ODefault i => unit_' (ctor_default' i)
    | ONullopt i => unit_' (ctor_nullopt' i)
    | OInPlace i n => unit_' (ctor_in_place' i n)
    | OCopyCtor i j => unit_' (ctor_copy' i j)
    | OMoveCtor i j => unit_' (ctor_move' i j)
    | ODtor i => unit_' (dtor' i)
    | OAssignNull i => unit_' (assign_nullopt' i)
    | OAssign i a => unit_' (assign' i a)
    | OCopyAssign i j => unit_' (assign_copy' i j)
    | OMoveAssign i j => unit_' (assign_move' i j)
    | OEmplace i n => unit_' (emplace' i n)
    | OReset i => unit_' (reset' i)
    | OSwap i j => unit_' (swap' i j)
    | OStdSwap i j k => unit_' (std_swap' i j k)
    | OHasValue i => bool_' (has_value' i)
    | OBool i => bool_' (op_bool' i)
    | OAccess k i c f => val_' (acc' k i ;; use_payload' i c f)
    | OValueOrCopy i d => val_' (value_or_copy' i d)
    | OValueOrMove i d => val_' (value_or_move' i d)
    | OAndThen k i c f => unit_' (and_then' k i c f)
    | OTransform k i c f nt => unit_' (transform' k i c f nt)
    | OOrElse k i mv f => unit_' (or_else' k i mv f)
    | OCompare m c r L R => bool_' (compare' m c r L R)
    | OThreeWay g c L R => o <- three_way' g c L R ;; ret' (ObOrd o)
    | OHash h i => x <- hash' h i ;; ret' (ObHash x)
    | OVarNew i v => unit_' (p_var_new P i v)
    | OVarDrop i => unit_' (p_var_drop P i)
    end.

  Fixpoint run' (p : list (op W)) (s : St) : (list obs + fault) * St :=
    match p with
    | [] => (inl [], s)
    | o :: p' =>
        match step' o s with
        | (Ok x, s') =>
            let (r, s'') := run' p' s' in
            (match r with inl xs => inl (x :: xs) | inr f => inr f end, s'')
        | (Throw e, s') =>
            let (r, s'') := run' p' s' in
            (match r with inl xs => inl (ObThrow e :: xs) | inr f => inr f end, s'')
        | (Dead f, s') => (inr f, s')
        end
    end.
End Generic.

(** The primitives of [Machine.v]. *)
Definition machine {W} (E : env W) : prims W (state W) := {|
  p_call := fun A => call;
  p_alloc := alloc E;
  p_dealloc := dealloc E;
  p_load := load_payload E;
  p_store := store_payload E;
  p_begin := fun i v =>
    bind (get_region i) (fun r =>
    if pay_obj r || (flag_obj r && negb (d_sep (dec E i))) then dead LifetimeError
    else if Nat.eqb (length v) (d_psize (dec E i))
    then bind (set_region i (Some (MkRegion (put 0 v (cells r)) (flag_obj r) true)))
              (fun _ => log (EvPayBegin i))
    else dead IllTyped);
  p_end := destroy_payload E;
  p_is_empty := fm_is_empty E;
  p_init := fm_init E;
  p_invalidate := fm_invalidate E;
  p_var_new := var_new E;
  p_var_drop := var_drop E
|}.

(** With them this is the model of the other files. *)
Theorem step_machine W (E : env W) o : step' E (machine E) o = step E o.
Proof. destruct o; reflexivity. Qed.
Theorem run_machine W (E : env W) p s : run' E (machine E) p s = run E p s.
Proof.
  revert s. induction p as [|o p IH]; intros s; [reflexivity|].
  cbn [run' run]. rewrite step_machine.
  destruct (step E o s) as [[x|e|f] s']; [| |reflexivity]; rewrite IH; reflexivity.
Qed.

(** ** Simulation

    If the primitives of one machine simulate those of another then so does the library.
    [fl i]: what the primitive [p_init] requires of the first machine; faults that are not
    [vis]ible (undefined behaviour) need not be reproduced. *)

Section Simulation.
  Context {W St1 St2 : Type}.
  Variable E : env W.
  Variable P1 : prims W St1.
  Variable P2 : prims W St2.
  Variable R : St1 -> St2 -> Prop.
  Variable fl : loc -> St1 -> Prop.
  Variable vis : fault -> bool.
  (** The variables that the program names. *)
  Variable L : loc -> Prop.

  Definition SIM {A} (Pre : St1 -> Prop) (m1 : @G St1 A) (m2 : @G St2 A)
      (Q : A -> St1 -> Prop) (X : St1 -> Prop) : Prop :=
    forall s f, R s f -> Pre s ->
      match m1 s with
      | (Ok a, s') => exists f', m2 f = (Ok a, f') /\ R s' f' /\ Q a s'
      | (Throw e, s') => exists f', m2 f = (Throw e, f') /\ R s' f' /\ X s'
      | (Dead d, _) => vis d = true -> exists f', m2 f = (Dead d, f')
      end.
  Definition all1 : St1 -> Prop := fun _ => True.
  Definition flo (o : option loc) (s : St1) : Prop :=
    match o with Some i => fl i s | None => True end.

  Hypothesis H_call : forall o A (f : W -> A * W),
    SIM (flo o) (p_call P1 A f) (p_call P2 A f) (fun _ => flo o) (flo o).
  Hypothesis H_load : forall o i,
    L i -> SIM (flo o) (p_load P1 i) (p_load P2 i) (fun _ => flo o) (flo o).
  Hypothesis H_store : forall o i v,
    L i -> SIM (flo o) (p_store P1 i v) (p_store P2 i v) (fun _ => flo o) (flo o).
  Hypothesis H_alloc : forall i, L i -> SIM all1 (p_alloc P1 i) (p_alloc P2 i) (fun _ => fl i) all1.
  Hypothesis H_dealloc : forall i,
    L i -> SIM all1 (p_dealloc P1 i) (p_dealloc P2 i) (fun _ => all1) all1.
  Hypothesis H_begin : forall i v,
    L i -> SIM (fl i) (p_begin P1 i v) (p_begin P2 i v) (fun _ => all1) (fl i).
  Hypothesis H_end : forall i, L i -> SIM (fl i) (p_end P1 i) (p_end P2 i) (fun _ => fl i) all1.
  Hypothesis H_is_empty : forall i,
    L i -> SIM all1 (p_is_empty P1 i) (p_is_empty P2 i) (fun _ => fl i) all1.
  Hypothesis H_init : forall i, L i -> SIM (fl i) (p_init P1 i) (p_init P2 i) (fun _ => all1) all1.
  Hypothesis H_invalidate : forall i,
    L i -> SIM all1 (p_invalidate P1 i) (p_invalidate P2 i) (fun _ => fl i) all1.
  Hypothesis H_var_new : forall i v,
    L i -> SIM all1 (p_var_new P1 i v) (p_var_new P2 i v) (fun _ => all1) all1.
  Hypothesis H_var_drop : forall i,
    L i -> SIM all1 (p_var_drop P1 i) (p_var_drop P2 i) (fun _ => all1) all1.

  Definition Lmore (l : list (loc * bool)) : Prop := forall j, In j (map fst l) -> L j.
  Definition Lini (n : ini W) : Prop := forall j, In j (ini_uses n) -> L j.
  Definition Lod (o : operand) : Prop := forall i, In i (operand_uses o) -> L i.

  Lemma sim_weak {A} (Pre Pre' : St1 -> Prop) m1 m2 (Q Q' : A -> St1 -> Prop) (X X' : St1 -> Prop) :
    SIM Pre m1 m2 Q X -> (forall s, Pre' s -> Pre s) -> (forall a s, Q a s -> Q' a s) ->
    (forall s, X s -> X' s) -> SIM Pre' m1 m2 Q' X'.
  Proof.
    intros H HP HQ HX s f Hr Hs. specialize (H s f Hr (HP s Hs)).
    destruct (m1 s) as [[a|e|d] s']; [| |exact H].
    - destruct H as (f' & A1 & A2 & A3). exists f'. auto.
    - destruct H as (f' & A1 & A2 & A3). exists f'. auto.
  Qed.
  Lemma sim_none {A} (Pre : St1 -> Prop) m1 m2 (Q : A -> St1 -> Prop) X :
    SIM (flo None) m1 m2 Q X -> SIM Pre m1 m2 (fun _ => all1) all1.
  Proof. intros H. eapply sim_weak; [exact H| | |]; intros; exact I. Qed.
  Lemma sim_ret {A} Pre (a : A) X : SIM Pre (ret' a) (ret' a) (fun _ => Pre) X.
  Proof. intros s f Hr Hs. exists f. auto. Qed.
  Lemma sim_all {A} Pre (a : A) X : SIM Pre (ret' a) (ret' a) (fun _ => all1) X.
  Proof. intros s f Hr Hs. exists f. split; [reflexivity|]. split; [exact Hr|exact I]. Qed.
  Lemma sim_dead {A} Pre d (Q : A -> _) X : SIM Pre (dead' d) (dead' d) Q X.
  Proof. intros s f Hr Hs. cbn. intros _. exists f. reflexivity. Qed.
  Lemma sim_throw {A} Pre e (Q : A -> _) : SIM Pre (throw' e) (throw' e) Q Pre.
  Proof. intros s f Hr Hs. exists f. auto. Qed.
  Lemma sim_lift {A} Pre (r : res A) : SIM Pre (lift_res' r) (lift_res' r) (fun _ => Pre) Pre.
  Proof. destruct r; [apply sim_ret|apply sim_throw]. Qed.
  Lemma sim_bind {A B} Pre (m1 : @G St1 A) m2 (k1 : A -> @G St1 B) k2 T Q X :
    SIM Pre m1 m2 T X -> (forall a, SIM (T a) (k1 a) (k2 a) Q X) ->
    SIM Pre (bind' m1 k1) (bind' m2 k2) Q X.
  Proof.
    intros H1 H2 s f Hr Hs. specialize (H1 s f Hr Hs). unfold bind'.
    destruct (m1 s) as [[a|e|d] s'].
    - destruct H1 as (f' & A1 & A2 & A3). rewrite A1. exact (H2 a s' f' A2 A3).
    - destruct H1 as (f' & A1 & A2 & A3). rewrite A1. exists f'. auto.
    - intros Hv. destruct (H1 Hv) as (f' & A1). rewrite A1. exists f'. reflexivity.
  Qed.
  Lemma sim_seq {A B} Pre (m1 : @G St1 A) m2 (k1 : A -> @G St1 B) k2 :
    SIM Pre m1 m2 (fun _ => all1) all1 -> (forall a, SIM all1 (k1 a) (k2 a) (fun _ => all1) all1) ->
    SIM Pre (bind' m1 k1) (bind' m2 k2) (fun _ => all1) all1.
  Proof. intros H1 H2. eapply sim_bind; [exact H1|exact H2]. Qed.
  Lemma sim_noexcept {A} b Pre (m1 : @G St1 A) m2 Q X :
    SIM Pre m1 m2 Q X -> SIM Pre (noexcept_if' b m1) (noexcept_if' b m2) Q X.
  Proof.
    intros H s f Hr Hs. specialize (H s f Hr Hs). unfold noexcept_if'.
    destruct (m1 s) as [[a|e|d] s'].
    - destruct H as (f' & A1 & A2). rewrite A1. exists f'. auto.
    - destruct H as (f' & A1 & A2). rewrite A1. destruct b; [intros _|]; exists f'; auto.
    - intros Hv. destruct (H Hv) as (f' & A1). rewrite A1. exists f'. reflexivity.
  Qed.
  Lemma sim_on_throw {A} Pre (m1 : @G St1 A) m2 c1 c2 Q X1 X :
    SIM Pre m1 m2 Q X1 -> SIM X1 c1 c2 (fun _ => X) all1 ->
    SIM Pre (on_throw' m1 c1) (on_throw' m2 c2) Q X.
  Proof.
    intros H Hc s f Hr Hs. specialize (H s f Hr Hs). unfold on_throw'.
    destruct (m1 s) as [[a|e|d] s'].
    - destruct H as (f' & A1 & A2). rewrite A1. exists f'. auto.
    - destruct H as (f' & A1 & A2 & A3). rewrite A1. specialize (Hc s' f' A2 A3).
      destruct (c1 s') as [[u|e'|d] s''].
      + destruct Hc as (f'' & B1 & B2 & B3). rewrite B1. exists f''. auto.
      + destruct Hc as (f'' & B1 & B2 & B3). rewrite B1. intros _. exists f''. reflexivity.
      + intros Hv. destruct (Hc Hv) as (f'' & B1). rewrite B1. exists f''. reflexivity.
    - intros Hv. destruct (H Hv) as (f' & A1). rewrite A1. exists f'. reflexivity.
  Qed.
  Lemma sim_any {A} (Pre : St1 -> Prop) (m1 : @G St1 A) m2 Q X :
    SIM all1 m1 m2 Q X -> SIM Pre m1 m2 Q X.
  Proof. intros H. eapply sim_weak; [exact H| | |]; auto. intros; exact I. Qed.

  Lemma Lini_src n j : Lini n -> i_src n = Some j -> L j.
  Proof. intros H Hj. apply H. unfold ini_uses. rewrite Hj. left. reflexivity. Qed.
  Lemma Lini_more n : Lini n -> Lmore (i_more n).
  Proof. intros H j Hj. apply H. unfold ini_uses. apply in_app_iff. right. exact Hj. Qed.
  Lemma Lod_tiny i : Lod (OpTiny i) -> L i.
  Proof. intros H. apply H. left. reflexivity. Qed.
  Lemma Lod_is i : L i -> Lod (OpTiny i).
  Proof. intros H j [<-|[]]. exact H. Qed.
  Lemma Lod_val o : operand_uses o = [] -> Lod o.
  Proof. intros H j Hj. rewrite H in Hj. destruct Hj. Qed.
  Lemma Lini_one i j : L j -> ini_uses i = [j] -> Lini i.
  Proof. intros H He k Hk. rewrite He in Hk. destruct Hk as [<-|[]]. exact H. Qed.
  Lemma Lini_no i : ini_uses i = [] -> Lini i.
  Proof. intros He k Hk. rewrite He in Hk. destruct Hk. Qed.
  Ltac side :=
    match goal with
    | |- L _ => first [assumption|eapply Lini_src; eassumption|apply Lod_tiny; assumption]
    | |- Lmore _ => first [assumption|apply Lini_more; assumption]
    | |- Lini _ => first [assumption|eapply Lini_one; [|reflexivity]; assumption|apply Lini_no; reflexivity]
    | |- Lod _ => first [assumption|apply Lod_is; assumption|apply Lod_val; reflexivity]
    end.

  Local Notation has1 := (has_value' P1).
  Local Notation has2 := (has_value' P2).

  Lemma sim_has Pre i : L i -> SIM Pre (has1 i) (has2 i) (fun _ => fl i) all1.
  Proof. intros. apply sim_any. eapply sim_bind; [(apply H_is_empty; try side)|]. intros b. apply sim_ret. Qed.
  Lemma sim_has' Pre i : L i -> SIM Pre (has1 i) (has2 i) (fun _ => all1) all1.
  Proof. intros. eapply sim_weak; [(apply sim_has; try side)| | |]; auto; intros; exact I. Qed.
  Lemma sim_not Pre m1 m2 :
    SIM Pre m1 m2 (fun _ => all1) all1 -> SIM Pre (not_' m1) (not_' m2) (fun _ => all1) all1.
  Proof. intros H. apply sim_seq; [exact H|]. intros b. apply sim_ret. Qed.
  Lemma sim_same Pre i j : L i -> L j -> SIM Pre (same_has' P1 i j) (same_has' P2 i j) (fun _ => all1) all1.
  Proof.
    intros.
    apply sim_seq; [(apply sim_has'; try side)|]. intros a. apply sim_seq; [(apply sim_has'; try side)|]. intros b.
    apply sim_ret.
  Qed.
  Lemma sim_assert Pre m1 m2 :
    SIM Pre m1 m2 (fun _ => all1) all1 ->
    SIM Pre (assert_' E m1) (assert_' E m2) (fun _ => all1) all1.
  Proof.
    intros H. unfold assert_'. destruct (e_dbg E); [|apply sim_all].
    apply sim_seq; [exact H|]. intros [|]; [apply sim_ret|apply sim_dead].
  Qed.
  Lemma sim_call {A} Pre (f : W -> A * W) :
    SIM Pre (p_call P1 A f) (p_call P2 A f) (fun _ => all1) all1.
  Proof. eapply sim_none. apply (H_call None). Qed.
  Lemma sim_load Pre i : L i -> SIM Pre (p_load P1 i) (p_load P2 i) (fun _ => all1) all1.
  Proof. intros. eapply sim_none. (apply (H_load None); try side). Qed.
  Lemma sim_store Pre i v : L i -> SIM Pre (p_store P1 i v) (p_store P2 i v) (fun _ => all1) all1.
  Proof. intros. eapply sim_none. (apply (H_store None); try side). Qed.

  Lemma sim_load_more o l :
    Lmore l -> SIM (flo o) (load_more' P1 l) (load_more' P2 l) (fun _ => flo o) (flo o).
  Proof.
    induction l as [|[j c] l IH]; intros HL; [apply sim_ret|]. cbn [load_more'].
    eapply sim_bind; [apply H_load, HL; left; reflexivity|]. intros v.
    eapply sim_bind; [apply IH; intros k Hk; apply HL; right; exact Hk|]. intros vs.
    apply sim_ret.
  Qed.
  Lemma sim_store_more o l : forall vs, Lmore l ->
    SIM (flo o) (store_more' P1 l vs) (store_more' P2 l vs) (fun _ => flo o) (flo o).
  Proof.
    induction l as [|[j c] l IH]; intros vs HL; [apply sim_ret|].
    destruct vs as [|v vs]; [apply sim_ret|]. cbn [store_more'].
    eapply sim_bind with (T := fun _ => flo o).
    { destruct c; [apply sim_ret|apply H_store, HL; left; reflexivity]. }
    intros u. apply IH. intros k Hk. apply HL. right. exact Hk.
  Qed.
  Lemma sim_run_ini o n :
    Lini n -> SIM (flo o) (run_ini' P1 n) (run_ini' P2 n) (fun _ => flo o) (flo o).
  Proof.
    intros.
    unfold run_ini'. eapply sim_bind with (T := fun _ => flo o).
    { destruct (i_src n) eqn:Hs; [(apply H_load; try side)|apply sim_ret]. }
    intros src. eapply sim_bind; [(apply sim_load_more; try side)|]. intros more.
    eapply sim_bind; [apply H_call|]. intros p.
    eapply sim_bind with (T := fun _ => flo o).
    { destruct (i_src n) eqn:Hs; [destruct (i_const n)|]; try apply sim_ret. (apply H_store; try side). }
    intros u. eapply sim_bind; [(apply sim_store_more; try side)|]. intros u'. apply sim_lift.
  Qed.
  Lemma sim_ini Pre n : Lini n -> SIM Pre (run_ini' P1 n) (run_ini' P2 n) (fun _ => all1) all1.
  Proof. intros. eapply sim_none. (apply (sim_run_ini None); try side). Qed.
  Lemma sim_placement i n :
    L i -> Lini n -> SIM (fl i) (placement_new' P1 i n) (placement_new' P2 i n) (fun _ => all1) (fl i).
  Proof.
    intros.
    unfold placement_new'. eapply sim_bind; [(apply (sim_run_ini (Some i)); try side)|]. intros v.
    (apply H_begin; try side).
  Qed.
  Lemma sim_construct Pre i n :
    L i -> Lini n -> SIM Pre (construct_payload' E P1 i n) (construct_payload' E P2 i n) (fun _ => all1) all1.
  Proof.
    intros.
    apply sim_any, sim_noexcept. apply sim_seq; [(apply sim_assert, sim_not, sim_has'; try side)|]. intros u.
    eapply sim_bind; [(apply H_invalidate; try side)|]. intros u'. cbn beta.
    apply sim_seq; [|intros x; (apply sim_assert, sim_has'; try side)].
    destruct (i_nothrow n).
    - eapply sim_weak; [(apply sim_placement; try side)| | |]; auto. intros; exact I.
    - eapply sim_on_throw; [(apply sim_placement; try side)|(apply H_init; try side)].
  Qed.
  Lemma sim_construct_from Pre i n :
    L i -> Lini n -> SIM Pre (construct_payload_from_function' E P1 i n)
        (construct_payload_from_function' E P2 i n) (fun _ => all1) all1.
  Proof. intros. apply (sim_construct Pre i n); assumption. Qed.

  Lemma sim_storage_dtor Pre i :
    L i -> SIM Pre (storage_dtor' P1 i) (storage_dtor' P2 i) (fun _ => all1) all1.
  Proof.
    intros.
    apply sim_noexcept. eapply sim_bind; [(apply sim_has; try side)|]. intros b.
    apply sim_seq; [|intros u; (apply H_dealloc; try side)].
    destruct b; [|apply sim_all].
    eapply sim_weak; [(apply H_end; try side)| | |]; auto. intros; exact I.
  Qed.
  Lemma sim_storage_default i :
    L i -> SIM (fl i) (storage_default' E P1 i) (storage_default' E P2 i) (fun _ => all1) all1.
  Proof.
    intros.
    apply sim_noexcept. apply sim_seq; [(apply H_init; try side)|]. intros u.
    (apply sim_assert, sim_not, sim_has'; try side).
  Qed.
  Lemma sim_assign_payload Pre i a :
    L i -> Lini (a_ini a) -> SIM Pre (assign_payload' P1 i a) (assign_payload' P2 i a) (fun _ => all1) all1.
  Proof.
    intros.
    unfold assign_payload'. destruct (i_src (a_ini a)) as [j|] eqn:Hs; [destruct (Nat.eqb i j)|].
    - apply sim_seq; [(apply sim_load; try side)|]. intros d. apply sim_seq; [apply sim_call|]. intros p.
      apply sim_seq; [(apply sim_store; try side)|]. intros u. apply sim_lift.
    - apply sim_seq; [(apply sim_load; try side)|]. intros d. apply sim_seq; [(apply sim_load; try side)|]. intros v.
      apply sim_seq; [apply sim_call|]. intros p. apply sim_seq; [(apply sim_store; try side)|]. intros u.
      apply sim_seq; [destruct (i_const (a_ini a)); [apply sim_all|(apply sim_store; try side)]|].
      intros u'. apply sim_lift.
    - apply sim_seq; [(apply sim_load; try side)|]. intros d. apply sim_seq; [apply sim_call|]. intros p.
      apply sim_seq; [(apply sim_store; try side)|]. intros u. apply sim_lift.
  Qed.
  Lemma sim_assign_value Pre i a :
    L i -> Lini (a_ini a) -> SIM Pre (assign_value' E P1 i a) (assign_value' E P2 i a) (fun _ => all1) all1.
  Proof.
    intros.
    apply sim_seq; [(apply sim_has'; try side)|]. intros b.
    apply sim_seq; [|intros u; (apply sim_assert, sim_has'; try side)].
    destruct b; [(apply sim_assign_payload; try side)|(apply sim_construct; try side)].
  Qed.
  Lemma sim_reset Pre i : L i -> SIM Pre (reset' E P1 i) (reset' E P2 i) (fun _ => all1) all1.
  Proof.
    intros.
    apply sim_noexcept. eapply sim_bind; [(apply sim_has; try side)|]. intros [|]; [|apply sim_all].
    eapply sim_bind; [(apply H_end; try side)|]. intros u. apply sim_seq; [(apply H_init; try side)|]. intros u'.
    (apply sim_assert, sim_not, sim_has'; try side).
  Qed.
  Lemma sim_same_type {A} i j Pre (m1 : @G St1 A) m2 Q X :
    SIM Pre m1 m2 Q X -> SIM Pre (same_type' E i j m1) (same_type' E i j m2) Q X.
  Proof. intros H. unfold same_type'. destruct (Nat.eqb _ _); [exact H|apply sim_dead]. Qed.
  Lemma sim_ctor_default Pre i :
    L i -> SIM Pre (ctor_default' E P1 i) (ctor_default' E P2 i) (fun _ => all1) all1.
  Proof.
    intros.
    apply sim_any. eapply sim_bind; [(apply H_alloc; try side)|]. intros u. (apply sim_storage_default; try side).
  Qed.
  Lemma sim_ctor_in_place Pre i n :
    L i -> Lini n -> SIM Pre (ctor_in_place' E P1 i n) (ctor_in_place' E P2 i n) (fun _ => all1) all1.
  Proof.
    intros.
    apply sim_any. eapply sim_bind; [(apply H_alloc; try side)|]. intros u.
    eapply sim_on_throw; [|(apply H_dealloc; try side)].
    apply sim_seq; [(apply H_init; try side)|]. intros u'. (apply sim_construct; try side).
  Qed.
  Lemma sim_ctor_from Pre i n :
    L i -> Lini n -> SIM Pre (ctor_from_function' E P1 i n) (ctor_from_function' E P2 i n) (fun _ => all1) all1.
  Proof. intros. apply (sim_ctor_in_place Pre i n); assumption. Qed.
  Lemma sim_ctor_body i j n :
    L i -> L j -> Lini n -> SIM (fl i)
       (bind' (storage_default' E P1 i) (fun _ =>
        on_throw'
          (bind' (has1 j) (fun b =>
           bind' (if b then construct_payload' E P1 i n else assert_' E (not_' (has1 i))) (fun _ =>
           assert_' E (same_has' P1 i j))))
          (storage_dtor' P1 i)))
       (bind' (storage_default' E P2 i) (fun _ =>
        on_throw'
          (bind' (has2 j) (fun b =>
           bind' (if b then construct_payload' E P2 i n else assert_' E (not_' (has2 i))) (fun _ =>
           assert_' E (same_has' P2 i j))))
          (storage_dtor' P2 i))) (fun _ => all1) all1.
  Proof.
    intros.
    apply sim_seq; [(apply sim_storage_default; try side)|]. intros u.
    eapply sim_on_throw; [|(apply (sim_storage_dtor all1); try side)].
    apply sim_seq; [(apply sim_has'; try side)|]. intros b.
    apply sim_seq; [|intros u'; (apply sim_assert, sim_same; try side)].
    destruct b; [(apply sim_construct; try side)|(apply sim_assert, sim_not, sim_has'; try side)].
  Qed.
  Lemma sim_ctor_move Pre i j :
    L i -> L j -> SIM Pre (ctor_move' E P1 i j) (ctor_move' E P2 i j) (fun _ => all1) all1.
  Proof.
    intros.
    apply sim_any, sim_same_type. eapply sim_bind; [(apply H_alloc; try side)|]. intros u.
    (apply sim_noexcept, sim_ctor_body; try side).
  Qed.
  Lemma sim_ctor_copy Pre i j :
    L i -> L j -> SIM Pre (ctor_copy' E P1 i j) (ctor_copy' E P2 i j) (fun _ => all1) all1.
  Proof.
    intros.
    apply sim_any, sim_same_type. eapply sim_bind; [(apply H_alloc; try side)|]. intros u.
    (apply sim_ctor_body; try side).
  Qed.
  Lemma sim_assign_move Pre i j :
    L i -> L j -> SIM Pre (assign_move' E P1 i j) (assign_move' E P2 i j) (fun _ => all1) all1.
  Proof.
    intros.
    apply sim_same_type, sim_noexcept. apply sim_seq; [(apply sim_has'; try side)|]. intros b.
    apply sim_seq; [|intros u; (apply sim_assert, sim_same; try side)].
    destruct b; [(apply sim_assign_value; try side)|(apply sim_reset; try side)].
  Qed.
  Lemma sim_assign_copy Pre i j :
    L i -> L j -> SIM Pre (assign_copy' E P1 i j) (assign_copy' E P2 i j) (fun _ => all1) all1.
  Proof.
    intros.
    apply sim_same_type. apply sim_seq; [(apply sim_has'; try side)|]. intros b.
    apply sim_seq; [|intros u; (apply sim_assert, sim_same; try side)].
    destruct b; [(apply sim_assign_value; try side)|(apply sim_reset; try side)].
  Qed.
  Lemma sim_emplace Pre i n :
    L i -> Lini n -> SIM Pre (emplace' E P1 i n) (emplace' E P2 i n) (fun _ => all1) all1.
  Proof.
    intros.
    apply sim_seq; [(apply sim_reset; try side)|]. intros u. apply sim_seq; [(apply sim_construct; try side)|]. intros u'.
    (apply sim_assert, sim_has'; try side).
  Qed.
  Lemma sim_value Pre i : L i -> SIM Pre (value' P1 i) (value' P2 i) (fun _ => all1) all1.
  Proof.
    intros.
    apply sim_seq; [(apply sim_has'; try side)|]. intros b. destruct (negb b); [apply sim_throw|apply sim_ret].
  Qed.
  Lemma sim_use Pre i c f :
    L i -> SIM Pre (use_payload' P1 i c f) (use_payload' P2 i c f) (fun _ => all1) all1.
  Proof.
    intros.
    apply sim_seq; [(apply sim_load; try side)|]. intros v. apply sim_seq; [apply sim_call|]. intros p.
    apply sim_seq; [destruct c; [apply sim_all|(apply sim_store; try side)]|]. intros u. apply sim_lift.
  Qed.
  Lemma sim_swap_payloads Pre i j :
    L i -> L j -> SIM Pre (swap_payloads' E P1 i j) (swap_payloads' E P2 i j) (fun _ => all1) all1.
  Proof.
    intros.
    unfold swap_payloads'. destruct (Nat.eqb i j).
    - apply sim_seq; [(apply sim_load; try side)|]. intros v. apply sim_seq; [apply sim_call|]. intros p.
      apply sim_seq; [(apply sim_store; try side)|]. intros u. apply sim_lift.
    - apply sim_seq; [(apply sim_load; try side)|]. intros v. apply sim_seq; [(apply sim_load; try side)|]. intros v'.
      apply sim_seq; [apply sim_call|]. intros p. apply sim_seq; [(apply sim_store; try side)|]. intros u.
      apply sim_seq; [(apply sim_store; try side)|]. intros u'. apply sim_lift.
  Qed.
  Lemma sim_swap Pre i j : L i -> L j -> SIM Pre (swap' E P1 i j) (swap' E P2 i j) (fun _ => all1) all1.
  Proof.
    intros.
    apply sim_same_type, sim_noexcept. apply sim_seq; [(apply sim_has'; try side)|]. intros a.
    apply sim_seq; [(apply sim_has'; try side)|]. intros b. destruct (Bool.eqb a b).
    - destruct a; [(apply sim_swap_payloads; try side)|apply sim_all].
    - destruct a; (apply sim_seq; [(apply sim_construct; try side)|]; intros u; (apply sim_reset; try side)).
  Qed.
  Lemma sim_std_swap Pre i j k :
    L i -> L j -> L k -> SIM Pre (std_swap' E P1 i j k) (std_swap' E P2 i j k) (fun _ => all1) all1.
  Proof.
    intros.
    apply sim_same_type, sim_noexcept. apply sim_seq; [(apply sim_ctor_move; try side)|]. intros u.
    apply sim_seq; [|intros u'; (apply sim_storage_dtor; try side)].
    eapply sim_on_throw; [|(apply (sim_storage_dtor all1); try side)].
    apply sim_seq; [(apply sim_assign_move; try side)|]. intros u'. (apply sim_assign_move; try side).
  Qed.
  Lemma sim_build Pre k o :
    L k -> SIM Pre (build_result' E P1 k o) (build_result' E P2 k o) (fun _ => all1) all1.
  Proof. intros. destruct o; [(apply sim_ctor_in_place; try side)|(apply sim_ctor_default; try side)]. Qed.
  Lemma sim_and_then Pre k i c f :
    L k -> L i -> SIM Pre (and_then' E P1 k i c f) (and_then' E P2 k i c f) (fun _ => all1) all1.
  Proof.
    intros.
    apply sim_seq; [(apply sim_has'; try side)|]. intros [|]; [|(apply sim_ctor_default; try side)].
    apply sim_seq; [(apply sim_assert, sim_has'; try side)|]. intros u.
    apply sim_seq; [(apply sim_load; try side)|]. intros v. apply sim_seq; [apply sim_call|]. intros p.
    apply sim_seq; [destruct c; [apply sim_all|(apply sim_store; try side)]|]. intros u'.
    apply sim_seq; [apply sim_lift|]. intros o. (apply sim_build; try side).
  Qed.
  Lemma sim_transform Pre k i c f nt :
    L k -> L i -> SIM Pre (transform' E P1 k i c f nt) (transform' E P2 k i c f nt) (fun _ => all1) all1.
  Proof.
    intros.
    apply sim_seq; [(apply sim_has'; try side)|]. intros [|]; [|(apply sim_ctor_default; try side)].
    apply sim_seq; [(apply sim_assert, sim_has'; try side)|]. intros u. (apply sim_ctor_from; try side).
  Qed.
  Lemma sim_or_else Pre k i mv f :
    L k -> L i -> SIM Pre (or_else' E P1 k i mv f) (or_else' E P2 k i mv f) (fun _ => all1) all1.
  Proof.
    intros.
    apply sim_same_type. apply sim_seq; [(apply sim_has'; try side)|]. intros [|].
    - destruct mv; [(apply sim_ctor_move; try side)|(apply sim_ctor_copy; try side)].
    - apply sim_seq; [apply sim_call|]. intros r. apply sim_seq; [apply sim_lift|]. intros o.
      (apply sim_build; try side).
  Qed.

  Lemma sim_od_has Pre o : Lod o -> SIM Pre (od_has' P1 o) (od_has' P2 o) (fun _ => all1) all1.
  Proof. intros. destruct o; [(apply sim_has'; try side)|apply sim_all|apply sim_dead|apply sim_dead]. Qed.
  Lemma sim_od_get Pre o : Lod o -> SIM Pre (od_get' E P1 o) (od_get' E P2 o) (fun _ => all1) all1.
  Proof.
    intros.
    destruct o as [i|[v|]| |]; try apply sim_dead; [|apply sim_all].
    apply sim_seq; [(apply sim_assert, sim_has'; try side)|]. intros u. (apply sim_load; try side).
  Qed.
  Lemma sim_rel_call Pre c r a b :
    SIM Pre (rel_call' P1 c r a b) (rel_call' P2 c r a b) (fun _ => all1) all1.
  Proof. apply sim_seq; [apply sim_call|]. intros x. apply sim_lift. Qed.
  Lemma sim_three_call Pre c a b :
    SIM Pre (three_call' P1 c a b) (three_call' P2 c a b) (fun _ => all1) all1.
  Proof. apply sim_seq; [apply sim_call|]. intros x. apply sim_lift. Qed.
  Lemma sim_deref Pre c r L0 R' :
    Lod L0 -> Lod R' -> SIM Pre (deref_cmp' E P1 c r L0 R') (deref_cmp' E P2 c r L0 R') (fun _ => all1) all1.
  Proof.
    intros.
    apply sim_seq; [(apply sim_od_get; try side)|]. intros a. apply sim_seq; [(apply sim_od_get; try side)|]. intros b.
    apply sim_rel_call.
  Qed.
  Ltac fin := repeat first
    [apply sim_all|apply sim_dead|(apply sim_deref; try side)|(apply sim_has'; try side)|apply sim_not|(apply sim_od_has; try side)
    |(apply sim_od_get; try side)|apply sim_rel_call|apply sim_three_call
    |apply sim_seq|intros []|intros ?
    |match goal with |- SIM _ (if ?b then _ else _) _ _ _ => destruct b end].
  Lemma sim_cmp_opt_opt Pre c r L0 R' :
    Lod L0 -> Lod R' -> SIM Pre (cmp_opt_opt' E P1 c r L0 R') (cmp_opt_opt' E P2 c r L0 R') (fun _ => all1) all1.
  Proof. intros. destruct r; cbn [cmp_opt_opt']; fin. Qed.
  Lemma sim_three_opt_opt Pre c L0 R' :
    Lod L0 -> Lod R' -> SIM Pre (three_opt_opt' E P1 c L0 R') (three_opt_opt' E P2 c L0 R') (fun _ => all1) all1.
  Proof. intros. unfold three_opt_opt'. fin. Qed.
  Lemma sim_three_opt_val Pre c i v :
    L i -> SIM Pre (three_opt_val' E P1 c i v) (three_opt_val' E P2 c i v) (fun _ => all1) all1.
  Proof. intros. unfold three_opt_val'. fin. Qed.
  Lemma sim_three_opt_null Pre i :
    L i -> SIM Pre (three_opt_null' P1 i) (three_opt_null' P2 i) (fun _ => all1) all1.
  Proof. intros. unfold three_opt_null'. fin. Qed.
  Lemma sim_declared Pre c r L0 R' :
    Lod L0 -> Lod R' -> SIM Pre (declared' E P1 c r L0 R') (declared' E P2 c r L0 R') (fun _ => all1) all1.
  Proof.
    intros.
    destruct L0, R'; cbn [declared']; try apply sim_dead; try (apply sim_cmp_opt_opt; try side);
      destruct r; cbn [cmp_opt_null' cmp_null_opt' cmp_opt_val' cmp_val_opt'];
      unfold cmp_opt_val', cmp_val_opt'; fin.
  Qed.
  Lemma sim_declared3 Pre c L0 R' :
    Lod L0 -> Lod R' -> SIM Pre (declared3' E P1 c L0 R') (declared3' E P2 c L0 R') (fun _ => all1) all1.
  Proof.
    intros.
    destruct L0, R'; cbn [declared3']; try apply sim_dead; try (apply sim_three_opt_opt; try side);
      try (apply sim_three_opt_val; try side); (apply sim_three_opt_null; try side).
  Qed.
  Lemma sim_compare Pre rt c r L0 R' :
    Lod L0 -> Lod R' -> SIM Pre (compare' E P1 rt c r L0 R') (compare' E P2 rt c r L0 R') (fun _ => all1) all1.
  Proof.
    intros.
    destruct rt as [|[|]]; cbn [compare']; [(apply sim_declared; try side)| |];
    destruct r; try (apply sim_declared; try side); try ((apply sim_not, sim_declared; try side));
      (apply sim_seq; [(apply sim_declared3; try side)|intros x; apply sim_ret]).
  Qed.
  Lemma sim_three_way Pre g c L0 R' :
    Lod L0 -> Lod R' -> SIM Pre (three_way' E P1 g c L0 R') (three_way' E P2 g c L0 R') (fun _ => all1) all1.
  Proof.
    intros.
    destruct L0, R'; cbn [three_way']; try apply sim_dead; try (apply sim_three_opt_opt; try side);
      try (apply sim_three_opt_val; try side); try (apply sim_three_opt_null; try side);
      try destruct g; try (apply sim_three_opt_opt; try side);
      (apply sim_seq; [|intros x; apply sim_ret]);
      first [(apply sim_three_opt_opt; try side)|(apply sim_three_opt_val; try side)|(apply sim_three_opt_null; try side)].
  Qed.
  Lemma sim_hash Pre h i : L i -> SIM Pre (hash' E P1 h i) (hash' E P2 h i) (fun _ => all1) all1.
  Proof.
    intros.
    apply sim_seq; [(apply sim_has'; try side)|]. intros [|]; [|apply sim_all].
    apply sim_seq; [(apply sim_od_get; try side)|]. intros v. apply sim_seq; [apply sim_call|]. intros x.
    apply sim_lift.
  Qed.

  Lemma sim_end {A B} Pre (m1 : @G St1 A) m2 (g : A -> B) :
    SIM Pre m1 m2 (fun _ => all1) all1 ->
    SIM Pre (bind' m1 (fun x => ret' (g x))) (bind' m2 (fun x => ret' (g x))) (fun _ => all1) all1.
  Proof. intros H. apply sim_seq; [exact H|]. intros x. apply sim_ret. Qed.

  Lemma sim_step o : (forall i, In i (uses o) -> L i) ->
    SIM all1 (step' E P1 o) (step' E P2 o) (fun _ => all1) all1.
  Proof.
    intros HU. destruct o; cbn [uses] in HU; cbn [step']; unfold unit_', bool_', val_'; apply sim_end;
      repeat match goal with
      | x : loc |- _ => lazymatch goal with K : L x |- _ => fail
                        | _ => assert (L x) by (apply HU; cbn; tauto) end
      | n : ini W |- _ => lazymatch goal with K : Lini n |- _ => fail
                        | _ => assert (Lini n) by (intros z Hz; apply HU; right; exact Hz) end
      | a : arg W |- _ => lazymatch goal with K : Lini (a_ini a) |- _ => fail
                        | _ => assert (Lini (a_ini a)) by (intros z Hz; apply HU; right; exact Hz) end
      | o : operand |- _ => lazymatch goal with K : Lod o |- _ => fail
                        | _ => assert (Lod o) by (intros z Hz; apply HU, in_app_iff; tauto) end
      end;
      try first
        [(apply sim_ctor_default; try side)|(apply sim_noexcept, sim_ctor_default; try side)|(apply sim_ctor_in_place; try side)
        |(apply sim_ctor_copy; try side)|(apply sim_ctor_move; try side)|(apply sim_storage_dtor; try side)
        |(apply sim_noexcept, sim_reset; try side)|(apply sim_assign_value; try side)|(apply sim_assign_copy; try side)
        |(apply sim_assign_move; try side)|(apply sim_emplace; try side)|(apply sim_reset; try side)|(apply sim_swap; try side)|(apply sim_std_swap; try side)
        |(apply sim_and_then; try side)|(apply sim_transform; try side)|(apply sim_or_else; try side)|(apply H_var_new; try side)|(apply H_var_drop; try side)
        |(apply sim_has'; try side)|(apply sim_compare; try side)|(apply sim_three_way; try side)|(apply sim_hash; try side)].
    - apply sim_seq; [|intros u; (apply sim_use; try side)].
      destruct k; cbn [acc']; [(apply sim_assert, sim_has'; try side)|(apply sim_assert, sim_has'; try side)|(apply sim_value; try side)].
    - apply sim_seq; [(apply sim_has'; try side)|]. intros [|]; (apply sim_ini; try side).
    - apply sim_seq; [(apply sim_has'; try side)|]. intros [|]; (apply sim_ini; try side).
  Qed.

  (** Whole programs. *)
  Theorem sim_run p : (forall o i, In o p -> In i (uses o) -> L i) -> forall s f, R s f ->
    match run' E P1 p s with
    | (inl obs, s') => exists f', run' E P2 p f = (inl obs, f') /\ R s' f'
    | (inr d, _) => vis d = true -> exists f', run' E P2 p f = (inr d, f')
    end.
  Proof.
    induction p as [|o p IH]; intros HU s f Hr; cbn [run']; [exists f; auto|].
    specialize (IH (fun o' i Ho => HU o' i (or_intror Ho))).
    pose proof (sim_step o (fun i Hi => HU o i (or_introl eq_refl) Hi) s f Hr I) as H.
    destruct (step' E P1 o s) as [[x|e|d] s'].
    - destruct H as (f' & A1 & A2 & _). rewrite A1. specialize (IH s' f' A2).
      destruct (run' E P1 p s') as [[obs|d] s''].
      + destruct IH as (f'' & B1 & B2). rewrite B1. exists f''. auto.
      + intros Hv. destruct (IH Hv) as (f'' & B1). rewrite B1. exists f''. reflexivity.
    - destruct H as (f' & A1 & A2 & _). rewrite A1. specialize (IH s' f' A2).
      destruct (run' E P1 p s') as [[obs|d] s''].
      + destruct IH as (f'' & B1 & B2). rewrite B1. exists f''. auto.
      + intros Hv. destruct (IH Hv) as (f'' & B1). rewrite B1. exists f''. reflexivity.
    - intros Hv. destruct (H Hv) as (f' & A1). rewrite A1. exists f'. reflexivity.
  Qed.
End Simulation.
