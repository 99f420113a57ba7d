(** * Reentry: what user code sees that looks at the optional it was called from

    Property C66.  In the rest of the model user code does not call members of the
    optional that called it.  Here it may ask: constructors, destructors, assignments, swap,
    comparisons and hashes of the payload and the callables given to the monadic functions
    may call has_value() / operator bool of the optionals they are called for, as often as
    they like, and do something else depending on the answers.

    To this end the functions of [Optional.v] are stated again with a parameter [h] in
    place of [call] that says how user code is run, and where it is called from; with [call]
    they are the functions of [Optional.v] ([step_call]: by computation). *)

From Coq Require Import List NArith ZArith Bool Arith Lia.
From Verif Require Import Cells CellsFacts Machine Optional Program Laws Sample Manip.
Import ListNotations.

(** Where user code is called, with the optionals involved. *)
Inductive point : Type :=
| PtConstruct (i : loc) (src : list loc)  (* constructor of the payload of [i], from the payload of [src] *)
| PtFunction (k i : loc)                  (* transform: the callable called with [*i], for the payload of [k] *)
| PtDestroy (i : loc)                     (* destructor *)
| PtAssign (i : loc) (src : list loc)     (* assignment operator, right hand side: the payload of [src] *)
| PtSwap (i j : loc)                      (* swap of the payloads *)
| PtUse (i : loc)                         (* and_then: the callable *)
| PtValueOr (i : loc) (b : bool)          (* value_or: result from the payload, or from the default *)
| PtOrElse (i : loc)                      (* or_else: the callable *)
| PtCompare (js : list loc)               (* comparison of payloads *)
| PtHash (i : loc)                        (* std::hash of the payload *)
| PtClient.                               (* not called by the library *)

Definition operands (l : list operand) : list loc :=
  flat_map (fun o => match o with OpTiny i => [i] | _ => [] end) l.

(** ** The library, with user code run by [h] *)

Section Again.
  Context {W : Type}.
  Variable E : env W.
  Variable h : forall A, point -> (W -> A * W) -> M W A.

  (** [Machine.run_ini] *)
  Definition run_ini' (pt : point) (n : ini W) : M W rep :=
    bind (match i_src n with None => ret [] | Some j => load_payload E j end) (fun src =>
    bind (load_more E (i_more n)) (fun more =>
    bind (h _ pt (i_fun n (joined src more))) (fun p =>
    bind (match i_src n with
          | None => ret tt
          | Some j => if i_const n then ret tt
                      else store_payload E j (fst (parted src more (snd p)))
          end) (fun _ =>
    bind (store_more E (i_more n) (snd (parted src more (snd p)))) (fun _ =>
    lift_res (fst p)))))).

  (** [Optional.v], in the same order. *)
  Definition placement_new' (pt : point) (i : loc) (n : ini W) : M W unit :=
    v <- run_ini' pt n ;;
    r <- get_region i ;;
    if pay_obj r || (flag_obj r && negb (d_sep (dec E i))) then dead LifetimeError
    else if Nat.eqb (length v) (d_psize (dec E i))
    then set_region i (Some (MkRegion (put 0 v (cells r)) (flag_obj r) true)) ;;
         log (EvPayBegin i)
    else dead IllTyped.

  (** optional.h:1018-1021. *)
  Definition destroy_payload' (i : loc) : M W unit :=
    r <- get_region i ;;
    if pay_obj r
    then
      h _ (PtDestroy i) (fun w => (tt, po_dtor (ops E i) (sub 0 (d_psize (dec E i)) (cells r)) w)) ;;
      set_region i (Some (MkRegion (put 0 (indets (d_psize (dec E i))) (cells r))
                                   (flag_obj r) false)) ;;
      log (EvPayEnd i)
    else dead NoObject.

  (** optional.h:978-983. *)
  Definition storage_dtor' (i : loc) : M W unit :=
    noexcept_if true
      (b <- has_value E i ;;
       (if b then destroy_payload' i else ret tt) ;;
       dealloc E i).

  (** optional.h:1043-1080, 1024-1040. *)
  Definition construct_payload' (src : list loc) (i : loc) (n : ini W) : M W unit :=
    noexcept_if (i_nothrow n)
      (assert_ E (not_ (has_value E i)) ;;
       fm_invalidate E i ;;
       (if i_nothrow n
        then placement_new' (PtConstruct i src) i n
        else on_throw (placement_new' (PtConstruct i src) i n) (fm_init E i)) ;;
       assert_ E (has_value E i)).

  (** optional.h:1083-1114. *)
  Definition construct_payload_from_function' (src : loc) (i : loc) (n : ini W) : M W unit :=
    noexcept_if (i_nothrow n)
      (assert_ E (not_ (has_value E i)) ;;
       fm_invalidate E i ;;
       (if i_nothrow n
        then placement_new' (PtFunction i src) i n
        else on_throw (placement_new' (PtFunction i src) i n) (fm_init E i)) ;;
       assert_ E (has_value E i)).

  (** optional.h:1121. *)
  Definition assign_payload' (src : list loc) (i : loc) (a : arg W) : M W unit :=
    match i_src (a_ini a) with
    | None =>
        d <- load_payload E i ;;
        p <- h _ (PtAssign i src) (a_assign a d []) ;;
        store_payload E i (fst (snd p)) ;;
        lift_res (fst p)
    | Some j =>
        if Nat.eqb i j
        then
          d <- load_payload E i ;;
          p <- h _ (PtAssign i src) (a_self a d) ;;
          store_payload E i (snd p) ;;
          lift_res (fst p)
        else
          d <- load_payload E i ;;
          v <- load_payload E j ;;
          p <- h _ (PtAssign i src) (a_assign a d v) ;;
          store_payload E i (fst (snd p)) ;;
          (if i_const (a_ini a) then ret tt else store_payload E j (snd (snd p))) ;;
          lift_res (fst p)
    end.

  (** optional.h:1116-1133. *)
  Definition assign_value' (src : list loc) (i : loc) (a : arg W) : M W unit :=
    b <- has_value E i ;;
    (if b then assign_payload' src i a else construct_payload' src i (a_ini a)) ;;
    assert_ E (has_value E i).

  (** optional.h:1136-1143. *)
  Definition reset' (i : loc) : M W unit :=
    noexcept_if true
      (b <- has_value E i ;;
       if b
       then destroy_payload' i ;; fm_init E i ;; assert_ E (not_ (has_value E i))
       else ret tt).

  (** optional.h:961-967, 1455-1470, 1478-1496, 2279-2309. *)
  Definition ctor_in_place' (i : loc) (n : ini W) : M W unit :=
    alloc E i ;;
    on_throw (fm_init E i ;; construct_payload' [] i n) (dealloc E i).

  (** optional.h:969-975, 1473-1476. *)
  Definition ctor_from_function' (src : loc) (i : loc) (n : ini W) : M W unit :=
    alloc E i ;;
    on_throw (fm_init E i ;; construct_payload_from_function' src i n) (dealloc E i).

  (** optional.h:1179-1194. *)
  Definition ctor_move' (i j : loc) : M W unit :=
    same_type E i j
    (alloc E i ;;
     noexcept_if (po_nt_move (ops E i))
       (storage_default E i ;;
        on_throw
          (b <- has_value E j ;;
           (if b then construct_payload' [j] i (move_ini E j)
            else assert_ E (not_ (has_value E i))) ;;
           assert_ E (same_has E i j))
          (storage_dtor' i))).

  (** optional.h:1236-1248. *)
  Definition ctor_copy' (i j : loc) : M W unit :=
    same_type E i j
    (alloc E i ;;
     (storage_default E i ;;
      on_throw
        (b <- has_value E j ;;
         (if b then construct_payload' [j] i (copy_ini E j)
          else assert_ E (not_ (has_value E i))) ;;
         assert_ E (same_has E i j))
        (storage_dtor' i))).

  (** optional.h:1446. *)
  Definition dtor' (i : loc) : M W unit := storage_dtor' i.

  (** optional.h:1293-1308. *)
  Definition assign_move' (i j : loc) : M W unit :=
    same_type E i j
    (noexcept_if (po_nt_massign (ops E i) && po_nt_move (ops E i))
       (b <- has_value E j ;;
        (if b then assign_value' [j] i (move_arg E j) else reset' i) ;;
        assert_ E (same_has E i j))).

  (** optional.h:1353-1364. *)
  Definition assign_copy' (i j : loc) : M W unit :=
    same_type E i j
    (b <- has_value E j ;;
     (if b then assign_value' [j] i (copy_arg E j) else reset' i) ;;
     assert_ E (same_has E i j)).

  (** optional.h:1517-1521, 2230-2234. *)
  Definition assign_nullopt' (i : loc) : M W unit := noexcept_if true (reset' i).

  (** optional.h:1524-1529, 2237-2247. *)
  Definition assign' (i : loc) (a : arg W) : M W unit := assign_value' [] i a.

  (** optional.h:1532-1552. *)
  Definition emplace' (i : loc) (n : ini W) : M W unit :=
    reset' i ;; construct_payload' [] i n ;; assert_ E (has_value E i).

  Definition use_payload' (i : loc) (c : bool) (f : fn_use W) : M W rep :=
    v <- load_payload E i ;;
    p <- h _ PtClient (f v) ;;
    (if c then ret tt else store_payload E i (snd p)) ;;
    lift_res (fst p).

  (** optional.h:1632-1641, 1643-1653. *)
  Definition value_or_copy' (i : loc) (d : ini W) : M W rep :=
    b <- has_value E i ;;
    if b then run_ini' (PtValueOr i true) (copy_ini E i) else run_ini' (PtValueOr i false) d.

  (** optional.h:1632-1641, 1643-1653. *)
  Definition value_or_move' (i : loc) (d : ini W) : M W rep :=
    b <- has_value E i ;;
    if b then run_ini' (PtValueOr i true) (move_ini E i) else run_ini' (PtValueOr i false) d.

  (** optional.h:1664-1665. *)
  Definition swap_payloads' (i j : loc) : M W unit :=
    if Nat.eqb i j
    then
      v <- load_payload E i ;;
      p <- h _ (PtSwap i j) (po_self_swap (ops E i) v) ;;
      store_payload E i (snd p) ;;
      lift_res (fst p)
    else
      a <- load_payload E i ;;
      b <- load_payload E j ;;
      p <- h _ (PtSwap i j) (po_swap (ops E i) a b) ;;
      store_payload E i (fst (snd p)) ;;
      store_payload E j (snd (snd p)) ;;
      lift_res (fst p).

  (** optional.h:1656-1678. *)
  Definition swap' (i j : loc) : M W unit :=
    same_type E i j
    (noexcept_if (po_nt_move (ops E i) && po_nt_swap (ops E i))
       (a <- has_value E i ;;
        b <- has_value E j ;;
        if Bool.eqb a b
        then (if a then swap_payloads' i j else ret tt)
        else if a
        then construct_payload' [i] j (move_ini E i) ;; reset' i
        else construct_payload' [j] i (move_ini E j) ;; reset' j)).

  Definition std_swap' (i j k : loc) : M W unit :=
    same_type E i j
    (noexcept_if (po_nt_move (ops E i) && (po_nt_massign (ops E i) && po_nt_move (ops E i)))
       (ctor_move' k i ;;
        on_throw (assign_move' i j ;; assign_move' j k) (dtor' k) ;;
        dtor' k)).

  Definition build_result' (k : loc) (o : option rep) : M W unit :=
    match o with
    | None => ctor_default E k
    | Some v => ctor_in_place' k (const_ini v)
    end.

  (** optional.h:1680-1731. *)
  Definition and_then' (k i : loc) (c : bool) (f : fn_opt W) : M W unit :=
    b <- has_value E i ;;
    if b
    then
      op_deref E i ;;
      v <- load_payload E i ;;
      p <- h _ (PtUse i) (f v) ;;
      (if c then ret tt else store_payload E i (snd p)) ;;
      o <- lift_res (fst p) ;;
      build_result' k o
    else ctor_default E k.

  (** optional.h:1733-1814. *)
  Definition transform' (k i : loc) (c : bool) (f : fn_use W) (nt : bool) : M W unit :=
    b <- has_value E i ;;
    if b
    then op_deref E i ;; ctor_from_function' i k (MkIni (Some i) c f nt)
    else ctor_default E k.

  (** optional.h:1817-1837, 2250-2270. *)
  Definition or_else' (k i : loc) (mv : bool) (f : W -> res (option rep) * W) : M W unit :=
    same_type E k i
    (b <- has_value E i ;;
     if b
     then (if mv then ctor_move' k i else ctor_copy' k i)
     else r <- h _ (PtOrElse i) f ;; o <- lift_res r ;; build_result' k o).

  Definition rel_call' (js : list loc) (c : cmpops W) (r : relop) (a b : rep) : M W bool :=
    x <- h _ (PtCompare js) (c_rel c r a b) ;; lift_res x.

  Definition three_call' (js : list loc) (c : cmpops W) (a b : rep) : M W ordering :=
    x <- h _ (PtCompare js) (c_three c a b) ;; lift_res x.

  Definition deref_cmp' (c : cmpops W) (r : relop) (L R : operand) : M W bool :=
    a <- od_get E L ;; b <- od_get E R ;; rel_call' (operands [L; R]) c r a b.

  (** optional.h:2437-2441, 2482-2486, 2527-2530, 2571-2574, 2615-2618, 2659-2662, 2398-2430. *)
  Definition cmp_opt_opt' (c : cmpops W) (r : relop) (L R : operand) : M W bool :=
    match r with
    | REq =>
        l <- od_has E L ;; g <- od_has E R ;;
        if Bool.eqb l g then (if negb l then ret true else deref_cmp' c REq L R) else ret false
    | RNe =>
        l <- od_has E L ;; g <- od_has E R ;;
        if xorb l g then ret true else (if l then deref_cmp' c RNe L R else ret false)
    | RLt =>
        g <- od_has E R ;;
        if g then (l <- od_has E L ;; if negb l then ret true else deref_cmp' c RLt L R)
        else ret false
    | RLe =>
        l <- od_has E L ;;
        if negb l then ret true
        else (g <- od_has E R ;; if g then deref_cmp' c RLe L R else ret false)
    | RGt =>
        l <- od_has E L ;;
        if l then (g <- od_has E R ;; if negb g then ret true else deref_cmp' c RGt L R)
        else ret false
    | RGe =>
        g <- od_has E R ;;
        if negb g then ret true
        else (l <- od_has E L ;; if l then deref_cmp' c RGe L R else ret false)
    end.

  (** optional.h:2460-2466, 2505-2511, 2549-2555, 2593-2599, 2637-2643, 2681-2687, 2468-2474, 2513-2519, 2557-2563, 2601-2607, 2645-2651, 2689-2695. *)
  Definition cmp_opt_val' (c : cmpops W) (r : relop) (i : loc) (v : rep) : M W bool :=
    g <- has_value E i ;;
    if g then (a <- od_get E (OpTiny i) ;; rel_call' [i] c r a v)
    else ret (match r with REq => false | RNe => true | RLt => true
                         | RLe => true | RGt => false | RGe => false end).

  (** optional.h:2460-2466, 2505-2511, 2549-2555, 2593-2599, 2637-2643, 2681-2687, 2468-2474, 2513-2519, 2557-2563, 2601-2607, 2645-2651, 2689-2695. *)
  Definition cmp_val_opt' (c : cmpops W) (r : relop) (v : rep) (i : loc) : M W bool :=
    g <- has_value E i ;;
    if g then (a <- od_get E (OpTiny i) ;; rel_call' [i] c r v a)
    else ret (match r with REq => false | RNe => true | RLt => false
                         | RLe => false | RGt => true | RGe => true end).

  (** optional.h:2705-2747. *)
  Definition three_opt_opt' (c : cmpops W) (L R : operand) : M W ordering :=
    l <- od_has E L ;;
    g <- (if l then od_has E R else ret false) ;;
    if g
    then a <- od_get E L ;; b <- od_get E R ;; three_call' (operands [L; R]) c a b
    else l' <- od_has E L ;; g' <- od_has E R ;; ret (bool_three l' g').

  (** optional.h:2756-2763. *)
  Definition three_opt_val' (c : cmpops W) (i : loc) (v : rep) : M W ordering :=
    g <- has_value E i ;;
    if g then (a <- od_get E (OpTiny i) ;; three_call' [i] c a v) else ret OLess.

  (** optional.h:2398-2696. *)
  Definition declared' (c : cmpops W) (r : relop) (L R : operand) : M W bool :=
    match L, R with
    | OpTiny _, OpTiny _ | OpTiny _, OpStd _ | OpStd _, OpTiny _ => cmp_opt_opt' c r L R
    | OpTiny i, OpNull => cmp_opt_null E r i
    | OpNull, OpTiny i => cmp_null_opt E r i
    | OpTiny i, OpVal v => cmp_opt_val' c r i v
    | OpVal v, OpTiny i => cmp_val_opt' c r v i
    | _, _ => dead IllTyped
    end.

  (** optional.h:2705-2763. *)
  Definition declared3' (c : cmpops W) (L R : operand) : M W ordering :=
    match L, R with
    | OpTiny _, OpTiny _ | OpTiny _, OpStd _ | OpStd _, OpTiny _ => three_opt_opt' c L R
    | OpTiny i, OpNull => three_opt_null E i
    | OpTiny i, OpVal v => three_opt_val' c i v
    | _, _ => dead IllTyped
    end.

  Definition compare' (rt : route) (c : cmpops W) (r : relop) (L R : operand) : M W bool :=
    match rt with
    | RtDirect => declared' c r L R
    | RtRewritten rev =>
        let A := if rev then R else L in
        let B := if rev then L else R in
        match r with
        | REq => declared' c REq A B
        | RNe => not_ (declared' c REq A B)
        | _ => o <- declared3' c A B ;; ret (ord_test r (if rev then flip o else o))
        end
    end.

  (** optional.h:2737-2747. *)
  Definition three_way' (gcc : bool) (c : cmpops W) (L R : operand) : M W ordering :=
    match L, R with
    | OpTiny _, OpTiny _ | OpTiny _, OpStd _ => three_opt_opt' c L R
    | OpStd _, OpTiny _ =>
        if gcc then three_opt_opt' c L R
        else o <- three_opt_opt' c R L ;; ret (flip o)
    | OpTiny i, OpNull => three_opt_null E i
    | OpNull, OpTiny i => o <- three_opt_null E i ;; ret (flip o)
    | OpTiny i, OpVal v => three_opt_val' c i v
    | OpVal v, OpTiny i => o <- three_opt_val' c i v ;; ret (flip o)
    | _, _ => dead IllTyped
    end.

  (** optional.h:2786-2789, 2801-2804. *)
  Definition hash' (hf : rep -> W -> res N * W) (i : loc) : M W N :=
    b <- has_value E i ;;
    if b then (v <- od_get E (OpTiny i) ;; x <- h _ (PtHash i) (hf v) ;; lift_res x) else ret 0%N.

  (** [Program.v] *)
  Definition var_drop' (i : loc) : M W unit :=
    v <- load_payload E i ;;
    h _ PtClient (fun w => (tt, po_dtor (ops E i) v w)) ;;
    set_region i None ;;
    log (EvPayEnd i).
  Definition step' (o : op W) : M W obs :=
    match o with
    | ODefault i => unit_ (ctor_default E i)
    | ONullopt i => unit_ (ctor_nullopt E i)
    | OInPlace i n => unit_ (ctor_in_place' i n)
    | OCopyCtor i j => unit_ (ctor_copy' i j)
    | OMoveCtor i j => unit_ (ctor_move' i j)
    | ODtor i => unit_ (dtor' i)
    | OAssignNull i => unit_ (assign_nullopt' i)
    | OAssign i a => unit_ (assign' i a)
    | OCopyAssign i j => unit_ (assign_copy' i j)
    | OMoveAssign i j => unit_ (assign_move' i j)
    | OEmplace i n => unit_ (emplace' i n)
    | OReset i => unit_ (reset' i)
    | OSwap i j => unit_ (swap' i j)
    | OStdSwap i j k => unit_ (std_swap' i j k)
    | OHasValue i => bool_ (has_value E i)
    | OBool i => bool_ (op_bool E i)
    | OAccess k i c f => val_ (acc E k i ;; use_payload' i c f)
    | OValueOrCopy i d => val_ (value_or_copy' i d)
    | OValueOrMove i d => val_ (value_or_move' i d)
    | OAndThen k i c f => unit_ (and_then' k i c f)
    | OTransform k i c f nt => unit_ (transform' k i c f nt)
    | OOrElse k i mv f => unit_ (or_else' k i mv f)
    | OCompare m c r L R => bool_ (compare' m c r L R)
    | OThreeWay g c L R => o <- three_way' g c L R ;; ret (ObOrd o)
    | OHash hf i => x <- hash' hf i ;; ret (ObHash x)
    | OVarNew i v => unit_ (var_new E i v)
    | OVarDrop i => unit_ (var_drop' i)
    end.
  Fixpoint run' (p : list (op W)) (s : state W) : (list obs + fault) * state W :=
    match p with
    | [] => (inl [], s)
    | o :: p' =>
        match step' o s with
        | (Ok x, s') =>
            let (r, s'') := run' p' s' in
            (match r with inl xs => inl (x :: xs) | inr f => inr f end, s'')
        | (Throw e, s') =>
            let (r, s'') := run' p' s' in
            (match r with inl xs => inl (ObThrow e :: xs) | inr f => inr f end, s'')
        | (Dead f, s') => (inr f, s')
        end
    end.
End Again.

(** With user code that does not look, this is the model of the other files. *)
Theorem step_call W (E : env W) o : step' E (fun _ _ f => call f) o = step E o.
Proof. destruct o; reflexivity. Qed.

(** ** User code that asks *)

(** What user code does before its actual work: it may ask optionals for has_value(), one
    after the other, and depending on the answers change its own state. *)
Inductive inquiry (W : Type) : Type :=
| Enough (f : W -> W)
| AskFor (j : loc) (k : bool -> inquiry W).
Arguments Enough {W} f.
Arguments AskFor {W} j k.

Section Asking.
  Context {W : Type}.
  Variable E : env W.

  (** It calls [has_value()]. *)
  Fixpoint inquire (q : inquiry W) : M W (W -> W) :=
    match q with
    | Enough f => ret f
    | AskFor j k => b <- has_value E j ;; inquire (k b)
    end.

  (** User code that behaves as given, but first asks; [q] says what it asks, depending on
      where it is called from and on the state of the program. *)
  Definition asking (q : point -> W -> inquiry W) (A : Type) (pt : point) (f : W -> A * W)
    : M W A :=
    fun s => bind (inquire (q pt (world s))) (fun g => call (fun w => f (g w))) s.

  (** ** What it is told

      For every place that user code is called from: the optionals involved, and what their
      has_value() answers; [None]: the call is undefined behaviour.  The first entry for an
      optional counts. *)
  Definition answers (pt : point) : list (loc * option bool) :=
    let yes := map (fun j => (j, Some true)) in
    let begun i := (i, if d_sep (dec E i) then Some true else None) in
    match pt with
    | PtConstruct i src => begun i :: yes src
    | PtFunction k i => begun k :: yes [i]
    | PtDestroy i => yes [i]
    | PtAssign i src => yes (i :: src)
    | PtSwap i j => yes [i; j]
    | PtUse i => yes [i]
    | PtValueOr i b => [(i, Some b)]
    | PtOrElse i => [(i, Some false)]
    | PtCompare js => yes js
    | PtHash i => yes [i]
    | PtClient => []
    end.

  Fixpoint answer (l : list (loc * option bool)) (j : loc) : option (option bool) :=
    match l with
    | [] => None
    | (i, a) :: l' => if Nat.eqb i j then Some a else answer l' j
    end.

  (** User code whose questions about the optionals involved are answered from the table;
      questions about other optionals are answered by these. *)
  Fixpoint consult (l : list (loc * option bool)) (q : inquiry W) : M W (W -> W) :=
    match q with
    | Enough f => ret f
    | AskFor j k =>
        match answer l j with
        | Some (Some b) => consult l (k b)
        | Some None => dead NoObject
        | None => b <- has_value E j ;; consult l (k b)
        end
    end.
  Definition told (q : point -> W -> inquiry W) (A : Type) (pt : point) (f : W -> A * W)
    : M W A :=
    fun s => bind (consult (answers pt) (q pt (world s))) (fun g => call (fun w => f (g w))) s.
End Asking.

(** Without asking: what user code does if it is told these answers; [None] if it asks
    something else, or something that has no answer. *)
Fixpoint tell {W} (l : list (loc * option bool)) (x : inquiry W) : option (W -> W) :=
  match x with
  | Enough f => Some f
  | AskFor j k => match answer l j with Some (Some b) => tell l (k b) | _ => None end
  end.

(** ** The proof *)

Definition handler (W : Type) : Type := forall A, point -> (W -> A * W) -> M W A.

(** The answers of the table are those of has_value(). *)
Definition fits {W} (E : env W) (l : list (loc * option bool)) (s : state W) : Prop :=
  forall j a, answer l j = Some a ->
    has_value E j s = match a with Some b => (Ok b, s) | None => (Dead NoObject, s) end.

Section Proof.
  Context {W : Type}.
  Variable E : env W.
  Hypothesis HE : env_ok E.
  Variables hA hT : handler W.
  Hypothesis Hagree : forall A pt f s, fits E (answers E pt) s -> hA A pt f s = hT A pt f s.
  Hypothesis Hpolite : forall A pt f s,
    mem (snd (hT A pt f s)) = mem s /\
    match fst (hT A pt f s) with Throw _ => False | _ => True end.

  (** The storage of optionals has its size, and no payload exists in it next to a flag
      object in place. *)
  Definition wf (s : state W) : Prop :=
    forall i r, mem s i = Some r -> flag_obj r = true \/ d_sep (dec E i) = false ->
      length (cells r) = d_ssize (dec E i) /\
      (d_sep (dec E i) = false -> flag_obj r = true -> pay_obj r = false).

  Definition hv (i : loc) (b : bool) (s : state W) : Prop := has_value E i s = (Ok b, s).
  Definition fl (i : loc) (s : state W) : Prop :=
    exists r, mem s i = Some r /\ (flag_obj r = true \/ d_sep (dec E i) = false).
  Definition top {A} : A -> state W -> Prop := fun _ _ => True.
  Definition any : state W -> Prop := fun _ => True.

  (** Both do the same, from states with [P]; then [Q], or [X] after an exception. *)
  Definition EQ {A} (P : state W -> Prop) (m1 m2 : M W A) (Q : A -> state W -> Prop)
      (X : state W -> Prop) : Prop :=
    forall s, wf s -> P s ->
      m1 s = m2 s /\ wf (snd (m2 s)) /\
      (forall a s', m2 s = (Ok a, s') -> Q a s') /\
      (forall e s', m2 s = (Throw e, s') -> X s').

  Lemma eq_weak {A} (P P' : state W -> Prop) (m1 m2 : M W A) (Q Q' : A -> state W -> Prop) (X X' : state W -> Prop) :
    EQ P m1 m2 Q X -> (forall s, P' s -> P s) -> (forall a s, Q a s -> Q' a s) ->
    (forall s, X s -> X' s) -> EQ P' m1 m2 Q' X'.
  Proof.
    intros H HP HQ HX s Hi Hs. destruct (H s Hi (HP s Hs)) as (A1 & A2 & A3 & A4).
    split; [exact A1|]. split; [exact A2|]. split; intros; [apply HQ, A3|eapply HX, A4]; eauto.
  Qed.
  Lemma eq_pre {A} (P P' : state W -> Prop) (m1 m2 : M W A) Q X :
    EQ P m1 m2 Q X -> (forall s, P' s -> P s) -> EQ P' m1 m2 Q X.
  Proof. intros H HP. eapply eq_weak; eauto. Qed.
  Lemma eq_post {A} (P : state W -> Prop) (m1 m2 : M W A) (Q Q' : A -> state W -> Prop) X :
    EQ P m1 m2 Q X -> (forall a s, Q a s -> Q' a s) -> EQ P m1 m2 Q' X.
  Proof. intros H HP. eapply eq_weak; eauto. Qed.

  Lemma eq_ret {A} P (a : A) X : EQ P (ret a) (ret a) (fun _ => P) X.
  Proof.
    intros s Hi Hs. split; [reflexivity|]. split; [exact Hi|].
    split; intros ? ? Ho; inversion Ho; subst; exact Hs.
  Qed.
  Lemma eq_dead {A} P f (Q : A -> _) X : EQ P (dead f) (dead f) Q X.
  Proof.
    intros s Hi Hs. split; [reflexivity|]. split; [exact Hi|].
    split; intros ? ? Ho; inversion Ho.
  Qed.
  Lemma eq_throw {A} P e (Q : A -> _) : EQ P (throw e) (throw e) Q P.
  Proof.
    intros s Hi Hs. split; [reflexivity|]. split; [exact Hi|].
    split; intros ? ? Ho; inversion Ho; subst; exact Hs.
  Qed.
  Lemma eq_lift {A} P (r : res A) : EQ P (lift_res r) (lift_res r) (fun _ => P) P.
  Proof. destruct r; [apply eq_ret|apply eq_throw]. Qed.
  Lemma eq_bind {A B} P (m1 m2 : M W A) (k1 k2 : A -> M W B) R Q X :
    EQ P m1 m2 R X -> (forall a, EQ (R a) (k1 a) (k2 a) Q X) ->
    EQ P (bind m1 k1) (bind m2 k2) Q X.
  Proof.
    intros H1 H2 s Hi Hs. destruct (H1 s Hi Hs) as (A1 & A2 & A3 & A4).
    unfold bind. rewrite A1.
    destruct (m2 s) as [[a|e|f] s'] eqn:Ho; cbn in A2.
    - exact (H2 a s' A2 (A3 a s' eq_refl)).
    - split; [reflexivity|]. split; [exact A2|].
      split; intros ? ? Ho'; inversion Ho'; subst. eapply A4; reflexivity.
    - split; [reflexivity|]. split; [exact A2|]. split; intros ? ? Ho'; inversion Ho'.
  Qed.
  Lemma eq_noexcept {A} b P (m1 m2 : M W A) Q X :
    EQ P m1 m2 Q X -> EQ P (noexcept_if b m1) (noexcept_if b m2) Q X.
  Proof.
    intros H s Hi Hs. destruct (H s Hi Hs) as (A1 & A2 & A3 & A4).
    unfold noexcept_if. rewrite A1.
    destruct (m2 s) as [[a|e|f] s'] eqn:Ho; cbn in A2.
    - split; [reflexivity|]. split; [exact A2|]. split; intros ? ? Ho'; inversion Ho'; subst; eauto.
    - destruct b; (split; [reflexivity|]; split; [exact A2|];
        split; intros ? ? Ho'; inversion Ho'; subst; eauto).
    - split; [reflexivity|]. split; [exact A2|]. split; intros ? ? Ho'; inversion Ho'.
  Qed.
  Lemma eq_on_throw {A} P (m1 m2 : M W A) c1 c2 Q X1 X :
    EQ P m1 m2 Q X1 -> EQ X1 c1 c2 (fun _ => X) any ->
    EQ P (on_throw m1 c1) (on_throw m2 c2) Q X.
  Proof.
    intros H Hc s Hi Hs. destruct (H s Hi Hs) as (A1 & A2 & A3 & A4).
    unfold on_throw. rewrite A1.
    destruct (m2 s) as [[a|e|f] s'] eqn:Ho; cbn in A2.
    - split; [reflexivity|]. split; [exact A2|]. split; intros ? ? Ho'; inversion Ho'; subst; eauto.
    - destruct (Hc s' A2 (A4 _ _ eq_refl)) as (B1 & B2 & B3 & B4). rewrite B1.
      destruct (c2 s') as [[u|e'|f'] s''] eqn:Hc2; cbn in B2;
        (split; [reflexivity|]; split; [exact B2|]; split; intros ? ? Ho'; inversion Ho'; subst).
      eapply B3; reflexivity.
    - split; [reflexivity|]. split; [exact A2|]. split; intros ? ? Ho'; inversion Ho'.
  Qed.

  (** Code that only reads. *)
  Definition reads {A} (m : M W A) : Prop :=
    forall s, snd (m s) = s /\ match fst (m s) with Throw _ => False | _ => True end.
  Lemma eq_reads {A} P (m : M W A) X :
    reads m -> EQ P m m (fun a s => P s /\ m s = (Ok a, s)) X.
  Proof.
    intros H s Hi Hs. destruct (H s) as [H1 H2]. split; [reflexivity|].
    destruct (m s) as [o s'] eqn:Ho; cbn in H1, H2 |- *; subst s'. split; [exact Hi|].
    split; intros ? ? Ho'; inversion Ho'; subst; [split; assumption|contradiction].
  Qed.
  Lemma reads_bind {A B} (m : M W A) (k : A -> M W B) :
    reads m -> (forall a, reads (k a)) -> reads (bind m k).
  Proof.
    intros H1 H2 s. destruct (H1 s) as [H3 H4]. unfold bind.
    destruct (m s) as [[a|e|f] s']; cbn in H3, H4; subst s'; [apply H2|contradiction|].
    split; [reflexivity|exact I].
  Qed.
  Lemma reads_ret {A} (a : A) : reads (ret a). Proof. intros s; split; [reflexivity|exact I]. Qed.
  Lemma reads_dead {A} f : reads (@dead W A f). Proof. intros s; split; [reflexivity|exact I]. Qed.
  Lemma reads_get i : reads (get_region i).
  Proof. intros s. unfold get_region. destruct (mem s i); (split; [reflexivity|exact I]). Qed.
  Lemma reads_has i : reads (has_value E i).
  Proof.
    apply reads_bind; [|intros; apply reads_ret].
    apply reads_bind; [apply reads_get|]. intros r.
    destruct (_ || _); [destruct (m_is_empty _ _); [apply reads_ret|]|]; apply reads_dead.
  Qed.
  Lemma reads_not m : reads m -> reads (not_ m).
  Proof. intros H. apply reads_bind; [exact H|intros; apply reads_ret]. Qed.
  Lemma reads_same i j : reads (same_has E i j).
  Proof.
    apply reads_bind; [apply reads_has|]. intros a.
    apply reads_bind; [apply reads_has|]. intros b. apply reads_ret.
  Qed.
  Lemma reads_assert m : reads m -> reads (assert_ E m).
  Proof.
    intros H. unfold assert_. destruct (e_dbg E); [|apply reads_ret].
    apply reads_bind; [exact H|]. intros []; [apply reads_ret|apply reads_dead].
  Qed.
  Lemma reads_load i : reads (load_payload E i).
  Proof.
    apply reads_bind; [apply reads_get|]. intros r.
    destruct (pay_obj r); [apply reads_ret|apply reads_dead].
  Qed.
  Lemma reads_load_more l : reads (load_more E l).
  Proof.
    induction l as [|[j c] l IH]; [apply reads_ret|].
    apply reads_bind; [apply reads_load|]. intros v.
    apply reads_bind; [exact IH|]. intros vs. apply reads_ret.
  Qed.
  Lemma reads_od_has o : reads (od_has E o).
  Proof. destruct o; cbn; [apply reads_has|apply reads_ret|apply reads_dead|apply reads_dead]. Qed.
  Lemma reads_od_get o : reads (od_get E o).
  Proof.
    destruct o as [i|[v|]| |]; cbn; try apply reads_dead; [|apply reads_ret].
    apply reads_bind; [apply reads_assert, reads_has|]. intros _. apply reads_load.
  Qed.

  Lemma eq_has P i X :
    EQ P (has_value E i) (has_value E i) (fun b s => P s /\ hv i b s) X.
  Proof. apply eq_reads, reads_has. Qed.
  Lemma eq_read {A} P (m : M W A) X : reads m -> EQ P m m (fun _ => P) X.
  Proof. intros H. eapply eq_post; [apply eq_reads, H|]. intros a s [Hs _]. exact Hs. Qed.

  (** ** User code *)

  Definition pre (pt : point) : state W -> Prop := fits E (answers E pt).

  Definition on_mem (P : state W -> Prop) : Prop :=
    forall s s', mem s = mem s' -> P s -> P s'.

  Lemma wf_mem s s' : mem s = mem s' -> wf s -> wf s'.
  Proof. unfold wf. intros H. rewrite H. auto. Qed.

  Lemma eq_user {A} pt (f : W -> A * W) P X :
    on_mem P -> (forall s, P s -> pre pt s) ->
    EQ P (hA A pt f) (hT A pt f) (fun _ => P) X.
  Proof.
    intros HM HP s Hi Hs. split; [apply Hagree, HP, Hs|].
    destruct (Hpolite A pt f s) as [H1 H2].
    destruct (hT A pt f s) as [o s']; cbn in H1, H2 |- *.
    split; [apply (wf_mem s); [symmetry; exact H1|exact Hi]|].
    split; intros ? ? Ho; inversion Ho; subst; [|contradiction].
    apply (HM s); [symmetry; exact H1|exact Hs].
  Qed.

  (** has_value() depends on the memory only. *)
  Lemma hv_mem i b : on_mem (hv i b).
  Proof.
    intros s s' HM. unfold hv, has_value, fm_is_empty, bind, get_region. rewrite HM.
    destruct (mem s' i) as [r|]; [|discriminate].
    destruct (flag_obj r || _); [|discriminate].
    destruct (m_is_empty _ _); [|discriminate]. cbn. intros H; inversion H; reflexivity.
  Qed.
  Lemma fl_mem i : on_mem (fl i).
  Proof. intros s s' HM. unfold fl. rewrite HM. auto. Qed.
  Lemma top_mem : on_mem any. Proof. intros s s' _ _. exact I. Qed.
  Lemma and_mem P Q : on_mem P -> on_mem Q -> on_mem (fun s => P s /\ Q s).
  Proof. intros HP HQ s s' HM [H1 H2]. split; [eapply HP|eapply HQ]; eauto. Qed.

  Lemma hv_other i b s s' : mem s i = mem s' i -> hv i b s -> hv i b s'.
  Proof.
    intros HM. unfold hv, has_value, fm_is_empty, bind, get_region. rewrite HM.
    destruct (mem s' i) as [r|]; [|discriminate].
    destruct (flag_obj r || _); [|discriminate].
    destruct (m_is_empty _ _); [|discriminate]. cbn. intros H; inversion H; reflexivity.
  Qed.
  Lemma hv_fl i b s : hv i b s -> fl i s.
  Proof.
    unfold hv, has_value, fm_is_empty, bind, get_region, fl.
    destruct (mem s i) as [r|]; [|discriminate].
    intros H. exists r. split; [reflexivity|].
    destruct (flag_obj r); [left; reflexivity|]. cbn in H.
    destruct (pay_obj r && negb (d_sep (dec E i))) eqn:Hb; [|discriminate].
    apply andb_true_iff in Hb as [_ Hb]. right. now destruct (d_sep (dec E i)).
  Qed.
  Lemma has_mem j s s' o :
    mem s j = mem s' j -> has_value E j s = (o, s) -> has_value E j s' = (o, s').
  Proof.
    intros HM. unfold has_value, fm_is_empty, bind, get_region. rewrite HM.
    destruct (mem s' j) as [r|]; [|intros H; inversion H; reflexivity].
    destruct (flag_obj r || _); [|intros H; inversion H; reflexivity].
    destruct (m_is_empty _ _); intros H; inversion H; reflexivity.
  Qed.
  Lemma fits_mem l : on_mem (fits E l).
  Proof.
    intros s s' HM H j a Ha. specialize (H j a Ha).
    destruct a as [b|]; (eapply has_mem; [rewrite HM; reflexivity|exact H]).
  Qed.
  Lemma fits_yes l s : (forall j, In j l -> hv j true s) -> fits E (map (fun j => (j, Some true)) l) s.
  Proof.
    intros H j a. induction l as [|i l IH]; cbn; [discriminate|].
    destruct (Nat.eqb_spec i j) as [->|].
    - intros Ha; inversion Ha; subst. apply H. left; reflexivity.
    - apply IH. intros j' Hj'. apply H. right; exact Hj'.
  Qed.

  (** ** Memory *)

  Definition rok (i : loc) (r : region) : Prop :=
    flag_obj r = true \/ d_sep (dec E i) = false ->
    length (cells r) = d_ssize (dec E i) /\
    (d_sep (dec E i) = false -> flag_obj r = true -> pay_obj r = false).

  Lemma wf_upd s i r w t :
    wf s -> match r with Some r => rok i r | None => True end ->
    wf (MkState (upd (mem s) i r) w t).
  Proof.
    intros H Hr j r' Hj. cbn in Hj. unfold upd in Hj.
    destruct (Nat.eqb_spec i j) as [<-|].
    - subst r. exact Hr.
    - exact (H j r' Hj).
  Qed.

  Lemma eq_get (P : state W -> Prop) i (X : state W -> Prop) :
    EQ P (get_region i) (get_region i) (fun r s => P s /\ mem s i = Some r) X.
  Proof.
    intros s Hi Hs. split; [reflexivity|]. unfold get_region.
    destruct (mem s i) as [r|] eqn:Hm; cbn; (split; [exact Hi|]; split; intros ? ? Ho; inversion Ho; subst).
    split; assumption.
  Qed.
  Lemma eq_set (P : state W -> Prop) i r (Q : unit -> state W -> Prop) X :
    (forall s, wf s -> P s -> match r with Some r => rok i r | None => True end /\
       Q tt (MkState (upd (mem s) i r) (world s) (trace s))) ->
    EQ P (set_region i r) (set_region i r) Q X.
  Proof.
    intros H s Hi Hs. destruct (H s Hi Hs) as [H1 H2].
    split; [reflexivity|]. unfold set_region; cbn. split; [apply wf_upd; assumption|].
    split; intros u ? Ho; inversion Ho; subst; exact H2.
  Qed.
  Lemma eq_log P e X : on_mem P -> EQ P (log e) (log e) (fun _ => P) X.
  Proof.
    intros HM s Hi Hs. split; [reflexivity|]. unfold log; cbn.
    split; [apply (wf_mem s); [reflexivity|exact Hi]|].
    split; intros ? ? Ho; inversion Ho; subst. apply (HM s); [reflexivity|exact Hs].
  Qed.

  Definition stable (F : state W -> Prop) : Prop :=
    on_mem F /\
    forall s j r r' , mem s j = Some r -> flag_obj r' = flag_obj r -> F s ->
      F (MkState (upd (mem s) j (Some r')) (world s) (trace s)).
  Lemma stable_any : stable any.
  Proof. split; intros; repeat intro; exact I. Qed.
  Lemma stable_fl i : stable (fl i).
  Proof.
    split; [apply fl_mem|]. intros s j r r' Hj Hf (r0 & Hr & Ho).
    unfold fl; cbn. unfold upd. destruct (Nat.eqb_spec j i) as [->|].
    - exists r'. split; [reflexivity|]. rewrite Hf. rewrite Hj in Hr. inversion Hr; subst. exact Ho.
    - exists r0. split; assumption.
  Qed.

  Lemma dok i : decomp_ok (dec E i) /\ manip_ok (dec E i) (man E i).
  Proof. destruct (HE (e_tid E i)) as [H1 H2 _]. split; assumption. Qed.

  Lemma eq_store (F : state W -> Prop) j v (X : state W -> Prop) :
    stable F ->
    EQ F (store_payload E j v) (store_payload E j v) (fun _ => F) X.
  Proof.
    intros [HF1 HF2]. eapply eq_bind; [apply eq_get|]. intros r. cbn beta.
    destruct (pay_obj r) eqn:Hp; [|apply eq_dead].
    destruct (Nat.eqb_spec (length v) (d_psize (dec E j))) as [HL|]; [|apply eq_dead].
    apply eq_set. intros s Hi [Hs Hm]. split.
    - intros Ho. cbn [cells flag_obj pay_obj] in *. destruct (Hi j r Hm Ho) as [A1 A2].
      rewrite length_put; [|rewrite HL, A1; cbn; exact (do_pay _ (proj1 (dok j)))].
      split; [exact A1|]. intros B1 B2. rewrite (A2 B1 B2) in Hp. discriminate.
    - eapply HF2; eauto.
  Qed.

  Lemma eq_store_more (F : state W -> Prop) l vs (X : state W -> Prop) :
    stable F ->
    EQ F (store_more E l vs) (store_more E l vs) (fun _ => F) X.
  Proof.
    intros HF. revert vs. induction l as [|[j c] l IH]; intros vs0; [apply eq_ret|].
    destruct vs0 as [|v vs0]; [apply eq_ret|]. cbn [store_more].
    eapply eq_bind with (R := fun _ => F); [|intros _; apply IH].
    destruct c; [apply eq_ret|apply eq_store; assumption].
  Qed.

  Lemma sub_flag i c : length c = d_ssize (dec E i) ->
    length (sub (d_foff (dec E i)) (d_fsize (dec E i)) c) = d_fsize (dec E i).
  Proof. intros H. apply length_sub. rewrite H. exact (do_flag _ (proj1 (dok i))). Qed.

  (** What was true of other optionals stays true. *)
  Definition away (i : loc) (src : list loc) (s : state W) : Prop :=
    forall j, In j src -> j = i \/ hv j true s.
  Lemma away_upd i src s r w t :
    away i src s -> away i src (MkState (upd (mem s) i r) w t).
  Proof.
    intros H j Hj. destruct (Nat.eq_dec j i) as [->|Hn]; [left; reflexivity|].
    destruct (H j Hj) as [|Hh]; [left; assumption|]. right.
    eapply hv_other; [|exact Hh]. cbn. unfold upd.
    destruct (Nat.eqb_spec i j); [congruence|reflexivity].
  Qed.
  Lemma away_mem i src : on_mem (away i src).
  Proof.
    intros s s' HM H j Hj. destruct (H j Hj) as [|Hh]; [left; assumption|].
    right. eapply hv_mem; eauto.
  Qed.

  Lemma eq_alloc i src X :
    EQ (away i src) (alloc E i) (alloc E i) (fun _ s => away i src s /\ fl i s) X.
  Proof.
    intros s Hi Hs. split; [reflexivity|]. unfold alloc.
    destruct (mem s i) as [r|] eqn:Hm; cbn.
    - split; [exact Hi|]. split; intros ? ? Ho; inversion Ho.
    - split.
      + apply wf_upd; [exact Hi|]. intros _. cbn. split; [apply length_indets|reflexivity].
      + split; intros ? ? Ho; inversion Ho; subst. split; [apply away_upd, Hs|].
        eexists. cbn. unfold upd. rewrite Nat.eqb_refl. split; [reflexivity|]. cbn.
        destruct (d_sep (dec E i)); auto.
  Qed.

  Lemma eq_fm_init i src X :
    EQ (fun s => away i src s /\ fl i s) (fm_init E i) (fm_init E i)
       (fun _ s => away i src s /\ fl i s) X.
  Proof.
    assert (HM : on_mem (fun s => away i src s /\ fl i s))
      by (apply and_mem; [apply away_mem|apply fl_mem]).
    intros s Hi [Hs (r & Hm & Ho)].
    enough (G : EQ (fun s' => s' = s) (fm_init E i) (fm_init E i)
                   (fun _ s => away i src s /\ fl i s) X) by (apply G; [exact Hi|reflexivity]).
    unfold fm_init. eapply eq_bind; [instantiate (1 := fun r' s' => s' = s /\ r' = r)|].
    - intros s' Hi' ->. split; [reflexivity|]. unfold get_region. rewrite Hm. cbn.
      split; [exact Hi|]. split; intros ? ? Hx; inversion Hx; subst; split; reflexivity.
    - intros r'. destruct (negb (d_sep (dec E i)) && (flag_obj r' || pay_obj r')) eqn:Hg;
        [apply eq_dead|].
      eapply eq_bind with (R := fun _ s => away i src s /\ fl i s);
        [|intros _; destruct (d_sep (dec E i)); [apply eq_ret|apply eq_log, HM]].
      apply eq_set. intros s' _ [-> ->]. destruct (dok i) as [D F].
      destruct (Hi i r Hm Ho) as [A1 A2]. split.
      + intros _. cbn. rewrite length_put.
        * split; [exact A1|]. intros B1 _. rewrite B1 in Hg. cbn in Hg.
          apply orb_false_iff in Hg as [_ Hg]. exact Hg.
        * rewrite (mo_init_len _ _ F), A1 by (apply sub_flag, A1). exact (do_flag _ D).
      + split; [apply away_upd, Hs|]. eexists. cbn. unfold upd. rewrite Nat.eqb_refl.
        split; [reflexivity|]. left; reflexivity.
  Qed.
  Lemma eq_fm_init' i X : EQ (fl i) (fm_init E i) (fm_init E i) (fun _ => fl i) X.
  Proof.
    eapply eq_weak with (X := X); [apply (eq_fm_init i [])| | |auto].
    - intros s H. split; [intros j []|exact H].
    - intros a s [_ H]. exact H.
  Qed.

  Definition begun i := (i, if d_sep (dec E i) then Some true else None).

  Lemma eq_fm_invalidate i src X :
    EQ (away i src) (fm_invalidate E i) (fm_invalidate E i)
       (fun _ s => fits E (begun i :: map (fun j => (j, Some true)) src) s /\ fl i s) X.
  Proof.
    set (R := fun s => fits E (begun i :: map (fun j => (j, Some true)) src) s /\ fl i s).
    assert (HM : on_mem R) by (apply and_mem; [apply fits_mem|apply fl_mem]).
    intros s Hi Hs.
    enough (G : EQ (fun s' => s' = s) (fm_invalidate E i) (fm_invalidate E i)
                   (fun _ => R) X) by (apply G; [exact Hi|reflexivity]).
    unfold fm_invalidate.
    destruct (mem s i) as [r|] eqn:Hm.
    2:{ intros s' Hi' ->. split; [reflexivity|]. unfold bind, get_region. rewrite Hm. cbn.
        split; [exact Hi|]. split; intros ? ? Hx; inversion Hx. }
    eapply eq_bind; [instantiate (1 := fun r' s' => s' = s /\ r' = r)|].
    - intros s' Hi' ->. split; [reflexivity|]. unfold get_region. rewrite Hm. cbn.
      split; [exact Hi|]. split; intros ? ? Hx; inversion Hx; subst; split; reflexivity.
    - intros r'. destruct (flag_obj r') eqn:Hg; [|apply eq_dead].
      destruct (d_sep (dec E i) || _); [|apply eq_dead].
      eapply eq_bind with (R := fun _ => R);
        [|intros _; destruct (d_sep (dec E i)); [apply eq_ret|apply eq_log, HM]].
      apply eq_set. intros s' _ [-> ->]. destruct (dok i) as [D F].
      destruct (Hi i r Hm (or_introl Hg)) as [A1 A2].
      assert (HL : length (sub (d_foff (dec E i)) (d_fsize (dec E i)) (cells r)) = d_fsize (dec E i))
        by (apply sub_flag, A1).
      split; [|split].
      + intros _. cbn. rewrite length_put.
        * split; [exact A1|]. intros B1 _. apply A2; assumption.
        * rewrite (mo_inval_len _ _ F), A1 by exact HL. exact (do_flag _ D).
      + intros j a. cbn [answer begun]. destruct (Nat.eqb_spec i j) as [<-|Hn].
        * intros Ha. inversion Ha; subst a; clear Ha.
          unfold has_value, fm_is_empty, bind, get_region. cbn [mem]. unfold upd.
          rewrite Nat.eqb_refl. cbn [flag_obj pay_obj cells].
          destruct (d_sep (dec E i)) eqn:Hsep; cbn [orb negb].
          -- pose proof (mo_inval_len _ _ F _ HL) as HL2.
             rewrite (sub_put_same' (d_foff (dec E i)) (d_fsize (dec E i))).
             ++ rewrite (mo_inval _ _ F) by assumption. reflexivity.
             ++ exact HL2.
             ++ rewrite A1. exact (do_flag _ D).
          -- rewrite (A2 eq_refl Hg). reflexivity.
        * intros Ha.
          assert (Hall : forall k, In k (filter (fun x => negb (Nat.eqb i x)) src) ->
                     hv k true (MkState (upd (mem s) i (Some (MkRegion
                       (put (d_foff (dec E i)) (m_inval (man E i) (sub (d_foff (dec E i)) (d_fsize (dec E i)) (cells r))) (cells r))
                       (d_sep (dec E i)) (pay_obj r)))) (world s) (trace s))).
          { intros k Hk. apply filter_In in Hk as [Hk Hne].
            destruct (away_upd i src s (Some (MkRegion
                       (put (d_foff (dec E i)) (m_inval (man E i) (sub (d_foff (dec E i)) (d_fsize (dec E i)) (cells r))) (cells r))
                       (d_sep (dec E i)) (pay_obj r))) (world s) (trace s) Hs k Hk) as [->|Hh].
            - rewrite Nat.eqb_refl in Hne. discriminate.
            - exact Hh. }
          apply (fits_yes _ _ Hall). clear -Ha Hn.
          induction src as [|x l IH]; cbn in Ha |- *; [discriminate|].
          destruct (Nat.eqb_spec i x) as [->|Hx]; cbn.
          -- destruct (Nat.eqb_spec x j); [congruence|]. apply IH, Ha.
          -- destruct (Nat.eqb_spec x j); [exact Ha|apply IH, Ha].
      + eexists. cbn. unfold upd. rewrite Nat.eqb_refl. split; [reflexivity|]. cbn.
        destruct (d_sep (dec E i)); auto.
  Qed.

  Lemma eq_any {A} P (m1 m2 : M W A) X : EQ any m1 m2 (fun _ => any) X -> EQ P m1 m2 (fun _ => any) X.
  Proof. intros H. eapply eq_pre; [exact H|]. intros s _. exact I. Qed.

  Lemma eq_dealloc i P X : EQ P (dealloc E i) (dealloc E i) (fun _ => any) X.
  Proof.
    apply eq_any. unfold dealloc.
    assert (HL : forall (b : bool) e,
      EQ any (if b then log e else ret tt) (if b then log e else ret tt) (fun _ => any) X).
    { intros [] e; [apply eq_log, top_mem|apply eq_ret]. }
    eapply eq_bind; [apply (eq_get any)|]. intros r. apply eq_any.
    eapply eq_bind with (R := fun _ => any); [apply HL|intros _].
    eapply eq_bind with (R := fun _ => any); [apply HL|intros _].
    apply eq_set. intros s' _ _. split; exact I.
  Qed.

  (** ** The functions of the library *)

  Lemma eq_rd {A B} P (m : M W A) (k1 k2 : A -> M W B) Q X :
    reads m -> (forall a, EQ P (k1 a) (k2 a) Q X) -> EQ P (bind m k1) (bind m k2) Q X.
  Proof. intros H1 H2. eapply eq_bind; [apply (eq_read P), H1|exact H2]. Qed.
  Lemma eq_hs {B} (P : state W -> Prop) i (k1 k2 : bool -> M W B) Q X :
    (forall b, EQ (fun s => P s /\ hv i b s) (k1 b) (k2 b) Q X) ->
    EQ P (bind (has_value E i) k1) (bind (has_value E i) k2) Q X.
  Proof. intros H2. eapply eq_bind; [apply eq_has|exact H2]. Qed.
  Lemma eq_seq {A B} P (m1 m2 : M W A) (k1 k2 : A -> M W B) X :
    EQ P m1 m2 (fun _ => any) X -> (forall a, EQ any (k1 a) (k2 a) (fun _ => any) X) ->
    EQ P (bind m1 k1) (bind m2 k2) (fun _ => any) X.
  Proof. intros H1 H2. eapply eq_bind; [exact H1|exact H2]. Qed.
  Ltac rdx := repeat first [apply reads_has|apply reads_not|apply reads_same|apply reads_assert
       |apply reads_load|apply reads_load_more|apply reads_od_has|apply reads_od_get|apply reads_ret].
  Ltac rd := apply eq_rd; [solve [rdx]|let a := fresh "a" in intros a].
  Ltac rd_end := apply eq_any; apply (eq_read any); solve [rdx].

  Lemma eq_run_ini pt n F :
    stable F ->
    EQ (fun s => pre pt s /\ F s) (run_ini' E hA pt n) (run_ini' E hT pt n) (fun _ => F) F.
  Proof.
    intros HF. unfold run_ini'.
    eapply eq_bind with (R := fun _ s => pre pt s /\ F s).
    { destruct (i_src n); apply eq_read; [apply reads_load|apply reads_ret]. }
    intros src. rd.
    eapply eq_bind with (R := fun _ => F).
    { eapply eq_post; [apply (eq_user pt _ (fun s => pre pt s /\ F s))|].
      - apply and_mem; [apply fits_mem|apply HF].
      - intros s H; apply H.
      - intros x s H; apply H. }
    intros p. eapply eq_bind with (R := fun _ => F).
    { destruct (i_src n); [destruct (i_const n)|]; try apply eq_ret. apply eq_store, HF. }
    intros _. eapply eq_bind with (R := fun _ => F); [apply eq_store_more, HF|].
    intros _. apply eq_lift.
  Qed.

  Lemma eq_placement_new pt i n :
    EQ (fun s => pre pt s /\ fl i s) (placement_new' E hA pt i n) (placement_new' E hT pt i n)
       (fun _ => any) (fl i).
  Proof.
    unfold placement_new'. eapply eq_bind; [apply eq_run_ini, stable_fl|]. intros v.
    eapply eq_bind; [apply eq_get|]. intros r. cbn beta.
    destruct (pay_obj r || (flag_obj r && negb (d_sep (dec E i)))) eqn:Hg; [apply eq_dead|].
    destruct (Nat.eqb_spec (length v) (d_psize (dec E i))) as [HL|]; [|apply eq_dead].
    eapply eq_bind with (R := fun _ => any); [|intros _; apply eq_log, top_mem].
    apply eq_set. intros s Hi [Hs Hm]. split; [|exact I].
    intros Ho. cbn [cells flag_obj pay_obj] in *. destruct (Hi i r Hm Ho) as [A1 A2].
    rewrite length_put by (rewrite HL, A1; exact (do_pay _ (proj1 (dok i)))).
    split; [exact A1|]. intros B1 B2. rewrite B1, B2 in Hg. cbn in Hg.
    rewrite orb_true_r in Hg. discriminate.
  Qed.

  Lemma eq_construct pt i n src (nt : bool) :
    pre pt = fits E (begun i :: map (fun j => (j, Some true)) src) ->
    EQ (away i src)
       (assert_ E (not_ (has_value E i)) ;;
        fm_invalidate E i ;;
        (if nt then placement_new' E hA pt i n
         else on_throw (placement_new' E hA pt i n) (fm_init E i)) ;;
        assert_ E (has_value E i))
       (assert_ E (not_ (has_value E i)) ;;
        fm_invalidate E i ;;
        (if nt then placement_new' E hT pt i n
         else on_throw (placement_new' E hT pt i n) (fm_init E i)) ;;
        assert_ E (has_value E i)) (fun _ => any) any.
  Proof.
    intros Hp. rd. eapply eq_bind; [apply (eq_fm_invalidate i src)|]. intros u. cbn beta. rewrite <- Hp.
    eapply eq_bind with (R := fun _ => any); [|intros _; rd_end].
    destruct nt.
    - eapply eq_weak; [apply eq_placement_new| | |]; auto. intros; exact I.
    - eapply eq_on_throw; [apply eq_placement_new|].
      eapply eq_post; [apply eq_fm_init'|]. intros; exact I.
  Qed.

  Lemma away_nil i s : away i [] s.
  Proof. intros j []. Qed.
  Lemma away_one i j s : hv j true s -> away i [j] s.
  Proof. intros H k [<-|[]]. right; exact H. Qed.

  Lemma eq_construct_payload src i n :
    EQ (away i src) (construct_payload' E hA src i n) (construct_payload' E hT src i n)
       (fun _ => any) any.
  Proof. apply eq_noexcept, eq_construct. reflexivity. Qed.
  Lemma eq_construct_from src i n :
    EQ (away i [src]) (construct_payload_from_function' E hA src i n)
       (construct_payload_from_function' E hT src i n) (fun _ => any) any.
  Proof. apply eq_noexcept, eq_construct. reflexivity. Qed.

  Lemma eq_destroy i :
    EQ (hv i true) (destroy_payload' E hA i) (destroy_payload' E hT i) (fun _ => fl i) any.
  Proof.
    unfold destroy_payload'. eapply eq_bind; [apply eq_get|]. intros r. cbn beta.
    destruct (pay_obj r) eqn:Hp; [|apply eq_dead].
    eapply eq_bind.
    { apply (eq_user (PtDestroy i) _ (fun s => hv i true s /\ mem s i = Some r)).
      - apply and_mem; [apply hv_mem|]. intros s s' HM. rewrite HM. auto.
      - intros s [H _]. apply (fits_yes [i]). intros j [<-|[]]. exact H. }
    intros u. cbn beta.
    eapply eq_bind with (R := fun _ => fl i); [|intros _; apply eq_log, fl_mem].
    apply eq_set. intros s Hi [Hs Hm]. destruct (hv_fl _ _ _ Hs) as (r' & Hr & Ho).
    rewrite Hm in Hr. inversion Hr; subst r'. destruct (Hi i r Hm Ho) as [A1 A2]. split.
    - intros _. cbn [cells flag_obj pay_obj].
      rewrite length_put
        by (rewrite length_indets, A1; exact (do_pay _ (proj1 (dok i)))).
      split; [exact A1|]. intros; reflexivity.
    - eexists. cbn. unfold upd. rewrite Nat.eqb_refl. split; [reflexivity|]. exact Ho.
  Qed.

  Lemma eq_storage_dtor P i :
    EQ P (storage_dtor' E hA i) (storage_dtor' E hT i) (fun _ => any) any.
  Proof.
    apply eq_any, eq_noexcept. apply eq_hs. intros b.
    apply eq_seq; [|intros u; apply eq_dealloc].
    destruct b; [|apply eq_any, eq_ret].
    eapply eq_weak; [apply eq_destroy| | |]; [intros s [_ H]; exact H|intros; exact I|auto].
  Qed.

  Lemma eq_storage_default i src :
    EQ (fun s => away i src s /\ fl i s) (storage_default E i) (storage_default E i)
       (fun _ s => away i src s /\ fl i s) any.
  Proof.
    apply eq_noexcept. eapply eq_bind; [apply eq_fm_init|]. intros u.
    apply eq_read. rdx.
  Qed.

  Definition all_hv (src : list loc) (s : state W) : Prop := forall j, In j src -> hv j true s.
  Lemma all_away i src s : all_hv src s -> away i src s.
  Proof. intros H j Hj. right. apply H, Hj. Qed.

  Lemma eq_assign_payload src i a :
    EQ (all_hv (i :: src)) (assign_payload' E hA src i a) (assign_payload' E hT src i a)
       (fun _ => any) any.
  Proof.
    assert (HU : forall A (f : W -> A * W),
      EQ (all_hv (i :: src)) (hA A (PtAssign i src) f) (hT A (PtAssign i src) f)
         (fun _ => any) any).
    { intros A f. eapply eq_post; [apply eq_user|].
      - intros s s' HM H j Hj. eapply hv_mem; [exact HM|apply H, Hj].
      - intros s H. apply (fits_yes (i :: src)). exact H.
      - intros; exact I. }
    assert (HS : forall j v, EQ any (store_payload E j v) (store_payload E j v) (fun _ => any) any)
      by (intros; apply eq_store, stable_any).
    unfold assign_payload'. destruct (i_src (a_ini a)) as [j|].
    - destruct (Nat.eqb i j).
      + rd. apply eq_seq; [apply HU|]. intros p. apply eq_seq; [apply HS|]. intros u. apply eq_lift.
      + rd. rd. apply eq_seq; [apply HU|]. intros p. apply eq_seq; [apply HS|]. intros u.
        apply eq_seq; [destruct (i_const (a_ini a)); [apply eq_ret|apply HS]|]. intros u'.
        apply eq_lift.
    - rd. apply eq_seq; [apply HU|]. intros p. apply eq_seq; [apply HS|]. intros u. apply eq_lift.
  Qed.

  Lemma eq_assign_value src i a :
    EQ (all_hv src) (assign_value' E hA src i a) (assign_value' E hT src i a) (fun _ => any) any.
  Proof.
    unfold assign_value'. apply eq_hs. intros b. apply eq_seq; [|intros u; rd_end].
    destruct b.
    - eapply eq_pre; [apply eq_assign_payload|]. intros s [H1 H2] j [<-|Hj]; [exact H2|apply H1, Hj].
    - eapply eq_pre; [apply eq_construct_payload|]. intros s [H1 _]. apply all_away, H1.
  Qed.

  Lemma eq_reset P i : EQ P (reset' E hA i) (reset' E hT i) (fun _ => any) any.
  Proof.
    apply eq_any, eq_noexcept. apply eq_hs. intros [|]; [|apply eq_any, eq_ret].
    eapply eq_bind.
    { eapply eq_pre; [apply eq_destroy|]. intros s [_ H]; exact H. }
    intros u. cbn beta. eapply eq_bind; [apply eq_fm_init'|]. intros u'. rd_end.
  Qed.

  Lemma eq_ctor_in_place P i n :
    EQ P (ctor_in_place' E hA i n) (ctor_in_place' E hT i n) (fun _ => any) any.
  Proof.
    apply eq_any. unfold ctor_in_place'. eapply eq_bind.
    { eapply eq_pre; [apply (eq_alloc i [])|]. intros s _. apply away_nil. }
    intros u. cbn beta. eapply eq_on_throw; [|apply eq_dealloc].
    eapply eq_bind; [apply eq_fm_init|]. intros u'. cbn beta.
    eapply eq_pre; [apply eq_construct_payload|]. intros s [H _]; exact H.
  Qed.
  Lemma eq_ctor_from src i n :
    EQ (hv src true) (ctor_from_function' E hA src i n) (ctor_from_function' E hT src i n)
       (fun _ => any) any.
  Proof.
    unfold ctor_from_function'. eapply eq_bind.
    { eapply eq_pre; [apply (eq_alloc i [src])|]. intros s H. apply away_one, H. }
    intros u. cbn beta. eapply eq_on_throw; [|apply eq_dealloc].
    eapply eq_bind; [apply eq_fm_init|]. intros u'. cbn beta.
    eapply eq_pre; [apply eq_construct_from|]. intros s [H _]; exact H.
  Qed.
  Lemma eq_ctor_default P i :
    EQ P (ctor_default E i) (ctor_default E i) (fun _ => any) any.
  Proof.
    apply eq_any. unfold ctor_default. eapply eq_bind.
    { eapply eq_pre; [apply (eq_alloc i [])|]. intros s _. apply away_nil. }
    intros u. cbn beta. eapply eq_post; [apply eq_storage_default|]. intros; exact I.
  Qed.

  Lemma eq_same_type {A} i j P (m1 m2 : M W A) Q X :
    EQ P m1 m2 Q X -> EQ P (same_type E i j m1) (same_type E i j m2) Q X.
  Proof. intros H. unfold same_type. destruct (Nat.eqb _ _); [exact H|apply eq_dead]. Qed.

  Lemma eq_ctor_body i j n :
    EQ (fun s => away i [] s /\ fl i s)
       (storage_default E i ;;
        on_throw
          (b <- has_value E j ;;
           (if b then construct_payload' E hA [j] i n else assert_ E (not_ (has_value E i))) ;;
           assert_ E (same_has E i j))
          (storage_dtor' E hA i))
       (storage_default E i ;;
        on_throw
          (b <- has_value E j ;;
           (if b then construct_payload' E hT [j] i n else assert_ E (not_ (has_value E i))) ;;
           assert_ E (same_has E i j))
          (storage_dtor' E hT i))
       (fun _ => any) any.
  Proof.
    eapply eq_bind; [apply eq_storage_default|]. intros u. cbn beta.
    eapply eq_on_throw; [|apply (eq_storage_dtor any)].
    apply eq_hs. intros b. apply eq_seq; [|intros u'; rd_end].
    destruct b; [|rd_end].
    eapply eq_pre; [apply eq_construct_payload|]. intros s [_ H]. apply away_one, H.
  Qed.
  Lemma eq_ctor_move P i j :
    EQ P (ctor_move' E hA i j) (ctor_move' E hT i j) (fun _ => any) any.
  Proof.
    apply eq_any, eq_same_type. eapply eq_bind.
    { eapply eq_pre; [apply (eq_alloc i [])|]. intros s _. apply away_nil. }
    intros u. cbn beta. apply eq_noexcept. apply eq_ctor_body.
  Qed.
  Lemma eq_ctor_copy P i j :
    EQ P (ctor_copy' E hA i j) (ctor_copy' E hT i j) (fun _ => any) any.
  Proof.
    apply eq_any, eq_same_type. eapply eq_bind.
    { eapply eq_pre; [apply (eq_alloc i [])|]. intros s _. apply away_nil. }
    intros u. cbn beta. apply eq_ctor_body.
  Qed.

  Lemma eq_assign_from i j a :
    EQ any
       (b <- has_value E j ;;
        (if b then assign_value' E hA [j] i a else reset' E hA i) ;;
        assert_ E (same_has E i j))
       (b <- has_value E j ;;
        (if b then assign_value' E hT [j] i a else reset' E hT i) ;;
        assert_ E (same_has E i j)) (fun _ => any) any.
  Proof.
    apply eq_hs. intros b. apply eq_seq; [|intros u; rd_end].
    destruct b; [|apply eq_reset].
    eapply eq_pre; [apply eq_assign_value|]. intros s [_ H] k [<-|[]]. exact H.
  Qed.
  Lemma eq_assign_move P i j :
    EQ P (assign_move' E hA i j) (assign_move' E hT i j) (fun _ => any) any.
  Proof. apply eq_any, eq_same_type, eq_noexcept, eq_assign_from. Qed.
  Lemma eq_assign_copy P i j :
    EQ P (assign_copy' E hA i j) (assign_copy' E hT i j) (fun _ => any) any.
  Proof. apply eq_any, eq_same_type, eq_assign_from. Qed.

  Lemma eq_emplace P i n : EQ P (emplace' E hA i n) (emplace' E hT i n) (fun _ => any) any.
  Proof.
    apply eq_seq; [apply eq_reset|]. intros u. apply eq_seq; [|intros u'; rd_end].
    eapply eq_pre; [apply eq_construct_payload|]. intros s _. apply away_nil.
  Qed.

  Lemma eq_one {A} pt (f : W -> A * W) i b (P : state W -> Prop) :
    answers E pt = [(i, Some b)] -> (forall s, P s -> hv i b s) ->
    EQ P (hA A pt f) (hT A pt f) (fun _ => any) any.
  Proof.
    intros Ha HP. eapply eq_weak with (X := any);
      [apply (eq_user pt f (hv i b))|exact HP|intros; exact I|auto].
    - apply hv_mem.
    - intros s H j a. rewrite Ha. cbn. destruct (Nat.eqb_spec i j) as [<-|]; [|discriminate].
      intros Hx; inversion Hx; subst. exact H.
  Qed.

  Lemma eq_value_or (P : state W -> Prop) i n d :
    EQ P (b <- has_value E i ;;
          if b then run_ini' E hA (PtValueOr i true) n else run_ini' E hA (PtValueOr i false) d)
         (b <- has_value E i ;;
          if b then run_ini' E hT (PtValueOr i true) n else run_ini' E hT (PtValueOr i false) d)
         (fun _ => any) any.
  Proof.
    apply eq_hs. intros b.
    assert (G : forall s, P s /\ hv i b s -> pre (PtValueOr i b) s /\ any s).
    { intros s [_ H]. split; [|exact I]. intros j a. cbn.
      destruct (Nat.eqb_spec i j) as [<-|]; [|discriminate].
      intros Hx; inversion Hx; subst. exact H. }
    destruct b; (eapply eq_pre; [apply eq_run_ini, stable_any|exact G]).
  Qed.

  Lemma eq_use P i c f :
    EQ P (use_payload' E hA i c f) (use_payload' E hT i c f) (fun _ => any) any.
  Proof.
    apply eq_any. unfold use_payload'. rd. eapply eq_bind with (R := fun _ => any).
    { apply eq_user; [apply top_mem|]. intros s _ j x. discriminate. }
    intros p. apply eq_seq; [destruct c; [apply eq_ret|apply eq_store, stable_any]|].
    intros u. apply eq_lift.
  Qed.

  Lemma eq_swap_payloads i j :
    EQ (fun s => hv i true s /\ hv j true s) (swap_payloads' E hA i j) (swap_payloads' E hT i j)
       (fun _ => any) any.
  Proof.
    assert (HU : forall A (f : W -> A * W),
      EQ (fun s => hv i true s /\ hv j true s) (hA A (PtSwap i j) f) (hT A (PtSwap i j) f)
         (fun _ => any) any).
    { intros A f. eapply eq_post; [apply eq_user|].
      - apply and_mem; apply hv_mem.
      - intros s [H1 H2]. apply (fits_yes [i; j]). intros k [<-|[<-|[]]]; assumption.
      - intros; exact I. }
    assert (HS : forall j v, EQ any (store_payload E j v) (store_payload E j v) (fun _ => any) any)
      by (intros; apply eq_store, stable_any).
    unfold swap_payloads'. destruct (Nat.eqb i j).
    - rd. apply eq_seq; [apply HU|]. intros p. apply eq_seq; [apply HS|]. intros u. apply eq_lift.
    - rd. rd. apply eq_seq; [apply HU|]. intros p. apply eq_seq; [apply HS|]. intros u.
      apply eq_seq; [apply HS|]. intros u'. apply eq_lift.
  Qed.

  Lemma eq_swap P i j : EQ P (swap' E hA i j) (swap' E hT i j) (fun _ => any) any.
  Proof.
    apply eq_any, eq_same_type, eq_noexcept. apply eq_hs. intros a. apply eq_hs. intros b.
    destruct (Bool.eqb_spec a b) as [<-|Hn].
    - destruct a; [|apply eq_any, eq_ret].
      eapply eq_pre; [apply eq_swap_payloads|]. intros s [[_ H1] H2]. split; assumption.
    - destruct a.
      + apply eq_seq; [|intros u; apply eq_reset].
        eapply eq_pre; [apply eq_construct_payload|]. intros s [[_ H] _]. apply away_one, H.
      + apply eq_seq; [|intros u; apply eq_reset].
        destruct b; [|congruence].
        eapply eq_pre; [apply eq_construct_payload|]. intros s [_ H]. apply away_one, H.
  Qed.

  Lemma eq_std_swap P i j k : EQ P (std_swap' E hA i j k) (std_swap' E hT i j k) (fun _ => any) any.
  Proof.
    apply eq_any, eq_same_type, eq_noexcept. apply eq_seq; [apply eq_ctor_move|]. intros u.
    apply eq_seq; [|intros u'; apply eq_storage_dtor].
    eapply eq_on_throw; [|apply (eq_storage_dtor any)].
    apply eq_seq; [apply eq_assign_move|]. intros u'. apply eq_assign_move.
  Qed.

  Lemma eq_build_result P k o :
    EQ P (build_result' E hA k o) (build_result' E hT k o) (fun _ => any) any.
  Proof. destruct o; [apply eq_ctor_in_place|apply eq_ctor_default]. Qed.

  Lemma eq_and_then P k i c f :
    EQ P (and_then' E hA k i c f) (and_then' E hT k i c f) (fun _ => any) any.
  Proof.
    unfold and_then'. apply eq_hs. intros [|]; [|apply eq_ctor_default].
    unfold op_deref. rd. rd. apply eq_seq; [apply (eq_one _ _ i true); [reflexivity|]; intros s H; apply H|].
    intros p. apply eq_seq; [destruct c; [apply eq_ret|apply eq_store, stable_any]|]. intros u.
    apply eq_seq; [apply eq_lift|]. intros o. apply eq_build_result.
  Qed.
  Lemma eq_transform P k i c f nt :
    EQ P (transform' E hA k i c f nt) (transform' E hT k i c f nt) (fun _ => any) any.
  Proof.
    unfold transform'. apply eq_hs. intros [|]; [|apply eq_ctor_default].
    unfold op_deref. rd. eapply eq_pre; [apply eq_ctor_from|]. intros s H; apply H.
  Qed.
  Lemma eq_or_else P k i mv f :
    EQ P (or_else' E hA k i mv f) (or_else' E hT k i mv f) (fun _ => any) any.
  Proof.
    apply eq_same_type. apply eq_hs. intros [|].
    - destruct mv; [apply eq_ctor_move|apply eq_ctor_copy].
    - apply eq_seq; [apply (eq_one _ _ i false); [reflexivity|]; intros s H; apply H|]. intros r.
      apply eq_seq; [apply eq_lift|]. intros o. apply eq_build_result.
  Qed.

  Definition oh (o : operand) (b : bool) (s : state W) : Prop :=
    match o with OpTiny i => hv i b s | _ => True end.
  Lemma eq_od {B} (P : state W -> Prop) o (k1 k2 : bool -> M W B) Q X :
    (forall b, EQ (fun s => P s /\ oh o b s) (k1 b) (k2 b) Q X) ->
    EQ P (bind (od_has E o) k1) (bind (od_has E o) k2) Q X.
  Proof.
    intros H. destruct o as [i|x| |v]; cbn [od_has].
    - apply eq_hs, H.
    - eapply eq_bind; [apply eq_ret|]. intros b. eapply eq_pre; [apply H|].
      intros s Hs. split; [exact Hs|exact I].
    - eapply eq_bind with (R := fun _ => P); [apply eq_dead|]. intros b. eapply eq_pre; [apply H|].
      intros s Hs. split; [exact Hs|exact I].
    - eapply eq_bind with (R := fun _ => P); [apply eq_dead|]. intros b. eapply eq_pre; [apply H|].
      intros s Hs. split; [exact Hs|exact I].
  Qed.

  Lemma eq_compare_user {A} js (f : W -> res A * W) (P : state W -> Prop) :
    (forall s, P s -> all_hv js s) ->
    EQ P (x <- hA _ (PtCompare js) f ;; lift_res x) (x <- hT _ (PtCompare js) f ;; lift_res x)
       (fun _ => any) any.
  Proof.
    intros HP. eapply eq_pre; [|exact HP]. apply eq_seq; [|intros x; apply eq_lift].
    eapply eq_post; [apply eq_user|].
    - intros s s' HM H j Hj. eapply hv_mem; [exact HM|apply H, Hj].
    - intros s H. apply (fits_yes js). exact H.
    - intros; exact I.
  Qed.

  Lemma all_two L R s : oh L true s -> oh R true s -> all_hv (operands [L; R]) s.
  Proof.
    intros HL HR j Hj. unfold operands in Hj. cbn in Hj. rewrite app_nil_r in Hj.
    apply in_app_or in Hj as [Hj|Hj].
    - destruct L; cbn in *; try contradiction. destruct Hj as [<-|[]]. exact HL.
    - destruct R; cbn in *; try contradiction. destruct Hj as [<-|[]]. exact HR.
  Qed.

  Lemma eq_deref (P : state W -> Prop) c r L R :
    (forall s, P s -> oh L true s /\ oh R true s) ->
    EQ P (deref_cmp' E hA c r L R) (deref_cmp' E hT c r L R) (fun _ => any) any.
  Proof.
    intros HP. unfold deref_cmp', rel_call'. rd. rd. apply eq_compare_user.
    intros s H. apply all_two; apply (HP s H).
  Qed.

  Ltac fin := first [apply eq_any, eq_ret | apply eq_deref; cbn; tauto].

  Lemma eq_cmp_opt_opt P c r L R :
    EQ P (cmp_opt_opt' E hA c r L R) (cmp_opt_opt' E hT c r L R) (fun _ => any) any.
  Proof.
    destruct r; cbn [cmp_opt_opt']; apply eq_od; intros [|];
      repeat first [fin | apply eq_od; intros [|] | progress cbn [Bool.eqb xorb negb]].
  Qed.
  Lemma eq_cmp_opt_val P c r i v :
    EQ P (cmp_opt_val' E hA c r i v) (cmp_opt_val' E hT c r i v) (fun _ => any) any.
  Proof.
    unfold cmp_opt_val', rel_call'. apply eq_hs. intros [|]; [|fin]. rd. apply eq_compare_user.
    intros s [_ H] j [<-|[]]. exact H.
  Qed.
  Lemma eq_cmp_val_opt P c r v i :
    EQ P (cmp_val_opt' E hA c r v i) (cmp_val_opt' E hT c r v i) (fun _ => any) any.
  Proof.
    unfold cmp_val_opt', rel_call'. apply eq_hs. intros [|]; [|fin]. rd. apply eq_compare_user.
    intros s [_ H] j [<-|[]]. exact H.
  Qed.
  Lemma eq_three_opt_opt P c L R :
    EQ P (three_opt_opt' E hA c L R) (three_opt_opt' E hT c L R) (fun _ => any) any.
  Proof.
    unfold three_opt_opt'. apply eq_od. intros [|].
    - apply eq_od. intros [|]; [|rd; rd; fin].
      unfold three_call'. rd. rd. apply eq_compare_user.
      intros s [[_ H1] H2]. apply all_two; assumption.
    - eapply eq_bind with (R := fun g _ => g = false).
      { intros s Hi Hs. split; [reflexivity|]. split; [exact Hi|].
        split; intros ? ? Ho; inversion Ho; reflexivity. }
      intros [|]; [intros s _ Hf; discriminate|]. rd. rd. fin.
  Qed.
  Lemma eq_three_opt_val P c i v :
    EQ P (three_opt_val' E hA c i v) (three_opt_val' E hT c i v) (fun _ => any) any.
  Proof.
    unfold three_opt_val', three_call'. apply eq_hs. intros [|]; [|fin]. rd. apply eq_compare_user.
    intros s [_ H] j [<-|[]]. exact H.
  Qed.

  Lemma eq_declared P c r L R :
    EQ P (declared' E hA c r L R) (declared' E hT c r L R) (fun _ => any) any.
  Proof.
    destruct L, R; cbn [declared']; try apply eq_dead; try apply eq_cmp_opt_opt;
      try apply eq_cmp_opt_val; try apply eq_cmp_val_opt;
      apply eq_any, (eq_read any); destruct r; cbn; rdx.
  Qed.
  Lemma eq_three_opt_null P i :
    EQ P (three_opt_null E i) (three_opt_null E i) (fun _ => any) any.
  Proof. unfold three_opt_null. rd. fin. Qed.
  Lemma eq_declared3 P c L R :
    EQ P (declared3' E hA c L R) (declared3' E hT c L R) (fun _ => any) any.
  Proof.
    destruct L, R; cbn [declared3']; try apply eq_dead; try apply eq_three_opt_opt;
      try apply eq_three_opt_val; apply eq_three_opt_null.
  Qed.
  Lemma eq_compare P rt c r L R :
    EQ P (compare' E hA rt c r L R) (compare' E hT rt c r L R) (fun _ => any) any.
  Proof.
    destruct rt as [|rev]; cbn [compare']; [apply eq_declared|].
    destruct r; try apply eq_declared;
      (apply eq_seq; [first [apply eq_declared|apply eq_declared3]|intros x; apply eq_ret]).
  Qed.
  Lemma eq_three_way P g c L R :
    EQ P (three_way' E hA g c L R) (three_way' E hT g c L R) (fun _ => any) any.
  Proof.
    destruct L, R; cbn [three_way']; try apply eq_dead; try apply eq_three_opt_opt;
      try apply eq_three_opt_val; try apply eq_three_opt_null;
      try destruct g; try apply eq_three_opt_opt;
      (apply eq_seq; [|intros x; apply eq_ret]);
      first [apply eq_three_opt_opt|apply eq_three_opt_val|apply eq_three_opt_null].
  Qed.
  Lemma eq_hash P hf i : EQ P (hash' E hA hf i) (hash' E hT hf i) (fun _ => any) any.
  Proof.
    unfold hash'. apply eq_hs. intros [|]; [|fin]. rd.
    apply eq_seq; [apply (eq_one _ _ i true); [reflexivity|]; intros s H; apply H|].
    intros x. apply eq_lift.
  Qed.

  Lemma eq_var_new P i v : EQ P (var_new E i v) (var_new E i v) (fun _ => any) any.
  Proof.
    unfold var_new. apply eq_seq; [|intros u; apply eq_log, top_mem].
    intros s Hi Hs. split; [reflexivity|].
    destruct (mem s i) as [r|].
    { cbn. split; [exact Hi|]. split; intros ? ? Ho; inversion Ho. }
    destruct (Nat.eqb_spec (length v) (d_psize (dec E i))) as [HL|].
    2:{ cbn. split; [exact Hi|]. split; intros ? ? Ho; inversion Ho. }
    cbn. split; [|split; intros; exact I].
    apply wf_upd; [exact Hi|]. intros [Hf|Hf]; [discriminate|]. cbn.
    split; [|discriminate].
    rewrite HL. symmetry. exact (do_size _ (proj1 (dok i)) Hf).
  Qed.
  Lemma eq_var_drop P i : EQ P (var_drop' E hA i) (var_drop' E hT i) (fun _ => any) any.
  Proof.
    apply eq_any. unfold var_drop'. rd. apply eq_seq.
    { apply eq_user; [apply top_mem|]. intros s _ j x. discriminate. }
    intros u. apply eq_seq; [|intros u'; apply eq_log, top_mem].
    apply eq_set. intros s _ _. split; exact I.
  Qed.

  Lemma eq_unit P (m1 m2 : M W unit) :
    EQ P m1 m2 (fun _ => any) any -> EQ P (unit_ m1) (unit_ m2) (fun _ => any) any.
  Proof. intros H. apply eq_seq; [exact H|intros u; apply eq_ret]. Qed.
  Lemma eq_bool P (m1 m2 : M W bool) :
    EQ P m1 m2 (fun _ => any) any -> EQ P (bool_ m1) (bool_ m2) (fun _ => any) any.
  Proof. intros H. apply eq_seq; [exact H|intros u; apply eq_ret]. Qed.
  Lemma eq_val P (m1 m2 : M W rep) :
    EQ P m1 m2 (fun _ => any) any -> EQ P (val_ m1) (val_ m2) (fun _ => any) any.
  Proof. intros H. apply eq_seq; [exact H|intros u; apply eq_ret]. Qed.

  Lemma eq_step o : EQ any (step' E hA o) (step' E hT o) (fun _ => any) any.
  Proof.
    destruct o; cbn [step'];
      try (apply eq_unit; first
        [apply eq_ctor_default|apply eq_noexcept, eq_ctor_default|apply eq_ctor_in_place
        |apply eq_ctor_copy|apply eq_ctor_move|apply eq_storage_dtor
        |apply eq_noexcept, eq_reset|apply eq_assign_copy|apply eq_assign_move|apply eq_emplace
        |apply eq_reset|apply eq_swap|apply eq_std_swap|apply eq_and_then|apply eq_transform
        |apply eq_or_else|apply eq_var_new|apply eq_var_drop]).
    - apply eq_unit. eapply eq_pre; [apply eq_assign_value|]. intros s _ j [].
    - apply eq_bool. rd_end.
    - apply eq_bool. rd_end.
    - apply eq_val. apply eq_seq; [|intros u; apply eq_use].
      destruct k; cbn [acc op_deref op_arrow value]; try rd_end.
      apply eq_rd; [rdx|]. intros b. destruct (negb b); [apply eq_throw|fin].
    - apply eq_val, eq_value_or.
    - apply eq_val, eq_value_or.
    - apply eq_bool, eq_compare.
    - apply eq_seq; [apply eq_three_way|intros x; apply eq_ret].
    - apply eq_seq; [apply eq_hash|intros x; apply eq_ret].
  Qed.

  Lemma eq_run p : forall s, wf s -> run' E hA p s = run' E hT p s.
  Proof.
    induction p as [|o p IH]; intros s Hi; [reflexivity|]. cbn [run'].
    destruct (eq_step o s Hi I) as (A1 & A2 & _). rewrite A1.
    destruct (step' E hT o s) as [[x|e|f] s']; cbn in A2; [| |reflexivity];
      rewrite (IH s' A2); reflexivity.
  Qed.
  Lemma wf_init w : wf (init_state w).
  Proof. intros i r H. discriminate. Qed.
End Proof.

Lemma consult_eq {W} (E : env W) l x s : fits E l s -> inquire E x s = consult E l x s.
Proof.
  intros H. induction x as [f|j k IH]; cbn [inquire consult]; [reflexivity|].
  pose proof (H j) as Hj. destruct (answer l j) as [[b|]|].
  - unfold bind. rewrite (Hj _ eq_refl). apply IH.
  - unfold bind. rewrite (Hj _ eq_refl). reflexivity.
  - unfold bind. destruct (has_value E j s) as [[b|e|f] s'] eqn:Hb; try reflexivity.
    pose proof (proj1 (reads_has E j s)) as R. rewrite Hb in R. cbn in R. subst s'. apply IH.
Qed.
Lemma reads_consult {W} (E : env W) l x : reads (consult E l x).
Proof.
  induction x as [f|j k IH]; cbn [consult]; [apply reads_ret|].
  destruct (answer l j) as [[b|]|]; [apply IH|apply reads_dead|].
  apply reads_bind; [apply reads_has|]. intros b. apply IH.
Qed.

(** ** C66 *)

(** In every program, with user code that asks whatever it likes: the optionals involved
    answer as the table says. *)
Theorem C66_answers : forall W (E : env W) (q : point -> W -> inquiry W) p w,
  env_ok E ->
  run' E (asking E q) p (init_state w) = run' E (told E q) p (init_state w).
Proof.
  intros W E q p w HE. apply eq_run; [exact HE| | |apply wf_init].
  - intros A pt f s Hf. unfold asking, told, bind. rewrite (consult_eq E _ _ s Hf). reflexivity.
  - intros A pt f s. unfold told, bind.
    destruct (reads_consult E (answers E pt) (q pt (world s)) s) as [R N].
    destruct (consult _ _ _ s) as [[g|e|d] s1]; cbn in R, N; subst s1; [|contradiction|].
    + unfold call. destruct (f (g (world s))) as [a w']. split; [reflexivity|exact I].
    + split; [reflexivity|exact I].
Qed.
Print Assumptions C66_answers.

(** If user code asks only the optionals involved, and not the one under construction in
    place, then it could do without asking: the answers are known beforehand. *)
Theorem C66_known_beforehand : forall W (E : env W) (q : point -> W -> inquiry W) p w,
  env_ok E ->
  (forall pt u, exists g, tell (answers E pt) (q pt u) = Some g) ->
  run' E (asking E q) p (init_state w) =
  run' E (fun A pt f =>
            call (fun u => f (match tell (answers E pt) (q pt u) with Some g => g u | None => u end)))
       p (init_state w).
Proof.
  intros W E q p w HE Hq. apply eq_run; [exact HE| | |apply wf_init].
  - intros A pt f s Hf. unfold asking, bind. rewrite (consult_eq E _ _ s Hf).
    destruct (Hq pt (world s)) as [g Hg]. unfold call. rewrite Hg.
    enough (G : consult E (answers E pt) (q pt (world s)) s = (Ok g, s)).
    { rewrite G. reflexivity. }
    revert Hg. generalize (q pt (world s)) as x. induction x as [f0|j k IH]; cbn [tell consult].
    + intros H; inversion H; reflexivity.
    + destruct (answer (answers E pt) j) as [[b|]|]; [apply IH|discriminate|discriminate].
  - intros A pt f s. unfold call.
    destruct (f _) as [a w']. split; [reflexivity|exact I].
Qed.
Print Assumptions C66_known_beforehand.

(** Asking out of curiosity changes nothing at all. *)
Theorem C66_asking_is_harmless : forall W (E : env W) (q : point -> W -> inquiry W) p w,
  env_ok E ->
  (forall pt u, exists g, tell (answers E pt) (q pt u) = Some g /\ forall v, g v = v) ->
  run' E (asking E q) p (init_state w) = run E p (init_state w).
Proof.
  intros W E q p w HE Hq.
  transitivity (run' E (fun _ _ f => call f) p (init_state w)).
  - apply eq_run; [exact HE| | |apply wf_init].
    + intros A pt f s Hf. unfold asking, bind. rewrite (consult_eq E _ _ s Hf).
      destruct (Hq pt (world s)) as (g & Hg & Hi).
      enough (G : consult E (answers E pt) (q pt (world s)) s = (Ok g, s)).
      { rewrite G. unfold call. rewrite Hi. reflexivity. }
      revert Hg. generalize (q pt (world s)) as x. induction x as [f0|j k IH]; cbn [tell consult].
      * intros H; inversion H; reflexivity.
      * destruct (answer (answers E pt) j) as [[b|]|]; [apply IH|discriminate|discriminate].
    + intros A pt f s. unfold call. destruct (f _) as [a w']. split; [reflexivity|exact I].
  - generalize (init_state w) as s. induction p as [|o p IH]; intros s; [reflexivity|].
    cbn [run' run]. rewrite step_call.
    destruct (step E o s) as [[x|e|f] s']; [| |reflexivity]; rewrite IH; reflexivity.
Qed.
Print Assumptions C66_asking_is_harmless.

(** With the flag in place, a constructor of the payload that asks the optional it is
    constructed in has undefined behaviour, whatever the type is. *)
Theorem C66_too_early : forall W (E : env W) (q : point -> W -> inquiry W) i n p w k,
  env_ok E -> d_sep (dec E i) = false -> i_src n = None -> i_more n = [] ->
  q (PtConstruct i []) w = AskFor i k ->
  fst (run' E (asking E q) (OInPlace i n :: p) (init_state w)) = inr NoObject.
Proof.
  intros W E q i n p w k HE Hd Hs Hm Hq.
  rewrite C66_answers by exact HE. cbn [run' step'].
  destruct (HE (e_tid E i)) as [D F _]. fold (ty E i) in D, F.
  change (ot_dec (ty E i)) with (dec E i) in *. change (ot_man (ty E i)) with (man E i) in *.
  assert (HL : length (sub (d_foff (dec E i)) (d_fsize (dec E i)) (indets (d_ssize (dec E i))))
               = d_fsize (dec E i)).
  { apply length_sub. rewrite length_indets. exact (do_flag _ D). }
  pose proof (mo_init_len _ _ F _ HL) as HL2.
  pose proof (mo_init _ _ F _ HL) as HI.
  assert (HS : sub (d_foff (dec E i)) (d_fsize (dec E i))
                 (put (d_foff (dec E i)) (m_init (man E i)
                    (sub (d_foff (dec E i)) (d_fsize (dec E i)) (indets (d_ssize (dec E i)))))
                    (indets (d_ssize (dec E i)))) =
               m_init (man E i)
                 (sub (d_foff (dec E i)) (d_fsize (dec E i)) (indets (d_ssize (dec E i))))).
  { apply sub_put_same'; [exact HL2|]. rewrite length_indets. exact (do_flag _ D). }
  set (c1 := put _ _ _) in HS.
  set (s1 := MkState (upd (fun _ => None) i
               (Some (MkRegion (indets (d_ssize (dec E i))) false false))) w ([] : list event)).
  set (s2 := MkState (upd (mem s1) i (Some (MkRegion c1 true false))) w [EvFlagBegin i]).
  set (s3 := MkState (upd (mem s2) i (Some (MkRegion
                (put (d_foff (dec E i)) (m_inval (man E i)
                   (sub (d_foff (dec E i)) (d_fsize (dec E i)) c1)) c1) false false))) w
                [EvFlagEnd i; EvFlagBegin i]).
  assert (A1 : alloc E i (init_state w) = (Ok tt, s1)).
  { unfold alloc. cbn [mem init_state]. rewrite Hd. reflexivity. }
  assert (A2 : fm_init E i s1 = (Ok tt, s2)).
  { unfold fm_init, bind, get_region, s1. cbn [mem]. unfold upd at 1. rewrite Nat.eqb_refl.
    rewrite Hd. reflexivity. }
  assert (A3 : has_value E i s2 = (Ok false, s2)).
  { unfold has_value, fm_is_empty, bind, get_region, s2. cbn [mem]. unfold upd at 1.
    rewrite Nat.eqb_refl. cbn [flag_obj cells orb]. rewrite HS, HI. reflexivity. }
  assert (A4 : assert_ E (not_ (has_value E i)) s2 = (Ok tt, s2)).
  { unfold assert_, not_. destruct (e_dbg E); [|reflexivity]. unfold bind. rewrite A3. reflexivity. }
  assert (A5 : fm_invalidate E i s2 = (Ok tt, s3)).
  { unfold fm_invalidate, bind, get_region, s2. cbn [mem]. unfold upd at 1.
    rewrite Nat.eqb_refl. cbn [flag_obj cells pay_obj]. rewrite HS, HI, Hd, <- HS. reflexivity. }
  assert (A6 : placement_new' E (told E q) (PtConstruct i []) i n s3 = (Dead NoObject, s3)).
  { unfold placement_new', run_ini'. rewrite Hs, Hm.
    unfold load_more, told, bind, ret. unfold s3 at 1. cbn [world]. rewrite Hq.
    cbn [consult answers answer]. rewrite Nat.eqb_refl, Hd. reflexivity. }
  assert (A7 : (fm_init E i ;; construct_payload' E (told E q) [] i n) s1 = (Dead NoObject, s3)).
  { unfold bind at 1. rewrite A2. unfold construct_payload', noexcept_if.
    unfold bind at 1. rewrite A4. unfold bind at 1. rewrite A5. unfold bind.
    destruct (i_nothrow n); [|unfold on_throw]; rewrite A6; reflexivity. }
  unfold unit_, ctor_in_place', bind. rewrite A1. unfold on_throw.
  unfold bind in A7. rewrite A7. reflexivity.
Qed.
Print Assumptions C66_too_early.

(** ** Instances *)

(** User code that, wherever it is called, asks all the optionals involved that may be
    asked, and throws if one does not answer as expected. *)
Fixpoint doubts (t l : list (loc * option bool)) : inquiry sworld_t :=
  match l with
  | [] => Enough (fun w => w)
  | (j, _) :: l' =>
      match answer t j with
      | Some (Some b) =>
          AskFor j (fun b' => if Bool.eqb b b' then doubts t l'
                              else Enough (fun w => MkSW [Some 77] (calls w)))
      | _ => doubts t l'
      end
  end.
Definition curious (E : env sworld_t) (pt : point) (_ : sworld_t) : inquiry sworld_t :=
  doubts (answers E pt) (answers E pt).
Lemma curious_known E pt w :
  exists g, tell (answers E pt) (curious E pt w) = Some g /\ forall v, g v = v.
Proof.
  exists (fun v => v). split; [|reflexivity]. unfold curious.
  generalize (answers E pt) at 1 2 as t. intros t.
  generalize (answers E pt) as l. induction l as [|[j a] l IH]; cbn [doubts]; [reflexivity|].
  destruct (answer t j) as [[b|]|] eqn:Ha; [|exact IH|exact IH].
  cbn [tell]. rewrite Ha, Bool.eqb_reflx. exact IH.
Qed.
Example C66_curious dbg p w :
  run' (sample dbg) (asking (sample dbg) (curious (sample dbg))) p (init_state w) =
  run (sample dbg) p (init_state w).
Proof. apply C66_asking_is_harmless; [apply sample_ok|intros; apply curious_known]. Qed.
(** Such a program: all of the places of [point] occur. *)
Example C66_curious_run :
  fst (run' (sample true) (asking (sample true) (curious (sample true)))
    [OInPlace 0 (mkP 1 2); OInPlace 10 (mkP 1 2); ODefault 1; ODefault 11;
     OCopyCtor 2 0; OMoveCtor 12 10; OSwap 0 1; OSwap 11 12; OSwap 1 2;
     OCopyAssign 2 1; OMoveAssign 10 11; OAssign 10 (argP 5 6); OEmplace 11 (mkP 7 8);
     OTransform 13 11 true look false; OValueOrCopy 13 (mkP 0 0); OReset 13;
     OValueOrMove 13 (mkP 4 4);
     OOrElse 14 13 false (fun w => (ROk (Some [Atom 3; Atom 3]), w));
     OAndThen 15 14 true (fun v w => ((ROk (Some v), v), w));
     OHash (fun _ w => (ROk 9%N, w)) 15; OHasValue 13; ODtor 15; ODtor 14] (init_state quiet)) =
  inl [ObUnit; ObUnit; ObUnit; ObUnit; ObUnit; ObUnit; ObUnit; ObUnit; ObUnit; ObUnit; ObUnit;
       ObUnit; ObUnit; ObUnit; ObVal [Atom 7; Atom 8]; ObUnit; ObVal [Atom 4; Atom 4]; ObUnit;
       ObUnit; ObHash 9%N; ObBool false; ObUnit; ObUnit].
Proof. vm_compute. reflexivity. Qed.

(** A constructor that asks the optional that its object is constructed in. *)
Definition early (pt : point) (_ : sworld_t) : inquiry sworld_t :=
  match pt with
  | PtConstruct i _ =>
      AskFor i (fun b => Enough (fun w => MkSW (sched w) (calls w + if b then 10 else 20)))
  | _ => Enough (fun w => w)
  end.
(** With a separate flag it is told that there is a value, though there is none yet. *)
Example C66_early_separate :
  calls (world (snd (run' (sample true) (asking (sample true) early) [OInPlace 0 (mkP 1 2)]
                       (init_state quiet)))) = 11.
Proof. vm_compute. reflexivity. Qed.
(** In place it must not ask: a sentinel of the payload, a member as flag. *)
Example C66_early_in_place p :
  fst (run' (sample true) (asking (sample true) early) (OInPlace 10 (mkP 1 2) :: p)
         (init_state quiet)) = inr NoObject.
Proof. eapply C66_too_early; try reflexivity. apply sample_ok. Qed.
Example C66_early_member p :
  fst (run' (sample true) (asking (sample true) early) (OInPlace 30 (mkP 1 2) :: p)
         (init_state quiet)) = inr NoObject.
Proof. eapply C66_too_early; try reflexivity. apply sample_ok. Qed.
