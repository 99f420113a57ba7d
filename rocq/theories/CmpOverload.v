(** * CmpOverload: which function a comparison expression calls

    C++ overload resolution for [L Op R] where at least one operand is a tiny
    optional: the candidates are all the comparison templates of the header
    (optional.h:2398-2766) and of the standard library's <optional>, including, since
    C++20, the rewritten and reversed ones.  [Optional.compare] takes the outcome
    (the [route]) as a parameter; here it is computed. *)

From Coq Require Import List Bool ZArith.
From Verif Require Import Cells Machine Optional Program Spec Laws Refine Contract Compare Sample ExampleTac.
Import ListNotations.

(** ** Expressions *)

(** The static type of an operand, as far as template argument deduction can tell:
    tiny::optional (and its alias optional_aip), a class derived from it,
    TinyOptionalImpl itself (optional_inplace and optional_sentinel_via_type are
    aliases of it, optional.h:2154-2157, 2318-2319), a class derived from it,
    std::optional, a class derived from it, std::nullopt_t, anything else. *)
Inductive kind : Type := KOpt | KOptSub | KImpl | KImplSub | KStd | KStdSub | KNull | KVal.

(** is_tiny_optional_v (optional.h:250-268) looks for a static member, which derived
    classes inherit. *)
Definition k_tiny (k : kind) : bool :=
  match k with KOpt | KOptSub | KImpl | KImplSub => true | _ => false end.

(** The operator: one of the six, or [<=>]. *)
Inductive cop : Type := CRel (r : relop) | CThree.
Definition relop_eqb (a b : relop) : bool :=
  match a, b with
  | REq, REq | RNe, RNe | RLt, RLt | RLe, RLe | RGt, RGt | RGe, RGe => true
  | _, _ => false
  end.
Definition cop_eqb (a b : cop) : bool :=
  match a, b with CRel r, CRel q => relop_eqb r q | CThree, CThree => true | _, _ => false end.

(** ** Declarations *)

(** The parameter types of the operator templates: [TinyOptionalImpl<D, F> const &],
    [optional<P, e, i> const &], [std::optional<U> const &], [std::nullopt_t],
    [U const &]. *)
Inductive pat : Type := PImpl | POpt | PStd | PNull | PAny.
Definition pat_eqb (a b : pat) : bool :=
  match a, b with
  | PImpl, PImpl | POpt, POpt | PStd, PStd | PNull, PNull | PAny, PAny => true
  | _, _ => false
  end.

(** A function template: the library that declares it, the operator, the parameters,
    whether the template parameter belonging to the left or right function parameter
    carries a type-constraint ([three_way_comparable_with<P> U]), and whether there is
    a requires-clause. *)
Record fn : Type := MkFn {
  f_tiny : bool; f_op : cop; f_l : pat; f_r : pat; f_tcl : bool; f_tcr : bool; f_req : bool
}.
Definition fn_eqb (a b : fn) : bool :=
  Bool.eqb (f_tiny a) (f_tiny b) && cop_eqb (f_op a) (f_op b) && pat_eqb (f_l a) (f_l b) &&
  pat_eqb (f_r a) (f_r b) && Bool.eqb (f_tcl a) (f_tcl b) && Bool.eqb (f_tcr a) (f_tcr b) &&
  Bool.eqb (f_req a) (f_req b).
Definition plain (tiny : bool) (o : cop) (l r : pat) : fn := MkFn tiny o l r false false false.

Definition relops : list relop := [REq; RNe; RLt; RLe; RGt; RGe].

(** The compilation: [m_three]: TINY_OPTIONAL_ENABLE_THREEWAY_COMPARISON, that is, the
    standard library has [<=>] (optional.h:88-89); [m_gcc]: gcc, for which
    TINY_OPTIONAL_GCC_WORKAROUND_CWG2445 is defined if [m_three] (optional.h:90-97);
    [m_rewrite]: the language is C++20, with rewritten candidates.  How far the compiler
    implements later corrections of C++20: [m_2445]: CWG 2445 (the parameters of a
    reversed candidate are reversed also for partial ordering); [m_heads]: constraints
    are only compared if the template heads are equivalent; [m_revcons]: constraints
    are also compared between a reversed and a non-reversed candidate (both P2113);
    [m_2468]: [==] is not reversed if there is a corresponding [!=] (P2468). *)
Record mode : Type := MkMode {
  m_three : bool; m_gcc : bool; m_rewrite : bool;
  m_2445 : bool; m_heads : bool; m_revcons : bool; m_2468 : bool
}.

(** The operators that TINY_OPTIONAL_IMPL_COMPARE_BETWEEN_OPTIONALS declares
    (optional.h:2398-2430; used at 2437, 2482, 2527, 2571, 2615, 2659) and those for
    values (optional.h:2460-2474, 2505-2519, 2549-2563, 2593-2607, 2637-2651,
    2681-2695). *)
Definition tiny_rel (r : relop) : list fn :=
  [plain true (CRel r) PImpl PImpl; plain true (CRel r) PImpl PStd; plain true (CRel r) PStd PImpl;
   plain true (CRel r) POpt PStd; plain true (CRel r) PStd POpt;
   plain true (CRel r) PImpl PAny; plain true (CRel r) PAny PImpl].
(** Comparison with nullopt: [opt == nullopt] always, everything else only without
    [<=>] or with the workaround (optional.h:2446-2457, 2491-2503, 2535-2547,
    2579-2591, 2623-2635, 2667-2679). *)
Definition tiny_null (m : mode) (r : relop) : list fn :=
  match r with REq => [plain true (CRel r) PImpl PNull] | _ => [] end ++
  (if negb (m_three m) || m_gcc m
   then match r with REq => [] | _ => [plain true (CRel r) PImpl PNull] end ++
        [plain true (CRel r) PNull PImpl]
   else []).
(** [<=>] (optional.h:2702-2766). *)
Definition tiny_three (m : mode) : list fn :=
  if m_three m
  then [MkFn true CThree PImpl PImpl false false true; MkFn true CThree PImpl PStd false false true;
        MkFn true CThree POpt PStd false true false; plain true CThree PImpl PNull;
        MkFn true CThree PImpl PAny false false true] ++
       (if m_gcc m then [MkFn true CThree PStd POpt false true false] else [])
  else [].

(** The standard library's operators ([optional.syn]; C++17 and C++20). *)
Definition std_rel (m : mode) (r : relop) : list fn :=
  [plain false (CRel r) PStd PStd; plain false (CRel r) PStd PAny; plain false (CRel r) PAny PStd] ++
  (if m_three m
   then match r with REq => [plain false (CRel r) PStd PNull] | _ => [] end
   else [plain false (CRel r) PStd PNull; plain false (CRel r) PNull PStd]).
Definition std_three (m : mode) : list fn :=
  if m_three m
  then [MkFn false CThree PStd PStd false true false; plain false CThree PStd PNull;
        MkFn false CThree PStd PAny false true true]
  else [].

Definition decls (m : mode) : list fn :=
  flat_map tiny_rel relops ++ flat_map (tiny_null m) relops ++ tiny_three m ++
  flat_map (std_rel m) relops ++ std_three m.

(** ** Candidates ([over.match.oper]) *)

(** A candidate: the function, whether it is a rewritten candidate, and whether with
    reversed order of parameters. *)
Record cand : Type := MkCand { c_fn : fn; c_rw : bool; c_rev : bool }.
Definition cand_eqb (a b : cand) : bool :=
  fn_eqb (c_fn a) (c_fn b) && Bool.eqb (c_rw a) (c_rw b) && Bool.eqb (c_rev a) (c_rev b).

(** [F] may be reversed if it is [<=>], or [==] without a corresponding [!=]
    (P2468). *)
Definition reversible (m : mode) (f : fn) : bool :=
  match f_op f with
  | CThree => true
  | CRel REq =>
      negb (m_2468 m &&
            existsb (fun g => cop_eqb (f_op g) (CRel RNe) && Bool.eqb (f_tiny g) (f_tiny f) &&
                              pat_eqb (f_l g) (f_l f) && pat_eqb (f_r g) (f_r f)) (decls m))
  | _ => false
  end.
(** The functions that [x o y] is rewritten to without reversal: [!=] to [==], the
    relational ones to [<=>]. *)
Definition rewrites_to (o : cop) (f : fn) : bool :=
  match o with
  | CRel RNe => cop_eqb (f_op f) (CRel REq)
  | CRel REq | CThree => false
  | CRel _ => cop_eqb (f_op f) CThree
  end.
Definition reverses_to (m : mode) (o : cop) (f : fn) : bool :=
  reversible m f &&
  match o with
  | CRel RNe | CRel REq => cop_eqb (f_op f) (CRel REq)
  | _ => cop_eqb (f_op f) CThree
  end.
Definition candidates (m : mode) (o : cop) : list cand :=
  map (fun f => MkCand f false false) (filter (fun f => cop_eqb (f_op f) o) (decls m)) ++
  (if m_rewrite m
   then map (fun f => MkCand f true false) (filter (rewrites_to o) (decls m)) ++
        map (fun f => MkCand f true true) (filter (reverses_to m o) (decls m))
   else []).
(** The parameters that the left and the right operand of the expression go to. *)
Definition c_l (c : cand) : pat := if c_rev c then f_r (c_fn c) else f_l (c_fn c).
Definition c_r (c : cand) : pat := if c_rev c then f_l (c_fn c) else f_r (c_fn c).

(** ** Viability *)

(** Deduction and implicit conversion ([temp.deduct.call], [over.best.ics]): [None] if
    deduction fails, else the rank of the conversion: 0 identity, otherwise
    derived-to-base, where the conversion to the more derived class is better. *)
Definition rank (k : kind) (p : pat) : option nat :=
  match p, k with
  | PAny, _ => Some 0
  | POpt, KOpt => Some 0
  | POpt, KOptSub => Some 1
  | PImpl, KImpl => Some 0
  | PImpl, KImplSub => Some 1
  | PImpl, KOpt => Some 1
  | PImpl, KOptSub => Some 2
  | PStd, KStd => Some 0
  | PStd, KStdSub => Some 1
  | PNull, KNull => Some 0
  | _, _ => None
  end.
(** The header's [U const &] excludes tiny optionals (enable_if, and the requires-clause
    of [<=>]). *)
Definition guard (f : fn) (p : pat) (k : kind) : bool :=
  match p with PAny => negb (f_tiny f && k_tiny k) | _ => true end.
Definition deducible (L R : kind) (c : cand) : bool :=
  match rank L (c_l c), rank R (c_r c) with
  | Some _, Some _ => guard (c_fn c) (c_l c) L && guard (c_fn c) (c_r c) R
  | _, _ => false
  end.
(** The other constraints depend on the payload types: three_way_comparable_with, and
    whatever the standard library requires of its comparisons with values.  They are
    given by an arbitrary predicate (three_way_comparable_with is symmetric, so it is
    the same for a candidate and its reversed version). *)
Definition unconditional (f : fn) : bool :=
  negb (f_req f || f_tcl f || f_tcr f) &&
  (f_tiny f || negb (pat_eqb (f_l f) PAny || pat_eqb (f_r f) PAny)).
Definition viable (m : mode) (sat : fn -> bool) (o : cop) (L R : kind) : list cand :=
  filter (fun c => unconditional (c_fn c) || sat (c_fn c)) (filter (deducible L R) (candidates m o)).

(** ** Best viable function ([over.match.best]) *)

Definition rank_leb (a b : option nat) : bool :=
  match a, b with Some x, Some y => Nat.leb x y | _, _ => false end.

(** Partial ordering ([temp.func.order]). *)
Definition pat_leb (p q : pat) : bool := pat_eqb p q || pat_eqb q PAny.
Definition constrained (f : fn) : bool := f_req f || f_tcl f || f_tcr f.
(** [a] is more specialized than [b]. *)
Definition more_special (m : mode) (a b : cand) : bool :=
  let mixed := xorb (c_rev a) (c_rev b) in
  let al := if mixed && negb (m_2445 m) then f_l (c_fn a) else c_l a in
  let ar := if mixed && negb (m_2445 m) then f_r (c_fn a) else c_r a in
  let bl := if mixed && negb (m_2445 m) then f_l (c_fn b) else c_l b in
  let br := if mixed && negb (m_2445 m) then f_r (c_fn b) else c_r b in
  let ab := pat_leb al bl && pat_leb ar br in
  let ba := pat_leb bl al && pat_leb br ar in
  if ab && ba
  then
    (* the same parameter types: the more constrained one *)
    let atl := if c_rev a then f_tcr (c_fn a) else f_tcl (c_fn a) in
    let atr := if c_rev a then f_tcl (c_fn a) else f_tcr (c_fn a) in
    let btl := if c_rev b then f_tcr (c_fn b) else f_tcl (c_fn b) in
    let btr := if c_rev b then f_tcl (c_fn b) else f_tcr (c_fn b) in
    (negb mixed || m_revcons m) &&
    (negb (m_heads m) || (Bool.eqb atl btl && Bool.eqb atr btr)) &&
    constrained (c_fn a) && negb (constrained (c_fn b))
  else ab && negb ba.

Definition better (m : mode) (L R : kind) (a b : cand) : bool :=
  let al := rank L (c_l a) in let ar := rank R (c_r a) in
  let bl := rank L (c_l b) in let br := rank R (c_r b) in
  rank_leb al bl && rank_leb ar br &&
  (negb (rank_leb bl al) || negb (rank_leb br ar) ||
   more_special m a b ||
   (negb (more_special m b a) &&
    ((negb (c_rw a) && c_rw b) || (c_rw a && c_rw b && negb (c_rev a) && c_rev b)))).

(** The candidates that are better than all others. *)
Definition best_of (m : mode) (L R : kind) (v : list cand) : list cand :=
  filter (fun a => forallb (fun b => cand_eqb a b || better m L R a b) v) v.
Definition resolve (m : mode) (sat : fn -> bool) (o : cop) (L R : kind) : list cand :=
  best_of m L R (viable m sat o L R).

(** The compilations that exist: [<=>] in the library needs the language support, and
    compilers other than gcc implement CWG 2445. *)
Definition possible (m : mode) : bool :=
  implb (m_three m) (m_rewrite m) && implb (m_rewrite m && m_three m && negb (m_gcc m)) (m_2445 m).

(** ** Reflection

    Everything is finite except the predicate [sat]; it selects some of the
    candidates that are not unconditional. *)

Fixpoint choices (l : list cand) : list (list cand) :=
  match l with
  | [] => [[]]
  | x :: t => map (cons x) (choices t) ++ (if unconditional (c_fn x) then [] else choices t)
  end.

Lemma in_choices sat l : In (filter (fun c => unconditional (c_fn c) || sat (c_fn c)) l) (choices l).
Proof.
  induction l as [|x t IH]; [left; reflexivity|]. cbn [filter choices].
  destruct (unconditional (c_fn x)); cbn [orb].
  - apply in_or_app. left. apply in_map, IH.
  - apply in_or_app. destruct (sat (c_fn x)); [left; apply in_map, IH|right; exact IH].
Qed.

Definition all_choices (m : mode) (o : cop) (L R : kind) : list (list cand) :=
  choices (filter (deducible L R) (candidates m o)).

Lemma for_all_sat m sat o L R (P : list cand -> bool) :
  forallb P (all_choices m o L R) = true -> P (viable m sat o L R) = true.
Proof. intros H. rewrite forallb_forall in H. apply H, in_choices. Qed.

Definition bools : list bool := [true; false].
Definition modes : list mode :=
  flat_map (fun a => flat_map (fun b => flat_map (fun c => flat_map (fun d => flat_map (fun e =>
    flat_map (fun f => map (fun g => MkMode a b c d e f g) bools) bools) bools) bools) bools) bools) bools.
Lemma in_bools b : In b bools. Proof. destruct b; cbn; auto. Qed.
Lemma in_modes m : In m modes.
Proof.
  destruct m as [a b c d e f g]. unfold modes.
  apply in_flat_map. exists a. split; [apply in_bools|].
  apply in_flat_map. exists b. split; [apply in_bools|].
  apply in_flat_map. exists c. split; [apply in_bools|].
  apply in_flat_map. exists d. split; [apply in_bools|].
  apply in_flat_map. exists e. split; [apply in_bools|].
  apply in_flat_map. exists f. split; [apply in_bools|].
  apply in_map, in_bools.
Qed.
Definition kinds : list kind := [KOpt; KOptSub; KImpl; KImplSub; KStd; KStdSub; KNull; KVal].
Lemma in_kinds k : In k kinds. Proof. destruct k; cbn; tauto. Qed.
Lemma in_relops r : In r relops. Proof. destruct r; cbn; tauto. Qed.

Definition everywhere (ops : list cop) (P : mode -> cop -> kind -> kind -> list cand -> bool) : bool :=
  forallb (fun m => forallb (fun o => forallb (fun L => forallb (fun R =>
    forallb (P m o L R) (all_choices m o L R)) kinds) kinds) ops) modes.
Lemma everywhere_ok ops P :
  everywhere ops P = true ->
  forall m sat o L R, In o ops -> P m o L R (viable m sat o L R) = true.
Proof.
  intros H m sat o L R Ho. apply for_all_sat. unfold everywhere in H.
  rewrite forallb_forall in H. specialize (H m (in_modes m)).
  rewrite forallb_forall in H. specialize (H o Ho).
  rewrite forallb_forall in H. specialize (H L (in_kinds L)).
  rewrite forallb_forall in H. exact (H R (in_kinds R)).
Qed.

(** ** C53: the resolution *)

(** The function takes a tiny optional as such, a std::optional as such, nullopt as
    such, and other types as values. *)
Definition takes (k : kind) (p : pat) : bool :=
  match k, p with
  | (KOpt | KOptSub), (POpt | PImpl) => true
  | (KImpl | KImplSub), PImpl => true
  | (KStd | KStdSub), PStd => true
  | KNull, PNull => true
  | KVal, PAny => true
  | _, _ => false
  end.
Definition fits (L R : kind) (x : cand) : bool :=
  f_tiny (c_fn x) && takes L (c_l x) && takes R (c_r x).

(** The operands for which the header is meant: at least one tiny optional, against
    another one, nullopt, a value, or, if it is not of a class derived from the
    library's, a std::optional. *)
Definition supported (L R : kind) : bool :=
  (k_tiny L || k_tiny R) &&
  match L, R with
  | KStdSub, _ | _, KStdSub => false
  | KStd, (KOptSub | KImplSub) | (KOptSub | KImplSub), KStd => false
  | _, _ => true
  end.

Definition route_of (x : cand) : route := if c_rw x then RtRewritten (c_rev x) else RtDirect.

(** How the chosen function belongs to the operator. *)
Definition right_op (r : relop) (x : cand) : bool :=
  if c_rw x
  then match r with
       | REq => cop_eqb (f_op (c_fn x)) (CRel REq) && c_rev x
       | RNe => cop_eqb (f_op (c_fn x)) (CRel REq)
       | _ => cop_eqb (f_op (c_fn x)) CThree
       end
  else cop_eqb (f_op (c_fn x)) (CRel r) && negb (c_rev x).
Definition is_null (k : kind) : bool := match k with KNull => true | _ => false end.

Definition rel_check (m : mode) (o : cop) (L R : kind) (v : list cand) : bool :=
  if possible m && supported L R
  then match best_of m L R v, o with
       | [x], CRel r =>
           existsb (cand_eqb x) v && fits L R x && right_op r x &&
           implb (negb (m_rewrite m)) (negb (c_rw x)) &&
           implb (match r with REq | RNe => true | _ => false end && negb (is_null L || is_null R))
                 (negb (c_rw x)) &&
           (* the rewritten expression has a tiny optional, or a std::optional against
              one, as its first operand *)
           implb (c_rw x && negb (is_null L || is_null R) || c_rw x && match r with REq | RNe => false | _ => true end)
             (let A := if c_rev x then R else L in
              let B := if c_rev x then L else R in
              k_tiny A || (match A with KStd => true | _ => false end && k_tiny B))
       | _, _ => false
       end
  else true.

Lemma rel_checked : everywhere (map CRel relops) rel_check = true.
Proof. vm_cast_no_check (eq_refl true). Qed.

(** [<=>].  The predicates belong together: the constraints of the header's operators
    for payloads [P] and std::optional<U> are the same in all versions.  The versions
    for values require, for a tiny optional with payload [P] and a std::optional<U>,
    three_way_comparable_with<tiny optional, U> (the standard library's) or
    three_way_comparable_with<P, std::optional<U>> (the header's); both need a [<=>]
    that exists only if three_way_comparable_with<P, U>. *)
Definition three_std (f : fn) : bool :=
  f_tiny f && cop_eqb (f_op f) CThree && (pat_eqb (f_l f) PStd || pat_eqb (f_r f) PStd).
Definition three_value (f : fn) : bool :=
  cop_eqb (f_op f) CThree && (pat_eqb (f_l f) PAny || pat_eqb (f_r f) PAny).
Definition coherent (sat : fn -> bool) : Prop :=
  (forall f g, three_std f = true -> three_std g = true -> sat f = sat g) /\
  (forall f g, three_value f = true -> three_std g = true -> sat f = true -> sat g = true).
(** The same for a list [v] of viable candidates among [all]. *)
Definition among (v : list cand) (c : cand) : bool := existsb (cand_eqb c) v.
Definition coherent_list (all v : list cand) : bool :=
  forallb (fun c => forallb (fun d =>
    implb (fn_eqb (c_fn c) (c_fn d)) (Bool.eqb (among v c) (among v d)) &&
    implb (three_std (c_fn c) && three_std (c_fn d)) (Bool.eqb (among v c) (among v d)) &&
    implb (three_value (c_fn c) && three_std (c_fn d) && among v c) (among v d)) all) all.

(** gcc without CWG 2445 and a std::optional on the left of a TinyOptionalImpl. *)
Definition gcc_gap (m : mode) (L R : kind) : bool :=
  m_gcc m && negb (m_2445 m) && match L, R with KStd, KImpl => true | _, _ => false end.

Definition three_check (m : mode) (o : cop) (L R : kind) (v : list cand) : bool :=
  if possible m && supported L R && negb (gcc_gap m L R) &&
     coherent_list (filter (deducible L R) (candidates m o)) v
  then match v, best_of m L R v with
       | [], _ => true
       | _, [x] => existsb (cand_eqb x) v && fits L R x && cop_eqb (f_op (c_fn x)) CThree &&
                   Bool.eqb (c_rw x) (c_rev x) && implb (k_tiny L) (negb (c_rev x)) &&
                   implb (negb (k_tiny L) && negb (c_rev x)) (match L with KStd => true | _ => false end)
       | _, _ => false
       end
  else true.
Lemma three_checked : everywhere [CThree] three_check = true.
Proof. vm_cast_no_check (eq_refl true). Qed.

Lemma relop_eqb_eq a b : relop_eqb a b = true <-> a = b.
Proof. split; [destruct a, b; (reflexivity || discriminate)|intros ->; destruct b; reflexivity]. Qed.
Lemma cop_eqb_eq a b : cop_eqb a b = true <-> a = b.
Proof.
  split.
  - destruct a, b; cbn; try discriminate; [intros H; apply relop_eqb_eq in H as ->|]; reflexivity.
  - intros ->. destruct b as [r|]; [apply relop_eqb_eq|]; reflexivity.
Qed.
Lemma pat_eqb_eq a b : pat_eqb a b = true <-> a = b.
Proof. split; [destruct a, b; (reflexivity || discriminate)|intros ->; destruct b; reflexivity]. Qed.
Lemma fn_eqb_eq a b : fn_eqb a b = true <-> a = b.
Proof.
  unfold fn_eqb. rewrite !andb_true_iff, !eqb_true_iff, cop_eqb_eq, !pat_eqb_eq. destruct a, b; cbn.
  split; [intros ((((((-> & ->) & ->) & ->) & ->) & ->) & ->); reflexivity|intros E; injection E; intros; subst; tauto].
Qed.
Lemma cand_eqb_eq a b : cand_eqb a b = true <-> a = b.
Proof.
  unfold cand_eqb. rewrite !andb_true_iff, !eqb_true_iff, fn_eqb_eq. destruct a, b; cbn.
  split; [intros ((-> & ->) & ->); reflexivity|intros E; injection E; intros; subst; tauto].
Qed.
Lemma among_in v c : among v c = true <-> In c v.
Proof.
  unfold among. rewrite existsb_exists. split.
  - intros (d & Hd & E). apply cand_eqb_eq in E as ->. exact Hd.
  - intros H. exists c. split; [exact H|apply cand_eqb_eq; reflexivity].
Qed.

Definition three_conditional (m : mode) : bool :=
  forallb (fun c => implb (three_std (c_fn c)) (negb (unconditional (c_fn c)))) (candidates m CThree).
Lemma three_conditional_all : forallb three_conditional modes = true.
Proof. vm_compute. reflexivity. Qed.

Lemma value_conditional_all :
  forallb (fun m => forallb (fun c => negb (three_value (c_fn c) && unconditional (c_fn c))) (candidates m CThree))
    modes = true.
Proof. vm_compute. reflexivity. Qed.

Lemma coherent_viable m sat L R :
  coherent sat ->
  coherent_list (filter (deducible L R) (candidates m CThree)) (viable m sat CThree L R) = true.
Proof.
  intros (C1 & C2). unfold coherent_list.
  set (all := filter (deducible L R) (candidates m CThree)).
  assert (U : forall c, In c all -> three_std (c_fn c) = true -> unconditional (c_fn c) = false).
  { intros c Hc Ht. pose proof three_conditional_all as H. rewrite forallb_forall in H.
    specialize (H m (in_modes m)). unfold three_conditional in H. rewrite forallb_forall in H.
    apply filter_In in Hc as (Hc & _). specialize (H c Hc). rewrite Ht in H. cbn in H.
    destruct (unconditional (c_fn c)); [discriminate|reflexivity]. }
  assert (A : forall c, In c all -> among (viable m sat CThree L R) c = unconditional (c_fn c) || sat (c_fn c)).
  { intros c Hc. apply eq_true_iff_eq. rewrite among_in. unfold viable. fold all. rewrite filter_In. tauto. }
  apply forallb_forall. intros c Hc. apply forallb_forall. intros d Hd.
  rewrite (A c Hc), (A d Hd). rewrite !andb_true_iff. repeat split.
  - destruct (fn_eqb (c_fn c) (c_fn d)) eqn:E; [|reflexivity]. apply fn_eqb_eq in E as ->. apply eqb_reflx.
  - destruct (three_std (c_fn c)) eqn:Tc; [|reflexivity]. destruct (three_std (c_fn d)) eqn:Td; [|reflexivity].
    cbn [andb implb]. rewrite (U c Hc Tc), (U d Hd Td). cbn [orb]. rewrite (C1 _ _ Tc Td). apply eqb_reflx.
  - destruct (three_value (c_fn c)) eqn:Vc; [|reflexivity]. destruct (three_std (c_fn d)) eqn:Td; [|reflexivity].
    cbn [andb]. destruct (unconditional (c_fn c) || sat (c_fn c)) eqn:Sc; [|reflexivity].
    cbn [implb]. rewrite (U d Hd Td). cbn [orb].
    apply orb_true_iff in Sc as [Sc|Sc]; [|apply (C2 _ _ Vc Td Sc)].
    exfalso.
    (* <=> for values is always constrained *)
    pose proof Hc as Hc'. apply filter_In in Hc' as (Hc' & _).
    pose proof value_conditional_all as H. rewrite forallb_forall in H.
    specialize (H m (in_modes m)). rewrite forallb_forall in H. specialize (H c Hc').
    rewrite Vc, Sc in H. discriminate.
Qed.

(** ** The calls *)

Section Calls.
  Context {W : Type}.
  Variable E : env W.

  (** The function body that is called, by the parameter types of the function. *)
  Definition body (f : fn) (r : relop) (c : cmpops W) (A B : operand) : M W bool :=
    match f_l f, f_r f with
    | PNull, _ => match B with OpTiny i => cmp_null_opt E r i | _ => dead IllTyped end
    | _, PNull => match A with OpTiny i => cmp_opt_null E r i | _ => dead IllTyped end
    | PAny, _ => match A, B with OpVal v, OpTiny i => cmp_val_opt E c r v i | _, _ => dead IllTyped end
    | _, PAny => match A, B with OpTiny i, OpVal v => cmp_opt_val E c r i v | _, _ => dead IllTyped end
    | _, _ => cmp_opt_opt E c r A B
    end.
  Definition body3 (f : fn) (c : cmpops W) (A B : operand) : M W ordering :=
    match f_l f, f_r f with
    | _, PNull => match A with OpTiny i => three_opt_null E i | _ => dead IllTyped end
    | _, PAny => match A, B with OpTiny i, OpVal v => three_opt_val E c i v | _, _ => dead IllTyped end
    | PNull, _ | PAny, _ => dead IllTyped
    | _, _ => three_opt_opt E c A B
    end.

  (** The value of [L r R] and of [L <=> R] if the candidate [x] is chosen. *)
  Definition eval (x : cand) (c : cmpops W) (r : relop) (L R : operand) : M W bool :=
    let A := if c_rev x then R else L in
    let B := if c_rev x then L else R in
    match f_op (c_fn x) with
    | CRel q =>
        match c_rw x, r with
        | true, RNe => not_ (body (c_fn x) q c A B)
        | _, _ => body (c_fn x) q c A B
        end
    | CThree => o <- body3 (c_fn x) c A B ;; ret (ord_test r (if c_rev x then flip o else o))
    end.
  Definition eval3 (x : cand) (c : cmpops W) (L R : operand) : M W ordering :=
    if c_rev x
    then o <- body3 (c_fn x) c R L ;; ret (flip o)
    else body3 (c_fn x) c L R.
End Calls.

(** The static type [k] fits the operand. *)
Definition of_kind (A : operand) (k : kind) : bool :=
  match A, k with
  | OpTiny _, (KOpt | KOptSub | KImpl | KImplSub) => true
  | OpStd _, KStd => true
  | OpNull, KNull => true
  | OpVal _, KVal => true
  | _, _ => false
  end.

Definition o_tiny (A : operand) : bool := match A with OpTiny _ => true | _ => false end.
Definition o_std (A : operand) : bool := match A with OpStd _ => true | _ => false end.
Definition o_null (A : operand) : bool := match A with OpNull => true | _ => false end.
Lemma kind_of A k :
  of_kind A k = true ->
  k_tiny k = o_tiny A /\ match k with KStd => true | _ => false end = o_std A /\ is_null k = o_null A.
Proof. destruct A, k; intros H; try discriminate H; repeat split. Qed.

Lemma takes_inv A k p :
  of_kind A k = true -> takes k p = true ->
  match A with
  | OpTiny _ => p = POpt \/ p = PImpl
  | OpStd _ => p = PStd
  | OpNull => p = PNull
  | OpVal _ => p = PAny
  end.
Proof. destruct A, k; try discriminate; intros _; destruct p; intros H; try discriminate H; auto. Qed.

Lemma body_declared {W} (E : env W) f q c A B ka kb :
  of_kind A ka = true -> of_kind B kb = true -> k_tiny ka || k_tiny kb = true ->
  takes ka (f_l f) = true -> takes kb (f_r f) = true ->
  body E f q c A B = declared E c q A B.
Proof.
  intros Ha Hb Hk Ta Tb. pose proof (takes_inv _ _ _ Ha Ta) as Pa. pose proof (takes_inv _ _ _ Hb Tb) as Pb.
  unfold body.
  destruct A, B; try (destruct Pa as [Pa|Pa]); try (destruct Pb as [Pb|Pb]); rewrite Pa, ?Pb; try reflexivity;
    exfalso; destruct ka, kb; discriminate.
Qed.
Lemma body3_declared3 {W} (E : env W) f c A B ka kb :
  of_kind A ka = true -> of_kind B kb = true ->
  k_tiny ka || (match ka with KStd => true | _ => false end && k_tiny kb) = true ->
  takes ka (f_l f) = true -> takes kb (f_r f) = true ->
  body3 E f c A B = declared3 E c A B.
Proof.
  intros Ha Hb Hk Ta Tb. pose proof (takes_inv _ _ _ Ha Ta) as Pa. pose proof (takes_inv _ _ _ Hb Tb) as Pb.
  unfold body3.
  destruct A, B; try (destruct Pa as [Pa|Pa]); try (destruct Pb as [Pb|Pb]); rewrite Pa, ?Pb; try reflexivity;
    exfalso; destruct ka, kb; discriminate.
Qed.

(** What [rel_check] says about the chosen candidate. *)
Lemma resolve_rel m sat r L R :
  possible m = true -> supported L R = true ->
  exists x, resolve m sat (CRel r) L R = [x] /\ In x (viable m sat (CRel r) L R) /\
    fits L R x = true /\ right_op r x = true /\
    (m_rewrite m = false -> c_rw x = false) /\
    (r = REq \/ r = RNe -> is_null L || is_null R = false -> c_rw x = false) /\
    (c_rw x = true -> (r <> REq /\ r <> RNe) \/ is_null L || is_null R = false ->
     let A := if c_rev x then R else L in
     let B := if c_rev x then L else R in
     k_tiny A || (match A with KStd => true | _ => false end && k_tiny B) = true).
Proof.
  intros Hm Hs. pose proof (everywhere_ok _ _ rel_checked m sat (CRel r) L R (in_map _ _ _ (in_relops r))) as H.
  unfold rel_check in H. rewrite Hm, Hs in H. cbn [andb] in H. unfold resolve.
  destruct (best_of m L R (viable m sat (CRel r) L R)) as [|x [|? ?]]; try discriminate.
  exists x. split; [reflexivity|].
  apply andb_true_iff in H as (H & H6). apply andb_true_iff in H as (H & H5). apply andb_true_iff in H as (H & H4).
  apply andb_true_iff in H as (H & H3). apply andb_true_iff in H as (H1 & H2).
  split; [apply among_in, H1|]. split; [exact H2|]. split; [exact H3|].
  split; [intros G; rewrite G in H4; destruct (c_rw x); [discriminate|reflexivity]|].
  split.
  - intros G N. rewrite N in H5. destruct G as [-> | ->]; cbn in H5; destruct (c_rw x); try discriminate; reflexivity.
  - intros G K. cbv zeta. rewrite G in H6. cbn [andb] in H6.
    destruct K as [(K1 & K2)|K].
    + destruct r; try congruence; rewrite orb_true_r in H6; exact H6.
    + rewrite K in H6. exact H6.
Qed.

(** The value of the expression is the step of [Program.step] with the corresponding
    route. *)
Lemma eval_compare {W} (E : env W) m x c r L R kl kr :
  possible m = true -> supported kl kr = true -> of_kind L kl = true -> of_kind R kr = true ->
  fits kl kr x = true -> right_op r x = true ->
  (c_rw x = true -> (r <> REq /\ r <> RNe) \/ is_null kl || is_null kr = false ->
     let A := if c_rev x then kr else kl in
     let B := if c_rev x then kl else kr in
     k_tiny A || (match A with KStd => true | _ => false end && k_tiny B) = true) ->
  eval E x c r L R = compare E (route_of x) c r L R.
Proof.
  intros Hm Hs HL HR Hf Hr H3. unfold fits in Hf.
  apply andb_true_iff in Hf as (Hf & Tr). apply andb_true_iff in Hf as (_ & Tl).
  unfold supported in Hs. apply andb_true_iff in Hs as (Hk & _).
  unfold eval, route_of, right_op in *. destruct x as [f [|] rev]; cbn [c_fn c_rw c_rev] in *.
  - (* rewritten *)
    unfold c_l, c_r in Tl, Tr. cbn [c_fn c_rev] in Tl, Tr. cbv zeta in H3.
    assert (HA : of_kind (if rev then R else L) (if rev then kr else kl) = true) by (destruct rev; assumption).
    assert (HB : of_kind (if rev then L else R) (if rev then kl else kr) = true) by (destruct rev; assumption).
    assert (TA : takes (if rev then kr else kl) (f_l f) = true) by (destruct rev; assumption).
    assert (TB : takes (if rev then kl else kr) (f_r f) = true) by (destruct rev; assumption).
    assert (Hk' : k_tiny (if rev then kr else kl) || k_tiny (if rev then kl else kr) = true)
      by (destruct rev; [rewrite orb_comm|]; assumption).
    pose proof (fun q => body_declared E f q c _ _ _ _ HA HB Hk' TA TB) as D.
    cbn [compare].
    destruct r.
    + apply andb_true_iff in Hr as (Hr & _). apply cop_eqb_eq in Hr. rewrite Hr. apply D.
    + apply cop_eqb_eq in Hr. rewrite Hr, D. reflexivity.
    + apply cop_eqb_eq in Hr. rewrite Hr.
      rewrite (body3_declared3 E f c _ _ _ _ HA HB); auto; apply H3; [reflexivity|left; split; discriminate].
    + apply cop_eqb_eq in Hr. rewrite Hr.
      rewrite (body3_declared3 E f c _ _ _ _ HA HB); auto; apply H3; [reflexivity|left; split; discriminate].
    + apply cop_eqb_eq in Hr. rewrite Hr.
      rewrite (body3_declared3 E f c _ _ _ _ HA HB); auto; apply H3; [reflexivity|left; split; discriminate].
    + apply cop_eqb_eq in Hr. rewrite Hr.
      rewrite (body3_declared3 E f c _ _ _ _ HA HB); auto; apply H3; [reflexivity|left; split; discriminate].
  - apply andb_true_iff in Hr as (Hr & Hv). apply cop_eqb_eq in Hr. rewrite Hr.
    destruct rev; [discriminate|]. unfold c_l, c_r in Tl, Tr. cbn [c_fn c_rev] in Tl, Tr.
    cbn [compare]. apply (body_declared E f r c L R kl kr); assumption.
Qed.

(** The best candidate: viable, and better than every other viable one. *)
Definition chosen (m : mode) (sat : fn -> bool) (o : cop) (L R : kind) (x : cand) : Prop :=
  In x (viable m sat o L R) /\
  forall y, In y (viable m sat o L R) -> y <> x -> better m L R x y = true.

Lemma resolve_chosen m sat o L R x : resolve m sat o L R = [x] -> chosen m sat o L R x.
Proof.
  unfold resolve, best_of. intros H.
  assert (Hx : In x (filter (fun a => forallb (fun b => cand_eqb a b || better m L R a b) (viable m sat o L R))
                       (viable m sat o L R))) by (rewrite H; left; reflexivity).
  apply filter_In in Hx as (Hx & Hb). split; [exact Hx|]. intros y Hy Hn.
  rewrite forallb_forall in Hb. specialize (Hb y Hy). apply orb_true_iff in Hb as [Hb|Hb]; [|exact Hb].
  apply cand_eqb_eq in Hb. congruence.
Qed.
Lemma chosen_unique m sat o L R x y :
  resolve m sat o L R = [x] -> chosen m sat o L R y -> y = x.
Proof.
  intros H (Hy & Hb). unfold resolve, best_of in H.
  assert (In y (filter (fun a => forallb (fun b => cand_eqb a b || better m L R a b) (viable m sat o L R))
                       (viable m sat o L R))) as I.
  { apply filter_In. split; [exact Hy|]. apply forallb_forall. intros z Hz.
    destruct (cand_eqb y z) eqn:E; [reflexivity|]. cbn [orb]. apply Hb; [exact Hz|].
    intros ->. rewrite (proj2 (cand_eqb_eq y y) eq_refl) in E. discriminate. }
  rewrite H in I. destruct I as [I|[]]. congruence.
Qed.

(** *** The relational operators

    For every compilation, every pair of operand types and whatever the constraints
    on the payload types say: exactly one candidate is best; it is one of the header's,
    for these kinds of operands; and calling it has the result of the expression on
    the payloads that [evaluated] gives, or compares has_value() if an operand is
    empty.  Without rewritten candidates, and for [==] and [!=] unless an operand is
    nullopt, the payload's operator is the one that was written. *)
Theorem C53_relational_expressions :
  forall W (E : env W) w p s m sat c r L R kl kr x y,
    env_ok E -> contract E w p -> reaches E w p s ->
    possible m = true -> supported kl kr = true -> of_kind L kl = true -> of_kind R kr = true ->
    operand_after E w p L x -> operand_after E w p R y ->
    exists f,
      chosen m sat (CRel r) kl kr f /\ (forall g, chosen m sat (CRel r) kl kr g -> g = f) /\
      fits kl kr f = true /\
      (m_rewrite m = false \/ ((r = REq \/ r = RNe) /\ kl <> KNull /\ kr <> KNull) -> route_of f = RtDirect) /\
      forall res s', bool_ (eval E f c r L R) s = (res, s') ->
        mem s' = mem s /\ trace s' = trace s /\
        match x, y with
        | Some a, Some b =>
            let (z, w') := evaluated c (route_of f) r a b (world s) in res = bool_out z /\ world s' = w'
        | _, _ => res = Ok (ObBool (bool_rel r (is_some x) (is_some y))) /\ world s' = world s
        end.
Proof.
  intros W E w p s m sat c r L R kl kr x y HE C Hr Hm Hs HL HR Hx Hy.
  destruct (resolve_rel m sat r kl kr Hm Hs) as (f & F1 & F2 & F3 & F4 & F5 & F6 & F7).
  exists f. split; [apply resolve_chosen, F1|]. split; [intros g; apply chosen_unique, F1|].
  split; [exact F3|].
  assert (Hk : has_tiny L R = true).
  { unfold supported in Hs. apply andb_true_iff in Hs as (Hs & _).
    rewrite (proj1 (kind_of _ _ HL)), (proj1 (kind_of _ _ HR)) in Hs.
    destruct L, R; try discriminate Hs; reflexivity. }
  assert (Hd : forall rt, rt = route_of f -> m_rewrite m = false \/ ((r = REq \/ r = RNe) /\ kl <> KNull /\ kr <> KNull) -> rt = RtDirect).
  { intros rt -> [G|(G & N1 & N2)]; unfold route_of; [rewrite (F5 G); reflexivity|].
    rewrite (F6 G); [reflexivity|]. destruct kl, kr; try congruence; reflexivity. }
  split; [apply (Hd _ eq_refl)|].
  intros res s' He. rewrite (eval_compare E m f c r L R kl kr Hm Hs HL HR F3 F4 F7) in He.
  change (step E (OCompare (route_of f) c r L R) s = (res, s')) in He.
  assert (Hrt : route_defined (route_of f) r L R = true).
  { unfold route_of. destruct (c_rw f) eqn:Hrw; [|reflexivity].
    destruct r; try reflexivity; specialize (F7 eq_refl); cbv zeta in F7; cbn;
      (assert (F8 : k_tiny (if c_rev f then kr else kl) ||
        (match (if c_rev f then kr else kl) with KStd => true | _ => false end && k_tiny (if c_rev f then kl else kr)) = true)
        by (apply F7; left; split; discriminate);
       destruct (kind_of _ _ HL) as (L1 & L2 & _), (kind_of _ _ HR) as (R1 & R2 & _);
       destruct (c_rev f); rewrite ?L1, ?L2, ?R1, ?R2 in F8;
       destruct L, R; try discriminate F8; reflexivity). }
  destruct (with_null L R) eqn:Hn.
  - (* nullopt: no payload is compared *)
    pose proof (C28_relational_operators W E w p s (route_of f) c r L R x y res s' HE C Hr
      (conj Hrt (or_introl Hn)) Hx Hy Hk He) as (A1 & A2 & A3).
    split; [exact A1|]. split; [exact A2|].
    destruct L, R; try discriminate Hn; cbn in Hx, Hy; subst; exact A3 || (destruct x; exact A3).
  - eapply C28_evaluated_expression; eauto. intros ->. apply (Hd _ eq_refl). right.
    split; [left; reflexivity|]. pose proof (proj2 (proj2 (kind_of _ _ HL))) as NL. pose proof (proj2 (proj2 (kind_of _ _ HR))) as NR.
    split; intros ->; [destruct L|destruct R]; try discriminate; destruct L; discriminate.
Qed.

(** *** Three-way comparison *)

Lemma resolve_three m sat L R :
  possible m = true -> supported L R = true -> gcc_gap m L R = false -> coherent sat ->
  viable m sat CThree L R = [] \/
  exists x, resolve m sat CThree L R = [x] /\ fits L R x = true /\ f_op (c_fn x) = CThree /\
    c_rw x = c_rev x /\ (k_tiny L = true -> c_rev x = false) /\
    (k_tiny L = false -> c_rev x = false -> L = KStd).
Proof.
  intros Hm Hs Hg Hc. pose proof (everywhere_ok _ _ three_checked m sat CThree L R (or_introl eq_refl)) as H.
  unfold three_check in H. rewrite Hm, Hs, Hg, (coherent_viable m sat L R Hc) in H. cbn [andb negb] in H.
  unfold resolve. destruct (viable m sat CThree L R) as [|v0 vs] eqn:Hv; [left; reflexivity|]. right.
  destruct (best_of m L R (v0 :: vs)) as [|x [|? ?]]; try discriminate.
  exists x. split; [reflexivity|].
  apply andb_true_iff in H as (H & H6). apply andb_true_iff in H as (H & H5). apply andb_true_iff in H as (H & H4).
  apply andb_true_iff in H as (H & H3). apply andb_true_iff in H as (H1 & H2).
  split; [exact H2|]. split; [apply cop_eqb_eq, H3|]. split; [apply eqb_prop, H4|]. split.
  - intros K. rewrite K in H5. destruct (c_rev x); [discriminate|reflexivity].
  - intros K K2. rewrite K, K2 in H6. destruct L; try discriminate. reflexivity.
Qed.

Definition exists_check (m : mode) (L R : kind) : bool :=
  implb (possible m && supported L R && m_three m)
    (existsb (fun c => f_tiny (c_fn c) && cop_eqb (f_op (c_fn c)) CThree && deducible L R c) (candidates m CThree)).
Lemma exists_checked : forallb (fun m => forallb (fun L => forallb (exists_check m L) kinds) kinds) modes = true.
Proof. vm_compute. reflexivity. Qed.

(** [L <=> R] is never ambiguous; the chosen function is one of the header's for these
    kinds of operands and the expression has the meaning [Optional.three_way] (to which
    C30 applies); it is always available with nullopt, and for all operands if the
    payloads are three-way comparable.  Excluded is gcc with a std::optional on the left
    of optional_inplace or optional_sentinel_via_type, see below. *)
Theorem C53_three_way_expressions :
  forall W (E : env W) m sat c L R kl kr,
    possible m = true -> supported kl kr = true -> gcc_gap m kl kr = false -> coherent sat ->
    of_kind L kl = true -> of_kind R kr = true ->
    (viable m sat CThree kl kr = [] \/
     exists f,
       chosen m sat CThree kl kr f /\ (forall g, chosen m sat CThree kl kr g -> g = f) /\
       fits kl kr f = true /\
       eval3 E f c L R = three_way E (negb (c_rev f)) c L R) /\
    (m_three m = true -> (forall f, f_tiny f = true -> f_op f = CThree -> sat f = true) ->
     viable m sat CThree kl kr <> []).
Proof.
  intros W E m sat c L R kl kr Hm Hs Hg Hc HL HR. split.
  - destruct (resolve_three m sat kl kr Hm Hs Hg Hc) as [Hv|(f & F1 & F2 & F3 & F4 & F5 & F6)]; [left; exact Hv|right].
    exists f. split; [apply resolve_chosen, F1|]. split; [intros g; apply chosen_unique, F1|]. split; [exact F2|].
    unfold fits in F2. apply andb_true_iff in F2 as (F2 & Tr). apply andb_true_iff in F2 as (_ & Tl).
    unfold c_l, c_r in Tl, Tr. unfold supported in Hs. apply andb_true_iff in Hs as (Hk & _).
    unfold eval3. destruct (c_rev f) eqn:Hrev.
    + assert (K : k_tiny kl = false) by (destruct (k_tiny kl); [discriminate (F5 eq_refl)|reflexivity]).
      rewrite K in Hk. cbn [orb] in Hk.
      rewrite (body3_declared3 E (c_fn f) c R L kr kl); auto; [|rewrite Hk; reflexivity].
      destruct L, kl; try discriminate HL; try discriminate K; destruct R, kr; try discriminate HR; try discriminate Hk; reflexivity.
    + destruct (k_tiny kl) eqn:K.
      * rewrite (body3_declared3 E (c_fn f) c L R kl kr); auto; [|rewrite K; reflexivity].
        destruct L, kl; try discriminate HL; try discriminate K; destruct R; reflexivity.
      * rewrite (F6 eq_refl eq_refl) in *.
        rewrite (body3_declared3 E (c_fn f) c L R KStd kr); auto.
        destruct L; try discriminate HL. destruct R, kr; try discriminate HR; try discriminate Hk; reflexivity.
  - intros H3 Hsat. pose proof exists_checked as H. rewrite forallb_forall in H. specialize (H m (in_modes m)).
    rewrite forallb_forall in H. specialize (H kl (in_kinds kl)). rewrite forallb_forall in H.
    specialize (H kr (in_kinds kr)). unfold exists_check in H. rewrite Hm, Hs, H3 in H. cbn [andb implb] in H.
    apply existsb_exists in H as (d & Hd & H). apply andb_true_iff in H as (H & Hde).
    apply andb_true_iff in H as (Ht & Ho). apply cop_eqb_eq in Ho.
    assert (I : In d (viable m sat CThree kl kr)).
    { unfold viable. apply filter_In. split; [apply filter_In; split; assumption|].
      rewrite (Hsat _ Ht Ho). apply orb_true_r. }
    intros N. rewrite N in I. exact I.
Qed.

(** ** Disagreements *)

Section StdCalls.
  Context {W : Type}.
  Variable E : env W.
  (** The standard library's operators between a std::optional and a value, here a tiny
      optional ([optional.comp.with.t]). *)
  Definition std_eval (f : fn) (c : cmpops W) (r : relop) (L R : operand) : M W bool :=
    match f_l f, f_r f, L, R with
    | PStd, PAny, OpStd (Some a), _ => declared E c r (OpVal a) R
    | PStd, PAny, OpStd None, _ => ret (match r with RNe | RLt | RLe => true | _ => false end)
    | PAny, PStd, _, OpStd (Some b) => declared E c r L (OpVal b)
    | PAny, PStd, _, OpStd None => ret (match r with RNe | RGt | RGe => true | _ => false end)
    | _, _, _, _ => dead IllTyped
    end.
  Definition std_eval3 (f : fn) (c : cmpops W) (L R : operand) : M W ordering :=
    match f_l f, f_r f, L with
    | PStd, PAny, OpStd (Some a) => three_way E false c (OpVal a) R
    | PStd, PAny, OpStd None => ret OLess
    | _, _, _ => dead IllTyped
    end.
End StdCalls.

(** C++20 as corrected, and gcc's. *)
Definition conforming : mode := MkMode true false true true true true true.
Definition gcc20 : mode := MkMode true true true false true true true.
Definition cxx17 : mode := MkMode false false false false false false false.

(** A payload with an operator [<] (by the first member) and an unrelated [<=>]. *)
Definition odd_cmp : cmpops sworld_t :=
  MkCmp _ (fun r a b w => (ROk (key_rel r a b), w)) (fun a b w => (ROk OEquiv, w)).
Definition odd_history : list (op sworld_t) := [OInPlace 0 (mkP 3 7); OInPlace 1 (mkP 5 8)].

(** In C++20 [a < b] on tiny optionals whose payloads are three-way comparable calls
    the payload's [<=>], not its [<]: the header's [operator<=>] is more constrained than
    its [operator<] with the same parameters.  If the payload's operators disagree then
    so do std::optional and tiny::optional. *)
Theorem C28_rewritten_less_refuted :
  forall dbg, exists s f a b,
    contract (sample dbg) quiet odd_history /\ reaches (sample dbg) quiet odd_history s /\
    opt_after (sample dbg) quiet odd_history 0 (Some a) /\ opt_after (sample dbg) quiet odd_history 1 (Some b) /\
    chosen conforming (fun _ => true) (CRel RLt) KOpt KOpt f /\
    chosen gcc20 (fun _ => true) (CRel RLt) KOpt KOpt f /\
    (forall w, c_rel odd_cmp RLt a b w = (ROk true, w)) /\
    bool_ (eval (sample dbg) f odd_cmp RLt (OpTiny 0) (OpTiny 1)) s = (Ok (ObBool false), s) /\
    exists g,
      chosen cxx17 (fun _ => true) (CRel RLt) KOpt KOpt g /\
      bool_ (eval (sample dbg) g odd_cmp RLt (OpTiny 0) (OpTiny 1)) s = (Ok (ObBool true), s).
Proof.
  intros dbg. eexists. exists (MkCand (MkFn true CThree PImpl PImpl false false true) true false).
  eexists. eexists. split; [ex_contract|]. split; [ex_reaches|]. split; [ex_opt|]. split; [ex_opt|].
  split; [apply resolve_chosen; vm_compute; reflexivity|].
  split; [apply resolve_chosen; vm_compute; reflexivity|].
  split; [reflexivity|]. split; [run_it|].
  exists (MkCand (plain true (CRel RLt) PImpl PImpl) false false).
  split; [apply resolve_chosen; vm_compute; reflexivity|run_it].
Qed.

(** gcc (without CWG 2445), std::optional on the left of optional_inplace or
    optional_sentinel_via_type: the header's workaround declares [<=>] only for
    tiny::optional on the right, so the standard library's [<=>] for values is chosen.
    For two empty operands it says [less] although [==] says equal. *)
Definition empty_history : list (op sworld_t) := [ODefault 10].
Theorem C53_gcc_three_way_refuted :
  forall dbg, exists s f e,
    contract (sample dbg) quiet empty_history /\ reaches (sample dbg) quiet empty_history s /\
    opt_after (sample dbg) quiet empty_history 10 None /\
    possible gcc20 = true /\ supported KStd KImpl = true /\ coherent (fun _ => true) /\
    chosen gcc20 (fun _ => true) CThree KStd KImpl f /\ f_tiny (c_fn f) = false /\
    std_eval3 (sample dbg) (c_fn f) key_cmp (OpStd None) (OpTiny 10) s = (Ok OLess, s) /\
    chosen gcc20 (fun _ => true) (CRel REq) KStd KImpl e /\
    bool_ (eval (sample dbg) e key_cmp REq (OpStd None) (OpTiny 10)) s = (Ok (ObBool true), s) /\
    (* the conforming compiler chooses the header's operator *)
    exists g, chosen conforming (fun _ => true) CThree KStd KImpl g /\
      eval3 (sample dbg) g key_cmp (OpStd None) (OpTiny 10) s = (Ok OEquiv, s).
Proof.
  intros dbg. eexists. exists (MkCand (MkFn false CThree PStd PAny false true true) false false).
  exists (MkCand (plain true (CRel REq) PStd PImpl) false false).
  split; [ex_contract|]. split; [ex_reaches|]. split; [ex_opt|]. split; [reflexivity|]. split; [reflexivity|].
  split; [split; auto|]. split; [apply resolve_chosen; vm_compute; reflexivity|]. split; [reflexivity|].
  split; [run_it|]. split; [apply resolve_chosen; vm_compute; reflexivity|]. split; [run_it|].
  exists (MkCand (MkFn true CThree PImpl PStd false false true) true true).
  split; [apply resolve_chosen; vm_compute; reflexivity|run_it].
Qed.

(** A class derived from tiny::optional against a std::optional: in all compilations
    the standard library's operators for values are chosen (if its constraints allow
    that), so that two empty operands are unequal. *)
Theorem C53_derived_class_refuted :
  forall dbg m, possible m = true -> exists s f,
    contract (sample dbg) quiet empty_history /\ reaches (sample dbg) quiet empty_history s /\
    opt_after (sample dbg) quiet empty_history 10 None /\
    chosen m (fun _ => true) (CRel REq) KOptSub KStd f /\ f_tiny (c_fn f) = false /\
    bool_ (std_eval (sample dbg) (c_fn f) key_cmp REq (OpTiny 10) (OpStd None)) s = (Ok (ObBool false), s).
Proof.
  intros dbg m Hm. eexists. exists (MkCand (plain false (CRel REq) PAny PStd) false false).
  split; [ex_contract|]. split; [ex_reaches|]. split; [ex_opt|].
  split; [apply resolve_chosen; destruct m as [[] [] [] [] [] [] []]; try discriminate Hm; vm_compute; reflexivity|].
  split; [reflexivity|]. run_it.
Qed.

(** ** Examples: the hypotheses of the theorems, with optionals of different storage
    strategies, in three compilations. *)
Example C53_example dbg :
  exists s,
    contract (sample dbg) quiet cmp_history /\ reaches (sample dbg) quiet cmp_history s /\
    operand_after (sample dbg) quiet cmp_history (OpTiny 11) None /\
    operand_after (sample dbg) quiet cmp_history (OpStd (Some [Atom 3; Atom 1])) (Some [Atom 3; Atom 1]) /\
    possible conforming = true /\ possible gcc20 = true /\ possible cxx17 = true /\
    supported KOpt KStd = true /\ supported KNull KImpl = true /\ supported KVal KOptSub = true /\
    of_kind (OpTiny 11) KOpt = true /\
    (exists f, resolve conforming (fun _ => true) (CRel RLt) KOpt KStd = [f] /\
       bool_ (eval (sample dbg) f key_cmp RLt (OpTiny 11) (OpStd (Some [Atom 3; Atom 1]))) s = (Ok (ObBool true), s)) /\
    (exists f, resolve gcc20 (fun _ => true) (CRel RGe) KVal KImpl = [f] /\ route_of f = RtDirect /\
       bool_ (eval (sample dbg) f key_cmp RGe (OpVal [Atom 2]) (OpTiny 0)) s = (Ok (ObBool false), s)) /\
    (exists f, resolve conforming (fun _ => true) (CRel RGe) KVal KImpl = [f] /\ route_of f = RtRewritten true /\
       bool_ (eval (sample dbg) f key_cmp RGe (OpVal [Atom 2]) (OpTiny 0)) s = (Ok (ObBool false), s)) /\
    (exists f, resolve conforming (fun _ => true) (CRel RNe) KNull KOpt = [f] /\ route_of f = RtRewritten true /\
       bool_ (eval (sample dbg) f key_cmp RNe OpNull (OpTiny 11)) s = (Ok (ObBool false), s)).
Proof.
  eexists. split; [ex_contract|]. split; [ex_reaches|]. split; [ex_opt|]. split; [reflexivity|].
  do 7 (split; [reflexivity|]).
  split; [eexists; split; [vm_compute; reflexivity|run_it]|].
  split; [eexists; split; [vm_compute; reflexivity|split; [reflexivity|run_it]]|].
  split; [eexists; split; [vm_compute; reflexivity|split; [reflexivity|run_it]]|].
  eexists; split; [vm_compute; reflexivity|split; [reflexivity|run_it]].
Qed.
