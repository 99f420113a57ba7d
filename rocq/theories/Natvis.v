(** * Natvis: the debugger visualisation (C38)

    include/tiny_optional.natvis as a table of rules with expressions, and an evaluator
    for these expressions in the place of the debugger. *)

From Coq Require Import String List NArith ZArith Bool Arith Lia.
From Coq Require Import Floats.SpecFloat.
From Verif Require Import Cells CellsFacts Machine Laws Bits Manip IntRange Select Selection.
From Verif Require Import Optional Program Sample Sentinels Scalars Namespace.
Import ListNotations.
Local Arguments word : simpl never.

(** ** The names of the types *)

(** The two template arguments of TinyOptionalImpl, as the debugger sees them. *)
Inductive dname : Type :=
| DSeparate (P : cvty)                        (* DecompositionForSeparateFlag<P> *)
| DInplace (P : cvty)                         (* InplaceStoredTypeDecomposition<P> *)
| DMember (P : cvty) (off : nat) (t : cvty).  (* InplaceDecompositionViaMemPtr<P, m>,
                                                 m at offset [off] and of type [t] *)
Inductive mname : Type :=
| MSeparate                                   (* SeparateFlagManipulator *)
| MFlag (t : cvty)                            (* optional_flag_manipulator<t, void> *)
| MAssign (t : cvty) (v : const)              (* AssignmentFlagManipulator<t, v> *)
| MOther (f : manip).                         (* a class of the user *)

(** The type names that SelectDecomposition (optional.h:1904-2096) writes down. *)
Definition type_names (U : universe) (cf : config) (P : cvty) (a b : targ) : option (dname * mname) :=
  match sentinel_and_mem_ptr a b with
  | (ADefault, ADefault) =>
      Some (if has_custom U cf P then (DInplace P, MFlag P) else (DSeparate P, MSeparate))
  | (AVal v, ADefault) => Some (DInplace P, MAssign P v)
  | (sv, AVal (VMemObj _ t off)) =>
      if cf_mem cf
      then match off with
           | Some o => Some (DMember P o t, match sv with ADefault => MFlag t | AVal v => MAssign t v end)
           | None => None
           end
      else Some (DSeparate P, MSeparate)
  | _ => None
  end.

(** What these names stand for. *)
Definition denotes (U : universe) (cf : config) (n : dname * mname) (d : decomp) (f : manip) : Prop :=
  d = match fst n with
      | DSeparate P => separate U P
      | DInplace P => inplace U P
      | DMember P o t => dec_member (size_of U (base P)) o (size_of U (base t))
      end /\
  match snd n with
  | MSeparate => f = man_separate
  | MFlag t => flag_manipulator U cf t = Some f
  | MAssign t v => assignment_manip U (base t) v = Some f
  | MOther g => f = g
  end.
Lemma type_names_denote U cf P a b d f :
  optional_type U cf P a b = Chosen d f ->
  exists n, type_names U cf P a b = Some n /\ denotes U cf n d f.
Proof.
  intros H. apply C32_selection_as_documented in H as (_ & H).
  unfold type_names, sentinel_and_mem_ptr, denotes, has_custom.
  destruct H as [b Hf|b g Hf|v b g Hv Hf|c t off g Hm -> Hf|c t off v g Hm -> Hf|c t off b Hm ->].
  - cbn. rewrite Hf. eexists; split; [reflexivity|]. cbn; auto.
  - cbn. rewrite Hf. eexists; split; [reflexivity|]. cbn; auto.
  - rewrite Hv. eexists; split; [reflexivity|]. cbn; auto.
  - cbn. rewrite Hm. eexists; split; [reflexivity|]. cbn; auto.
  - cbn. rewrite Hm. eexists; split; [reflexivity|]. cbn; auto.
  - cbn. rewrite Hm. exists (DSeparate (plain c), MSeparate). destruct b; split; cbn; auto.
Qed.

(** ** Expressions of the natvis file *)

Inductive dexpr : Type :=
| XIsEmptyFlag                 (* mStorage.isEmptyFlag *)
| XStorage                     (* mStorage.storage *)
| XRead (t : ity) (m : bool)   (* *(t* )(((unsigned char* )&mStorage.storage) + $T2); without
                                  [+ $T2] if not [m] *)
| XMember                      (* *(FlagType* )(((unsigned char* )&mStorage.storage) + $T2) *)
| XSentinel                    (* $T2::valueToIndicateEmpty or $T3::valueToIndicateEmpty *)
| XLit (t : ity) (z : Z)
| XMinus (a b : dexpr)
| XCast (t : ity) (a : dexpr)  (* (t)(void* )a *)
| XSizeof (a : dexpr)          (* sizeof(&*a) *)
| XEq (a b : dexpr)
| XCond (a b c : dexpr).

Definition uchar : ity := MkIty 1 false.
Definition uint : ity := MkIty 4 false.
Definition llong : ity := MkIty 8 true.
Definition ullong : ity := MkIty 8 false.

(** ** The rules *)

(** Patterns for the two template arguments; [*] matches everything. *)
Inductive pat1 : Type := PSeparate | PInplace | PMember | PAny1.
Inductive pat2 : Type := PSepMan | PFlagOf (t : cvty) | PFlagAny | PAny2.
(** [IsEmpty] of a rule; [None]: the rule shows the raw storage. *)
Definition rule : Type := (pat1 * pat2 * option dexpr)%type.

Definition ptr_test (p : dexpr) : dexpr :=
  XCond (XEq (XSizeof p) (XLit int_type 4))
        (XEq (XCast uint p) (XMinus (XLit uint 0xffffffff) (XLit int_type 8)))
        (XEq (XCast ullong p) (XMinus (XLit ullong 0xffff800000000000) (XLit int_type 1))).

(** The types of literals are those of C++ (a hexadecimal literal has the first of the
    types int, unsigned int, long long that can represent it; long like int or long long). *)
Definition rules : list rule :=
  [ (PSeparate, PSepMan, Some XIsEmptyFlag);                                   (* natvis 50-58 *)
    (PInplace, PFlagOf (plain UBool), Some (XEq (XRead uchar false) (XLit int_type 0xfe)));
    (PMember, PFlagOf (plain UBool), Some (XEq (XRead uchar true) (XLit int_type 0xfe)));
    (PInplace, PFlagOf (plain UDouble), Some (XEq (XRead ullong false) (XLit llong 0x7ff8fedcba987654)));
    (PMember, PFlagOf (plain UDouble), Some (XEq (XRead ullong true) (XLit llong 0x7ff8fedcba987654)));
    (PInplace, PFlagOf (plain UFloat), Some (XEq (XRead uint false) (XLit int_type 0x7fedcba9)));
    (PMember, PFlagOf (plain UFloat), Some (XEq (XRead uint true) (XLit int_type 0x7fedcba9)));
    (PInplace, PFlagAny, Some (ptr_test XStorage));
    (PMember, PFlagAny, Some (ptr_test XMember));
    (PInplace, PAny2, Some (XEq XStorage XSentinel));
    (PMember, PAny2, Some (XEq XMember XSentinel));
    (PAny1, PAny2, None) ].

Definition match1 (p : pat1) (d : dname) : bool :=
  match p, d with
  | PSeparate, DSeparate _ | PInplace, DInplace _ | PMember, DMember _ _ _ | PAny1, _ => true
  | _, _ => false
  end.
Definition match2 (p : pat2) (m : mname) : bool :=
  match p, m with
  | PSepMan, MSeparate => true
  | PFlagOf t, MFlag t' => cvty_eqb t t'
  | PFlagAny, MFlag _ => true
  | PAny2, _ => true
  | _, _ => false
  end.
Definition applies (n : dname * mname) (r : rule) : bool :=
  match1 (fst (fst r)) (fst n) && match2 (snd (fst r)) (snd n).

(** The debugger takes the first rule whose pattern matches (see
    [C38_rules_unambiguous] for why the order does not matter). *)
Definition rule_for (n : dname * mname) : option rule := find (applies n) rules.

(** ** The evaluator *)

(** Values: of arithmetic type, results of comparisons, objects. *)
Inductive dval : Type := AInt (t : ity) (z : Z) | ABool (b : bool) | AObj (t : uty) (r : rep).

Definition read_int (t : ity) (r : rep) : option Z :=
  match unword r with Some x => Some (value_of t x) | None => None end.
(** C++'s built-in == for two objects of the same type; natvis cannot call functions,
    which excludes operator== of classes. *)
Definition obj_eq (U : universe) (t : uty) (r s : rep) : option bool :=
  match t with
  | UBool => match r, s with
             | [Byte x], [Byte y] =>
                 if (N.ltb x 2 && N.ltb y 2)%bool then Some (N.eqb x y) else None
             | _, _ => None
             end
  | UInt _ | UEnum _ =>
      let k := match t with UInt k => u_int U k | UEnum n => u_enum U n | _ => int_type end in
      match read_int k r, read_int k s with
      | Some x, Some y => Some (cpp_eq k k x y)
      | _, _ => None
      end
  | UFloat => match unword r, unword s with Some x, Some y => Some (f_eqb binary32 x y) | _, _ => None end
  | UDouble => match unword r, unword s with Some x, Some y => Some (f_eqb binary64 x y) | _, _ => None end
  | ULongDouble => u_ld_eq U r s
  | UPtr _ => match unword r, unword s with Some x, Some y => Some (N.eqb x y) | _, _ => None end
  | _ => None
  end.

Section Eval.
  Variable U : universe.
  Variable n : dname * mname.      (* the type of the optional *)
  Variable c : rep.                (* the memory of mStorage *)

  Fixpoint eval (e : dexpr) : option dval :=
    match e with
    | XIsEmptyFlag =>
        match fst n with
        | DSeparate P =>
            match sub (size_of U (base P)) 1 c with
            | [Byte 0%N] => Some (ABool false)
            | [Byte 1%N] => Some (ABool true)
            | _ => None
            end
        | _ => None
        end
    | XStorage =>
        match fst n with
        | DInplace P => Some (AObj (base P) (sub 0 (size_of U (base P)) c))
        | _ => None
        end
    | XRead t m =>
        let off := match fst n, m with DMember _ o _, true => o | _, _ => 0 end in
        match read_int t (sub off (it_bytes t) c) with Some z => Some (AInt t z) | None => None end
    | XMember =>
        match fst n with
        | DMember _ o t => Some (AObj (base t) (sub o (size_of U (base t)) c))
        | _ => None
        end
    | XSentinel =>
        (* the static member of AssignmentFlagManipulator (optional.h:814-815), of the
           flag's type; its value is what init_empty_flag stores (832-842) *)
        match snd n with
        | MAssign t v => match assignment_manip U (base t) v with
                         | Some f => Some (AObj (base t) (m_init f []))
                         | None => None
                         end
        | _ => None
        end
    | XLit t z => Some (AInt t z)
    | XMinus a b =>
        match eval a, eval b with
        | Some (AInt s x), Some (AInt t y) =>
            let k := common (promote s) (promote t) in
            Some (AInt k (conv k (conv k x - conv k y)))
        | _, _ => None
        end
    | XCast t a =>
        match eval a with
        | Some (AObj (UPtr _) r) =>
            match unword r with Some x => Some (AInt t (conv t (Z.of_N x))) | None => None end
        | _ => None
        end
    | XSizeof a =>
        match eval a with
        | Some (AObj (UPtr k) _) => Some (AInt ullong (Z.of_nat (size_of U (UPtr k))))
        | _ => None
        end
    | XEq a b =>
        match eval a, eval b with
        | Some (AInt s x), Some (AInt t y) => Some (ABool (cpp_eq s t x y))
        | Some (AObj s x), Some (AObj t y) =>
            if uty_eqb s t
            then match obj_eq U s x y with Some b => Some (ABool b) | None => None end
            else None
        | _, _ => None
        end
    | XCond a b c =>
        match eval a with
        | Some (ABool true) => eval b
        | Some (ABool false) => eval c
        | _ => None
        end
    end.

  (** What is displayed: [Some true]: "nullopt (optional is empty)", [Some false]: "Not
      empty", [None]: the raw storage, because the rule says so or because its
      expression cannot be evaluated. *)
  Definition display : option bool :=
    match rule_for n with
    | Some (_, Some e) => match eval e with Some (ABool b) => Some b | _ => None end
    | _ => None
    end.
End Eval.

(** The visualisation of [optional<P, a, b>] with memory [c], by a natvis file for the
    inline namespace [ns]; [None]: nothing about the emptiness is shown. *)
Definition visualize (ns : string) (v : N) (U : universe) (cf : config) (P : cvty) (a b : targ)
  (c : rep) : option bool :=
  if String.eqb ns (inline_ns v cf)
  then match type_names U cf P a b with
       | Some n => display U n c
       | None => None
       end
  else None.

(** ** Facts about comparisons *)

Lemma conv_in_range t z : 0 < it_bytes t -> in_range t z -> conv t z = z.
Proof. intros Hb H. unfold conv. apply value_pattern; assumption. Qed.
Lemma cpp_eq_range a b x y :
  let k := common (promote a) (promote b) in
  0 < it_bytes k -> in_range k x -> in_range k y -> cpp_eq a b x y = Z.eqb x y.
Proof. intros k Hk Hx Hy. unfold cpp_eq. fold k. rewrite !conv_in_range by assumption. reflexivity. Qed.
Lemma promote_range t x : 0 < it_bytes t -> in_range t x -> in_range (promote t) x.
Proof.
  unfold promote. destruct t as [n s]. cbn [it_bytes]. destruct (Nat.ltb_spec n 4) as [L|L]; [|auto].
  intros Hb H. unfold in_range, it_min, it_max in *. cbn [it_bytes it_signed int_type] in *.
  change (Z.of_N (modulus 4) / 2)%Z with 2147483648%Z.
  destruct n as [|[|[|[|n]]]]; [lia| | | |lia].
  - change (Z.of_N (modulus 1) / 2)%Z with 128%Z in *. change (modulus 1) with 256%N in *. destruct s; lia.
  - change (Z.of_N (modulus 2) / 2)%Z with 32768%Z in *. change (modulus 2) with 65536%N in *. destruct s; lia.
  - change (Z.of_N (modulus 3) / 2)%Z with 8388608%Z in *. change (modulus 3) with 16777216%N in *. destruct s; lia.
Qed.
Lemma promote_bytes t : 0 < it_bytes t -> 0 < it_bytes (promote t).
Proof. unfold promote. destruct (Nat.ltb _ _); cbn; lia. Qed.
Lemma common_same t : common t t = t.
Proof. unfold common. rewrite Bool.eqb_reflx, Nat.leb_refl. reflexivity. Qed.
Lemma cpp_eq_same t x y : 0 < it_bytes t -> in_range t x -> in_range t y -> cpp_eq t t x y = Z.eqb x y.
Proof.
  intros Hb Hx Hy. apply cpp_eq_range; rewrite common_same.
  - apply promote_bytes, Hb.
  - apply promote_range; assumption.
  - apply promote_range; assumption.
Qed.

(** Memory consists of bytes. *)
Definition bytes_only (c : rep) : Prop := forall b, In (Byte b) c -> (b < 256)%N.
Lemma bytes_only_sub off n c : bytes_only c -> bytes_only (sub off n c).
Proof.
  intros H b Hb. apply H. unfold sub in Hb.
  rewrite <- (firstn_skipn off c). apply in_or_app. right.
  rewrite <- (firstn_skipn n (skipn off c)). apply in_or_app. left. exact Hb.
Qed.
Lemma unbytes_bytes c l : bytes_only c -> unbytes c = Some l -> Forall (fun b => (b < 256)%N) l.
Proof.
  revert l. induction c as [|[|b|z] c IH]; intros l Hc H; cbn in H; try discriminate.
  - injection H as <-. constructor.
  - destruct (unbytes c) as [l'|] eqn:El; [|discriminate]. injection H as <-. constructor.
    + apply Hc. left. reflexivity.
    + apply IH; [|reflexivity]. intros x Hx. apply Hc. right. exact Hx.
Qed.
Lemma of_bytes_lt l : Forall (fun b => (b < 256)%N) l -> (of_bytes_le l < modulus (length l))%N.
Proof.
  induction 1 as [|b l Hb _ IH]; [reflexivity|]. cbn [of_bytes_le length].
  rewrite modulus_S. lia.
Qed.
Lemma bytes_of_bytes l : Forall (fun b => (b < 256)%N) l -> bytes_le (length l) (of_bytes_le l) = l.
Proof.
  induction 1 as [|b l Hb _ IH]; [reflexivity|]. cbn [of_bytes_le length bytes_le].
  rewrite (N.mul_comm 256), N.mod_add, N.div_add by lia.
  rewrite N.mod_small, N.div_small by exact Hb. rewrite N.add_0_l, IH. reflexivity.
Qed.
Lemma map_unbytes c l : unbytes c = Some l -> c = map Byte l.
Proof.
  revert l. induction c as [|[|b|z] c IH]; intros l H; cbn in H; try discriminate.
  - injection H as <-. reflexivity.
  - destruct (unbytes c) as [l'|] eqn:El; [|discriminate]. injection H as <-.
    cbn. rewrite (IH l') by reflexivity. reflexivity.
Qed.
(** Determinate memory is a word. *)
Lemma as_word c x : bytes_only c -> unword c = Some x ->
  (x < modulus (length c))%N /\ c = word (length c) x.
Proof.
  intros Hc H. unfold unword in H. destruct (unbytes c) as [l|] eqn:El; [|discriminate].
  injection H as <-. pose proof (unbytes_bytes c l Hc El) as Hl.
  pose proof (unbytes_length c l El) as L. rewrite <- L. split; [apply of_bytes_lt, Hl|].
  unfold word. rewrite bytes_of_bytes by exact Hl. apply map_unbytes, El.
Qed.

(** ** C38: the rules *)

(** [p] matches only what [q] matches. *)
Definition more_special (r q : rule) : Prop := forall n, applies n r = true -> applies n q = true.

Definition sub1 (p q : pat1) : bool :=
  match p, q with
  | _, PAny1 | PSeparate, PSeparate | PInplace, PInplace | PMember, PMember => true
  | _, _ => false
  end.
Definition sub2 (p q : pat2) : bool :=
  match p, q with
  | _, PAny2 | PSepMan, PSepMan | PFlagAny, PFlagAny | PFlagOf _, PFlagAny => true
  | PFlagOf t, PFlagOf u => cvty_eqb t u
  | _, _ => false
  end.
Lemma sub_more_special r q :
  sub1 (fst (fst r)) (fst (fst q)) && sub2 (snd (fst r)) (snd (fst q)) = true -> more_special r q.
Proof.
  destruct r as [[p1 p2] e], q as [[q1 q2] e']. cbn [fst snd]. intros H [d m].
  apply andb_true_iff in H as (H1 & H2). unfold applies. cbn [fst snd]. rewrite !andb_true_iff.
  intros (K1 & K2). split.
  - destruct p1, q1, d; cbn in *; congruence.
  - destruct p2, q2, m; cbn in *; try congruence.
    apply cvty_eqb_eq in H2, K2. apply cvty_eqb_eq. congruence.
Qed.

(** For every type the rule that is taken is more special than all other rules that
    match: taking the first one and taking the most special one are the same. *)
Theorem C38_rules_unambiguous :
  forall n, exists r, rule_for n = Some r /\ In r rules /\ applies n r = true /\
    forall q, In q rules -> applies n q = true -> more_special r q.
Proof.
  intros n. destruct (rule_for n) as [r|] eqn:R.
  - exists r. pose proof (find_some _ _ R) as (Hi & Ha). repeat split; auto.
    intros q Hq Hn. apply sub_more_special.
    assert (K : forallb (fun q => implb (applies n q)
              (sub1 (fst (fst r)) (fst (fst q)) && sub2 (snd (fst r)) (snd (fst q)))) rules = true).
    { clear Hi Ha Hq Hn q. destruct n as [d m]. unfold rule_for in R. destruct d, m; cbn in R;
        try (injection R as <-; reflexivity);
        repeat (match type of R with context [cvty_eqb ?a ?b] => destruct (cvty_eqb a b) eqn:? end);
        repeat (match goal with H : cvty_eqb _ _ = true |- _ => apply cvty_eqb_eq in H; subst end);
        try discriminate; injection R as <-; cbn;
        repeat (match goal with H : cvty_eqb ?a ?b = false |- _ => rewrite ?H; clear H end);
        reflexivity. }
    rewrite forallb_forall in K. specialize (K q Hq). rewrite Hn in K. exact K.
  - exfalso. pose proof (find_none _ _ R (PAny1, PAny2, None)) as H.
    assert (In (PAny1, PAny2, @None dexpr) rules) as Hi by (cbn; tauto). specialize (H Hi). discriminate.
Qed.

(** ** C38: the answers *)

(** Types with known unused bit patterns. *)
Definition builtin (t : uty) : bool :=
  match t with UBool | UFloat | UDouble | UPtr _ => true | _ => false end.
(** Types that have a built-in operator==. *)
Definition comparable (t : uty) : bool :=
  match t with UBool | UInt _ | UEnum _ | UFloat | UDouble | ULongDouble | UPtr _ => true | _ => false end.

Definition by_type (t : cvty) : bool :=
  (builtin (base t) && negb (cv_const t || cv_volatile t)) || is_pointer (base t).

(** The optionals whose emptiness the natvis file can display: *)
Definition supported (U : universe) (cf : config) (P : cvty) (a b : targ) : bool :=
  match a, b with
  (* optional<P> with a separate flag, or with the unused bits of a type without const
     and volatile, or of a pointer *)
  | ADefault, _ => negb (has_custom U cf P) || by_type P
  (* optional<P, &P::m>, likewise *)
  | AVal (VMemObj _ t _), ADefault => negb (cf_mem cf) || by_type t
  (* optional<P, &P::m, sentinel>, for scalar types *)
  | AVal (VMemObj _ t _), AVal _ => negb (cf_mem cf) || comparable (base t)
  (* optional<P, sentinel>, for scalar types *)
  | AVal _, _ => comparable (base P)
  end.

Lemma memcmp_test n s0 fc e :
  bytes_only fc -> length fc = n -> (s0 < modulus n)%N ->
  m_is_empty (man_memcmp (bytes_le n s0)) fc = Some e ->
  exists x, unword fc = Some x /\ (x < modulus n)%N /\ e = N.eqb x s0.
Proof.
  intros Hb L Hs H.
  assert (exists x, unword fc = Some x) as (x & Hx).
  { cbn in H. rewrite length_bytes_le, <- L, firstn_all in H. unfold unword.
    destruct (unbytes fc); [eauto|discriminate]. }
  destruct (as_word fc x Hb Hx) as (Lx & E). rewrite L in *. exists x. split; [exact Hx|]. split; [exact Lx|].
  rewrite E, memcmp_word in H by assumption. congruence.
Qed.

Lemma cpp_eq_lit t k x z :
  let c := common (promote t) (promote k) in
  it_signed t = false -> 0 < it_bytes c -> (x < modulus (it_bytes t))%N ->
  (Z.of_N (modulus (it_bytes t)) - 1 <= it_max c)%Z -> (it_min c <= 0)%Z ->
  in_range c (Z.of_N z) ->
  cpp_eq t k (value_of t x) (Z.of_N z) = N.eqb x z.
Proof.
  intros c Hs Hc Hx Hm Hm' Hz.
  assert (value_of t x = Z.of_N x) as -> by (unfold value_of; rewrite Hs; reflexivity).
  rewrite cpp_eq_range; fold c; auto.
  - destruct (Z.eqb_spec (Z.of_N x) (Z.of_N z)), (N.eqb_spec x z); try reflexivity; lia.
  - unfold in_range in *. lia.
Qed.

(** The rule for optional_flag_manipulator<t>. *)
Inductive flag_at (t : cvty) (m : mname) : dname * mname -> nat -> Prop :=
| at_inplace : flag_at t m (DInplace t, m) 0
| at_member P o : flag_at t m (DMember P o t, m) o.


Lemma eval_read U t m n off c x k :
  flag_at t m n off -> unword (sub off (it_bytes k) c) = Some x ->
  eval U n c (XRead k (match fst n with DMember _ _ _ => true | _ => false end)) =
  Some (AInt k (value_of k x)).
Proof. intros A H. destruct A; cbn; unfold read_int; rewrite H; reflexivity. Qed.

Lemma ptr_display U t k n off c x m :
  flag_at t m n off -> base t = UPtr k ->
  let sz := if u_x64 U then 8 else 4 in
  unword (sub off sz c) = Some x -> (x < modulus sz)%N ->
  eval U n c (ptr_test (match fst n with DMember _ _ _ => XMember | _ => XStorage end)) =
  Some (ABool (N.eqb x (if u_x64 U then sent_ptr64 else sent_ptr32))).
Proof.
  intros A Hk sz Hx Lx.
  assert (HE : eval U n c (match fst n with DMember _ _ _ => XMember | _ => XStorage end) =
               Some (AObj (UPtr k) (sub off sz c))).
  { destruct A; cbn; rewrite Hk; cbn; unfold sz; destruct (u_x64 U); reflexivity. }
  set (p := match fst n with DMember _ _ _ => XMember | _ => XStorage end) in *.
  unfold ptr_test. cbn [eval]. rewrite HE. cbv zeta. rewrite Hx.
  change (size_of U (UPtr k)) with sz. unfold sz in *.
  destruct (u_x64 U).
  - change (cpp_eq ullong int_type (Z.of_nat 8) 4) with false. cbv beta iota.
    change (conv (common (promote ullong) (promote int_type))
             (conv (common (promote ullong) (promote int_type)) 0xffff800000000000 -
              conv (common (promote ullong) (promote int_type)) 1)) with (Z.of_N sent_ptr64).
    change (common (promote ullong) (promote int_type)) with ullong.
    do 2 f_equal. replace (conv ullong (Z.of_N x)) with (value_of ullong x).
    + apply cpp_eq_lit; cbn; try reflexivity; try lia; try assumption; vm_compute; split; discriminate.
    + unfold conv. f_equal. unfold pattern. rewrite Z.mod_small, N2Z.id; [reflexivity|].
      change (it_bytes ullong) with 8. lia.
  - change (cpp_eq ullong int_type (Z.of_nat 4) 4) with true. cbv beta iota.
    change (conv (common (promote uint) (promote int_type))
             (conv (common (promote uint) (promote int_type)) 0xffffffff -
              conv (common (promote uint) (promote int_type)) 8)) with (Z.of_N sent_ptr32).
    change (common (promote uint) (promote int_type)) with uint.
    do 2 f_equal. replace (conv uint (Z.of_N x)) with (value_of uint x).
    + apply cpp_eq_lit; cbn; try reflexivity; try lia; try assumption; vm_compute; split; discriminate.
    + unfold conv. f_equal. unfold pattern. rewrite Z.mod_small, N2Z.id; [reflexivity|].
      change (it_bytes uint) with 4. lia.
Qed.

Lemma scalar_test U t m n off c x k z ty :
  flag_at t m n off -> unword (sub off (it_bytes k) c) = Some x ->
  let q := common (promote k) (promote ty) in
  it_signed k = false -> 0 < it_bytes q -> (x < modulus (it_bytes k))%N ->
  (Z.of_N (modulus (it_bytes k)) - 1 <= it_max q)%Z -> (it_min q <= 0)%Z ->
  in_range q (Z.of_N z) ->
  eval U n c (XEq (XRead k (match fst n with DMember _ _ _ => true | _ => false end)) (XLit ty (Z.of_N z)))
  = Some (ABool (N.eqb x z)).
Proof.
  intros A Hx q H1 H2 H3 H4 H5 H6. cbn [eval].
  pose proof (eval_read U t m n off c x k A Hx) as E. cbn [eval] in E. rewrite E.
  do 2 f_equal. apply cpp_eq_lit; assumption.
Qed.

Lemma flag_display U cf t n off c f e :
  flag_at t (MFlag t) n off ->
  (builtin (base t) = true -> u_spec U t = None) ->
  flag_manipulator U cf t = Some f ->
  let fc := sub off (size_of U (base t)) c in
  length fc = size_of U (base t) -> bytes_only c ->
  m_is_empty f fc = Some e ->
  display U n c = if by_type t then Some e else None.
Proof.
  intros A Hspec Hf fc L Hb He.
  assert (Hbf : bytes_only fc) by (apply bytes_only_sub, Hb).
  destruct (builtin (base t)) eqn:Hbt.
  - unfold flag_manipulator in Hf. rewrite Hspec in Hf by reflexivity.
    destruct (sentinel_known cf t); [|discriminate]. injection Hf as <-.
    destruct (is_pointer (base t)) eqn:Hp.
    + destruct (base t) as [| | | | |k| | | | | |] eqn:Hk; try discriminate.
      set (sz := if u_x64 U then 8 else 4) in *.
      assert (exists x, unword fc = Some x /\ (x < modulus sz)%N /\
                e = N.eqb x (if u_x64 U then sent_ptr64 else sent_ptr32)) as (x & Hx & Lx & ->).
      { cbn [unused_bits_manip] in He. subst sz. cbn [size_of] in *. unfold fc in *.
        destruct (u_x64 U); apply memcmp_test in He; auto; reflexivity. }
      pose proof (ptr_display U t k n off c x _ A Hk Hx Lx) as E.
      unfold by_type. rewrite Hk. rewrite orb_true_r.
      assert (Hn : forall u, base u <> UPtr k -> cvty_eqb u t = false).
      { intros u Hu. destruct (cvty_eqb u t) eqn:Q; [|reflexivity]. apply cvty_eqb_eq in Q. congruence. }
      unfold display, rule_for. destruct A; cbn [find rules applies match1 match2 fst snd andb];
        rewrite !Hn by discriminate; cbn [fst] in E; rewrite E; reflexivity.
    + destruct (cv_const t || cv_volatile t) eqn:Hq.
      * unfold by_type. rewrite Hbt, Hp, Hq. cbn [negb andb orb].
        assert (Hn : forall u, cvty_eqb (plain u) t = false).
        { intros u. destruct (cvty_eqb (plain u) t) eqn:Q; [|reflexivity]. apply cvty_eqb_eq in Q.
          subst t. discriminate. }
        unfold display, rule_for. destruct A; cbn [find rules applies match1 match2 fst snd andb];
          rewrite !Hn; cbn; destruct (base t); try discriminate; reflexivity.
      * assert (Ht : t = plain (base t)).
        { destruct t as [[] [] bt]; try discriminate. reflexivity. }
        unfold by_type. rewrite Hbt, Hq. cbn [negb andb orb]. rewrite Ht in A.
        destruct (base t) eqn:Hk; try discriminate; clear Ht Hk;
          (apply memcmp_test in He; [|exact Hbf|exact L|reflexivity]);
          destruct He as (x & Hx & Lx & ->).
        -- pose proof (scalar_test U _ _ n off c x uchar sent_bool int_type A Hx) as E.
           assert (H : eval U n c (XEq (XRead uchar (match fst n with DMember _ _ _ => true | _ => false end))
                        (XLit int_type (Z.of_N sent_bool))) = Some (ABool (N.eqb x sent_bool))).
           { apply E; try reflexivity; try exact Lx; try (vm_compute; lia); vm_compute; try split; discriminate. }
           clear E. unfold display, rule_for. destruct A; cbn -[eval N.eqb sent_bool]; cbn [fst] in H;
             change (Z.of_N sent_bool) with 0xfe%Z in H; rewrite H; reflexivity.
        -- pose proof (scalar_test U _ _ n off c x uint sent_float int_type A Hx) as E.
           assert (H : eval U n c (XEq (XRead uint (match fst n with DMember _ _ _ => true | _ => false end))
                        (XLit int_type (Z.of_N sent_float))) = Some (ABool (N.eqb x sent_float))).
           { apply E; try reflexivity; try exact Lx; try (vm_compute; lia); vm_compute; try split; discriminate. }
           clear E. unfold display, rule_for. destruct A; cbn -[eval N.eqb sent_float]; cbn [fst] in H;
             change (Z.of_N sent_float) with 0x7fedcba9%Z in H; rewrite H; reflexivity.
        -- pose proof (scalar_test U _ _ n off c x ullong sent_double llong A Hx) as E.
           assert (H : eval U n c (XEq (XRead ullong (match fst n with DMember _ _ _ => true | _ => false end))
                        (XLit llong (Z.of_N sent_double))) = Some (ABool (N.eqb x sent_double))).
           { apply E; try reflexivity; try exact Lx; try (vm_compute; lia); vm_compute; try split; discriminate. }
           clear E. unfold display, rule_for. destruct A; cbn -[eval N.eqb sent_double]; cbn [fst] in H;
             change (Z.of_N sent_double) with 0x7ff8fedcba987654%Z in H; rewrite H; reflexivity.
  - (* a manipulator of the user *)
    assert (Hp : is_pointer (base t) = false) by (destruct (base t); auto; discriminate).
    unfold by_type. rewrite Hbt, Hp. cbn [andb orb].
    assert (Hn : forall u, builtin (base u) = true -> cvty_eqb u t = false).
    { intros u Hu. destruct (cvty_eqb u t) eqn:Q; [|reflexivity]. apply cvty_eqb_eq in Q. congruence. }
    unfold display, rule_for. destruct A; cbn [find rules applies match1 match2 fst snd andb];
      rewrite !Hn by reflexivity; cbn; destruct (base t); try discriminate; reflexivity.
Qed.

(** The rule for AssignmentFlagManipulator<t, v>. *)
Lemma obj_eq_sentinel U t v f fc e :
  universe_ok U -> const_ok U v -> assignment_manip U t v = Some f ->
  length fc = size_of U t -> bytes_only fc -> m_is_empty f fc = Some e ->
  obj_eq U t fc (m_init f []) = if comparable t then Some e else None.
Proof.
  intros HU Hv Hf L Hb He.
  assert (INT : forall k z, 0 < it_bytes k -> in_range k z -> length fc = it_bytes k ->
            m_is_empty (man_int k z) fc = Some e ->
            match read_int k fc, read_int k (m_init (man_int k z) []) with
            | Some x, Some y => Some (cpp_eq k k x y)
            | _, _ => None
            end = Some e).
  { intros k z Hk Hz Lk H. cbn in H. unfold int_eqv in H. unfold read_int.
    destruct (unword fc) as [x|] eqn:Hx; [|discriminate]. injection H as <-.
    cbn [man_int man_assign m_init]. unfold int_rep.
    rewrite unword_word by apply pattern_lt. rewrite value_pattern by assumption.
    destruct (as_word fc x Hb Hx) as (Lx & _). rewrite Lk in Lx.
    rewrite cpp_eq_same; auto. apply value_range; assumption. }
  assert (CONV : forall k z, 0 < it_bytes k -> in_range k (conv k z)).
  { intros k z Hk. apply value_range; [exact Hk|apply pattern_lt]. }
  pose proof (uo_int U HU) as UI. pose proof (uo_enum U HU) as UE.
  destruct t, v; cbn in Hf; try discriminate;
    repeat match type of Hf with
           | (if ?b then _ else _) = _ => destruct b eqn:?; [|try discriminate]
           | match ?x with _ => _ end = _ => destruct x eqn:?; try discriminate
           end; try discriminate; try (injection Hf as <-); cbn [comparable obj_eq]; try reflexivity.
  - (* bool *)
    cbn in *. destruct fc as [|[|x|z] [|y fc]]; cbn in *; try discriminate.
    destruct x as [|[]]; try discriminate; injection He as <-; destruct b; reflexivity.
  - (* integral *)
    apply INT; auto.
  - apply INT; auto.
  - (* floating point *)
    cbn in *. unfold float_eqv in He. destruct (unword fc) as [x0|]; [|discriminate].
    rewrite unword_word by exact Hv. exact He.
  - cbn in *. unfold float_eqv in He. destruct (unword fc) as [x0|]; [|discriminate].
    rewrite unword_word by exact Hv. exact He.
  - (* long double *) exact He.
  - (* pointers *)
    cbn in *. unfold bytes_eqv in He. destruct (unword fc) as [x0|]; [|discriminate].
    rewrite unword_word by apply modulus_pos. injection He as <-. rewrite N.eqb_sym. reflexivity.
  - cbn in *. unfold bytes_eqv in He. destruct (unword fc) as [x0|]; [|discriminate].
    rewrite unword_word by exact Hv. injection He as <-. rewrite N.eqb_sym. reflexivity.
  - (* enumerations *)
    apply Nat.eqb_eq in Heqb. subst n0. apply INT; auto.
Qed.
Lemma sentinel_display U t v n off c f e :
  universe_ok U -> const_ok U v ->
  flag_at t (MAssign t v) n off ->
  assignment_manip U (base t) v = Some f ->
  let fc := sub off (size_of U (base t)) c in
  length fc = size_of U (base t) -> bytes_only c ->
  m_is_empty f fc = Some e ->
  display U n c = if comparable (base t) then Some e else None.
Proof.
  intros HU Hv A Hf fc L Hb He.
  pose proof (obj_eq_sentinel U (base t) v f fc e HU Hv Hf L (bytes_only_sub _ _ _ Hb) He) as H.
  assert (R : uty_eqb (base t) (base t) = true) by (apply uty_eqb_eq; reflexivity).
  unfold display, rule_for.
  destruct A; cbn [find rules applies match1 match2 fst snd andb eval];
    rewrite Hf, R; fold fc; rewrite H; destruct (comparable (base t)); reflexivity.
Qed.

Lemma has_value_reads {W} (E : env W) i s h s' r :
  mem s i = Some r -> has_value E i s = (Ok h, s') ->
  m_is_empty (man E i) (flag_cells (dec E i) (cells r)) = Some (negb h).
Proof.
  intros Hr H. unfold has_value, fm_is_empty, bind, get_region, flag_cells in *. rewrite Hr in H.
  destruct (flag_obj r || _); [|discriminate].
  destruct (m_is_empty _ _) as [[]|]; cbn in H; [| |discriminate]; injection H as <- _; reflexivity.
Qed.

(** For all template arguments and every content of the memory of an optional on which
    has_value() is defined: the debugger displays "empty" if has_value() is false and
    "not empty" if it is true, for all supported kinds of optionals; for all others it
    displays nothing about emptiness.  [ns] is the inline namespace of the build; users'
    specializations of optional_flag_manipulator are for their own types. *)
Theorem C38_natvis_agrees :
  forall W (E : env W) U cf P a b i v s r h s',
    universe_ok U -> targ_ok U a -> targ_ok U b ->
    (forall t, builtin (base t) = true -> u_spec U t = None) ->
    optional_type U cf P a b = Chosen (dec E i) (man E i) ->
    mem s i = Some r -> length (cells r) = d_ssize (dec E i) -> bytes_only (cells r) ->
    has_value E i s = (Ok h, s') ->
    visualize (inline_ns v cf) v U cf P a b (cells r) =
    if supported U cf P a b then Some (negb h) else None.
Proof.
  intros W E U cf P a b i v s r h s' HU Ha Hb0 Hsp Hc Hr L Hb H.
  apply (has_value_reads E i s h s' r Hr) in H.
  set (d := dec E i) in *. set (f := man E i) in *. set (c := cells r) in *.
  unfold visualize. rewrite String.eqb_refl.
  pose proof Hc as Hc'. apply C32_selection_as_documented in Hc' as (_ & D).
  destruct (type_names_denote U cf P a b d f Hc) as (n & Hn & Den). rewrite Hn.
  clearbody d f c. clear Hc.
  assert (SEP : n = (DSeparate P, MSeparate) -> d = separate U P -> f = man_separate ->
                display U n c = Some (negb h)).
  { intros -> -> ->. unfold flag_cells, separate in H. cbn [d_foff d_fsize dec_separate] in H.
    unfold display. cbn -[sub]. destruct (sub _ _ _) as [|[|[|[]]|] []]; try discriminate;
      cbn in H |- *; congruence. }
  unfold type_names, sentinel_and_mem_ptr in Hn. unfold has_custom in *.
  destruct D as [b Hf|b g Hf|vv b g Hv Hf|cc t off g Hm -> Hf|cc t off vv g Hm -> Hf|cc t off b Hm ->].
  - unfold supported, has_custom. rewrite Hf. cbn in Hn |- *. rewrite Hf in Hn. injection Hn as <-.
    apply SEP; auto.
  - cbn in Hn. rewrite Hf in Hn. injection Hn as <-. unfold supported, has_custom. rewrite Hf.
    cbn [negb orb].
    apply (flag_display U cf P _ 0 c g (negb h)); auto.
    + constructor.
    + unfold flag_cells in *. cbn in L. rewrite <- L, sub_full. reflexivity.
  - rewrite Hv in Hn. injection Hn as <-.
    replace (supported U cf P (AVal vv) b) with (comparable (base P)) by (destruct vv; try discriminate; reflexivity).
    apply (sentinel_display U P vv _ 0 c g (negb h)); auto.
    + constructor.
    + cbn in L. rewrite <- L, sub_full. reflexivity.
  - cbn in Hn. rewrite Hm in Hn. injection Hn as <-. unfold supported. rewrite Hm. cbn [negb orb].
    apply (flag_display U cf t _ off c g (negb h)); auto.
    + constructor.
    + apply length_sub. cbn in L, Ha. rewrite L. exact Ha.
  - cbn in Hn. rewrite Hm in Hn. injection Hn as <-. unfold supported. rewrite Hm. cbn [negb orb].
    apply (sentinel_display U t vv _ off c g (negb h)); auto.
    + constructor.
    + apply length_sub. cbn in L, Ha. rewrite L. exact Ha.
  - assert (n = (DSeparate (plain cc), MSeparate)) as Hn'.
    { cbn in Hn. rewrite Hm in Hn. destruct b; congruence. }
    rewrite (SEP Hn' eq_refl eq_refl). unfold supported. rewrite Hm. destruct b; reflexivity.
Qed.

(** The file as it is shipped works for this version and the default configuration only. *)
Theorem C38_shipped_namespace :
  forall v U cf P a b c sh,
    visualize "tiny100301_bit_mem" v U cf P a b c = Some sh -> v = 100301%N /\ cf = default_config.
Proof.
  intros v U cf P a b c sh H. unfold visualize in H.
  destruct (String.eqb_spec "tiny100301_bit_mem" (inline_ns v cf)) as [E|]; [|discriminate].
  rewrite <- (proj1 C46_documented_names) in E. apply inline_ns_inj in E as (<- & <-). auto.
Qed.

(** The hypotheses hold in the states of a program: here for every scalar type of
    Scalars.v, after a default construction. *)
Definition natvis_state (i : loc) : state sworld_t :=
  snd (run (scalar_env true) [ODefault i] (init_state quiet)).
Example C38_example :
  forall i r,
    i < 10 -> mem (natvis_state i) i = Some r ->
    fst (has_value (scalar_env true) i (natvis_state i)) = Ok false /\
    length (cells r) = d_ssize (dec (scalar_env true) i) /\ bytes_only (cells r) /\
    visualize "tiny100301_bit_mem" 100301 sample_universe default_config
      (fst (scalar_args i)) (snd (scalar_args i)) ADefault (cells r) = Some true.
Proof.
  intros i r Hi Hr.
  do 10 (destruct i as [|i];
    [vm_compute in Hr; injection Hr as <-; repeat split; try (vm_compute; reflexivity);
     intros b Hb; cbn in Hb;
     repeat (destruct Hb as [Hb|Hb]; [injection Hb as <-; reflexivity|]); contradiction|]).
  lia.
Qed.
(** And through a member: the double at offset 0 of class 0, empty and not empty. *)
Example C38_example_member :
  let show c := visualize "tiny100301_bit_mem" 100301 sample_universe default_config
                  (plain (UClass 0)) (AVal member_d) ADefault c in
  show (word 8 sent_double ++ indets 8)%list = Some true /\ show (word 16 5) = Some false.
Proof. split; vm_compute; reflexivity. Qed.

(** If a user specializes optional_flag_manipulator for bool (here: 5 is empty), the
    debugger does not notice and shows a non-empty optional for an empty one. *)
Theorem C38_user_specialization_refuted :
  exists U P d f c,
    universe_ok U /\ optional_type U default_config P ADefault ADefault = Chosen d f /\
    length c = d_ssize d /\ bytes_only c /\ m_is_empty f (flag_cells d c) = Some true /\
    visualize "tiny100301_bit_mem" 100301 U default_config P ADefault ADefault c = Some false.
Proof.
  pose (spec := fun t : cvty => if cvty_eqb t (plain UBool) then Some (man_memcmp [5%N]) else None).
  exists (MkUniverse true (u_int sample_universe) (u_enum sample_universe) (u_scoped sample_universe) 16
     (fun _ => 16) (fun _ => 8) (fun _ => true) spec (fun _ _ => None) (fun _ _ => None)).
  exists (plain UBool), (dec_inplace 1), (man_memcmp [5%N]), [Byte 5%N].
  split; [|repeat split; try (vm_compute; reflexivity)].
  - pose proof sample_universe_ok as [A1 A2 A3 A4 A5 A6 A7 A8 A9].
    split; cbn; auto; try discriminate; try exact A1; try exact A2; try lia.
    intros t g D Hg Hs Hd. unfold spec in Hg. destruct (cvty_eqb t (plain UBool)) eqn:Q; [|discriminate].
    injection Hg as <-. apply cvty_eqb_eq in Q. subst t. apply man_memcmp_ok; auto. rewrite Hd. cbn. auto.
  - intros b [[= <-]|[]]. reflexivity.
Qed.
