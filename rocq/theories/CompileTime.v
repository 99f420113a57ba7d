(** * CompileTime: the text of the functions that the compiler executes

    IsIntegralInRange (optional.h:354-380) and
    AssignmentFlagManipulator::ConvertSentinelToFlagType (optional.h:775-812) as syntax
    trees ([Constants.v], generated from the header), executed with the integer arithmetic
    of C++, and the sentinel constants (optional.h:419-507). *)

From Coq Require Import Ascii String List NArith ZArith Bool Arith Lia.
From Verif Require Import Cells CellsFacts Machine Laws Bits Manip IntRange Select Selection Whole Sample.
From Verif Require Import Syntax Constants.
Import ListNotations.
Local Open Scope string_scope.

(** ** The meaning of the constructs *)

(** Types: an integer type that the text computes, or a type of the program. *)
Inductive cty : Type :=
| TInt (t : ity)
| TUser (u : uty).
(** Values of constant expressions: integers with their type, bool, other constants. *)
Inductive cval : Type :=
| XInt (t : cty) (z : Z)
| XBool (b : bool)
| XConst (v : const).

(** Text of types: [inside f s] is the [x] of [s = "f<x>rest"]; [halves "a,b"] is
    [(a, b)]. *)
Definition inside (f rest s : string) : option string :=
  let n := String.length f in
  let k := String.length s - String.length rest in
  if String.prefix (f ++ "<") s && String.eqb (substring (k - 1) (1 + String.length rest) s) (">" ++ rest)
  then Some (substring (n + 1) (k - n - 2) s) else None.
Definition halves (s : string) : option (string * string) :=
  match String.index 0 "," s with
  | Some k => Some (substring 0 k s, substring (k + 1) (String.length s - k - 1) s)
  | None => None
  end.
Fixpoint find_in {A} (x : string) (l : list (string * A)) : option A :=
  match l with
  | [] => None
  | (y, a) :: l' => if String.eqb x y then Some a else find_in x l'
  end.

Section Compiler.
  Variable U : universe.
  (** The constant SentinelValue::value. *)
  Variable sentinel : option const.

  (** The integer type of a type. *)
  Definition ity_of (t : cty) : option ity :=
    match t with
    | TInt i => Some i
    | TUser (UInt k) => Some (u_int U k)
    | TUser _ => None
    end.
  Definition same_type (a b : cty) : option bool :=
    match a, b with
    | TUser u, TUser v => Some (uty_eqb u v)
    | _, _ => None
    end.

  (** Types by their text: names, bool, decltype of the sentinel, and std::remove_cv_t
      (types are without cv here), std::make_unsigned_t, std::common_type_t. *)
  Fixpoint type_text (n : nat) (ts : list (string * cty)) (s : string) : option cty :=
    match find_in s ts with
    | Some t => Some t
    | None =>
        if String.eqb s "bool" then Some (TUser UBool)
        else if String.eqb s "decltype(SentinelValue::value)"
        then match sentinel with Some v => Some (TUser (type_of v)) | None => None end
        else
          match n with
          | O => None
          | S n' =>
              match inside "std::remove_cv_t" "" s with
              | Some a => type_text n' ts a
              | None =>
                  match inside "std::make_unsigned_t" "" s with
                  | Some a =>
                      match type_text n' ts a with
                      | Some t => option_map (fun i => TInt (make_unsigned i)) (ity_of t)
                      | None => None
                      end
                  | None =>
                      match inside "std::common_type_t" "" s with
                      | Some ab =>
                          match halves ab with
                          | Some (a, b) =>
                              match type_text n' ts a, type_text n' ts b with
                              | Some t, Some u =>
                                  match ity_of t, ity_of u with
                                  | Some i, Some j => Some (TInt (common_type i j))
                                  | _, _ => None
                                  end
                              | _, _ => None
                              end
                          | None => None
                          end
                      | None => None
                      end
                  end
              end
          end
    end.

  (** Type traits that are named in an expression. *)
  Definition trait_text (n : nat) (ts : list (string * cty)) (s : string) : option bool :=
    let arg f k := match inside f "" s with
                   | Some a => match type_text n ts a with Some t => Some (k t) | None => Some None end
                   | None => None
                   end in
    match arg "std::is_integral_v"
              (fun t => Some (match t with TInt _ => true | TUser u => is_integral u end)) with
    | Some r => r
    | None =>
    match arg "std::is_floating_point_v"
              (fun t => Some (match t with TInt _ => false | TUser u => is_floating u end)) with
    | Some r => r
    | None =>
    match arg "std::is_signed_v" (fun t => option_map it_signed (ity_of t)) with
    | Some r => r
    | None =>
        match inside "std::is_same_v" "" s with
        | Some ab =>
            match halves ab with
            | Some (a, b) =>
                match type_text n ts a, type_text n ts b with
                | Some t, Some u => same_type t u
                | _, _ => None
                end
            | None => None
            end
        | None => None
        end
    end end end.

  (** [x R y] for integers: usual arithmetic conversions, then comparison ([expr.rel]). *)
  Definition relation (op : string) (x y : cval) : option cval :=
    match x, y with
    | XInt t a, XInt u b =>
        match ity_of t, ity_of u with
        | Some i, Some j =>
            let c := common (promote i) (promote j) in
            if String.eqb op "<=" then Some (XBool (Z.leb (conv c a) (conv c b)))
            else if String.eqb op ">=" then Some (XBool (Z.leb (conv c b) (conv c a)))
            else if String.eqb op ">" then Some (XBool (Z.ltb (conv c b) (conv c a)))
            else None
        | _, _ => None
        end
    | XBool a, XBool b => if String.eqb op "==" then Some (XBool (Bool.eqb a b)) else None
    | _, _ => None
    end.
  (** static_cast to an integer type. *)
  Definition cast (t : cty) (x : cval) : option cval :=
    match ity_of t, x with
    | Some i, XInt _ z => Some (XInt t (conv i z))
    | _, _ => None
    end.
  (** The sentinel as an operand. *)
  Definition of_const (v : const) : cval :=
    match v with VInt k z => XInt (TUser (UInt k)) z | _ => XConst v end.

  (** Expressions and bodies; [n] bounds the depth of nesting; [None]: does not compile.
      [self]: the text of IsIntegralInRange, which calls itself. *)
  Fixpoint const_expr (n : nat) (ts : list (string * cty)) (xs : list (string * cval)) (e : expr)
    {struct n} : option cval :=
    match n with
    | O => None
    | S n' =>
        match e with
        | EName x =>
            match find_in x xs with
            | Some v => Some v
            | None =>
                if String.eqb x "SentinelValue::value"
                then option_map of_const sentinel
                else option_map XBool (trait_text n' ts x)
            end
        | ENum k => Some (XInt (TInt int_type) (Z.of_nat k))
        | EBool b => Some (XBool b)
        | EBin op a b =>
            match const_expr n' ts xs a with
            | Some x =>
                if String.eqb op "&&" then
                  match x with
                  | XBool true => const_expr n' ts xs b
                  | XBool false => Some (XBool false)
                  | _ => None
                  end
                else if String.eqb op "||" then
                  match x with
                  | XBool false => const_expr n' ts xs b
                  | XBool true => Some (XBool true)
                  | _ => None
                  end
                else match const_expr n' ts xs b with
                     | Some y => relation op x y
                     | None => None
                     end
            | None => None
            end
        | ECast k t a =>
            if String.eqb k "static_cast" then
              match type_text n' ts t, const_expr n' ts xs a with
              | Some u, Some x => cast u x
              | _, _ => None
              end
            else None
        | ECall (EName f) [] =>
            match inside "std::numeric_limits" "::lowest" f, inside "std::numeric_limits" "::max" f with
            | Some a, _ =>
                match type_text n' ts a with
                | Some t => option_map (fun i => XInt t (it_min i)) (ity_of t)
                | None => None
                end
            | None, Some a =>
                match type_text n' ts a with
                | Some t => option_map (fun i => XInt t (it_max i)) (ity_of t)
                | None => None
                end
            | None, None => None
            end
        | ECall (EName f) [a] =>
            match inside "IsIntegralInRange" "" f with
            | Some t =>
                match type_text n' ts t, const_expr n' ts xs a with
                | Some target, Some (XInt source z) =>
                    match f_params f355_IsIntegralInRange, f_body f355_IsIntegralInRange with
                    | [p], Body l =>
                        const_body n' [("TargetT", target); (p_type p, source)]
                                      [(p_name p, XInt source z)] l
                    | _, _ => None
                    end
                | _, _ => None
                end
            | None => None
            end
        | _ => None
        end
    end
  with const_body (n : nat) (ts : list (string * cty)) (xs : list (string * cval)) (l : list stmt)
    {struct n} : option cval :=
    match n with
    | O => None
    | S n' =>
        match l with
        | SUsing x t :: l' =>
            match type_text n' ts t with
            | Some u => const_body n' ((x, u) :: ts) xs l'
            | None => None
            end
        | SDecl t x [e] :: l' =>
            match type_text n' ts t, const_expr n' ts xs e with
            | Some u, Some v =>
                match cast u v with Some v' => const_body n' ts ((x, v') :: xs) l' | None => None end
            | _, _ => None
            end
        | SStaticAssert e :: l' =>
            match const_expr n' ts xs e with
            | Some (XBool true) => const_body n' ts xs l'
            | _ => None
            end
        | SIf true c a b :: l' =>
            match const_expr n' ts xs c with
            | Some (XBool true) => const_body n' ts xs (a ++ l')%list
            | Some (XBool false) => const_body n' ts xs (b ++ l')%list
            | _ => None
            end
        | SReturn (Some e) :: _ => const_expr n' ts xs e
        | _ => None
        end
    end.
End Compiler.

(** [IsIntegralInRange<target>(v)] for [v] of type [source]. *)
Definition range_text (U : universe) (m : nat) (target source : cty) (v : Z) : option cval :=
  const_expr U None (25 + m) [("T", target)] [("v", XInt source v)]
             (ECall (EName "IsIntegralInRange<T>") [EName "v"]).
(** [AssignmentFlagManipulator<flag, v>::ConvertSentinelToFlagType()] *)
Definition convert_text (U : universe) (m : nat) (flag : uty) (v : const) : option cval :=
  match f_body f775_ConvertSentinelToFlagType with
  | Body l => const_body U (Some v) (30 + m) [("FlagType", TUser flag)] [] l
  | _ => None
  end.

(** ** The range check *)

Lemma conv_range t z : (0 < it_bytes t)%nat -> in_range t (conv t z).
Proof. intros H. unfold conv. apply value_range; [exact H|apply pattern_lt]. Qed.
Lemma common_self t : common t t = t.
Proof. unfold common. rewrite Bool.eqb_reflx, Nat.leb_refl. reflexivity. Qed.
Lemma conv_promoted t z : (0 < it_bytes t)%nat -> conv (promote t) (conv t z) = conv t z.
Proof.
  intros H. pose proof (conv_range t z H) as R. unfold promote.
  destruct (Nat.ltb_spec (it_bytes t) 4) as [L|L].
  - apply conv_id; [cbn; lia|]. eapply in_range_fits; [|exact R].
    apply fits_signed; cbn; auto.
  - apply conv_id; assumption.
Qed.
Lemma with_zero t z : (0 < it_bytes t)%nat -> it_signed t = true -> in_range t z ->
  let c := common (promote t) (promote int_type) in conv c z = z /\ conv c 0 = 0%Z.
Proof.
  intros H Hs R. change (promote int_type) with int_type. cbv zeta.
  assert (forall c, (0 < it_bytes c)%nat -> it_signed c = true -> fits t c ->
                    conv c z = z /\ conv c 0 = 0%Z) as K.
  { intros c Hc Sc F. split; apply conv_id; auto; [eapply in_range_fits; eauto|].
    destruct (range_ends c Hc) as (A & B). destruct (modulus_half _ Hc) as (h & E & Hh & Ed).
    unfold in_range, it_min, it_max in *. rewrite Sc, Ed in *. lia. }
  unfold promote. destruct (Nat.ltb_spec (it_bytes t) 4) as [L|L].
  - apply K; [cbn; lia|reflexivity|]. apply fits_signed; cbn; auto.
  - unfold common. rewrite Hs. cbn [it_signed int_type Bool.eqb it_bytes].
    apply Nat.leb_le in L. rewrite L. apply K; auto using fits_refl.
Qed.
Lemma common_pos a b : (0 < it_bytes a)%nat -> (0 < it_bytes b)%nat -> (0 < it_bytes (common_type a b))%nat.
Proof.
  intros Ha Hb. unfold common_type. destruct (_ && _); [exact Ha|].
  assert (forall t, (0 < it_bytes t)%nat -> (0 < it_bytes (promote t))%nat) as P.
  { intros t Ht. unfold promote. destruct (Nat.ltb _ _); cbn; lia. }
  unfold common. destruct (Bool.eqb _ _).
  - destruct (Nat.leb _ _); auto.
  - destruct (it_signed (promote a)); destruct (Nat.leb _ _); auto.
Qed.
Lemma relation_same a b x y :
  (0 < it_bytes a)%nat -> (0 < it_bytes b)%nat ->
  let c := common_type a b in
  Z.leb (conv (common (promote c) (promote c)) (conv c x)) (conv (common (promote c) (promote c)) (conv c y)) =
  Z.leb (conv c x) (conv c y).
Proof.
  intros Ha Hb c. pose proof (common_pos a b Ha Hb). rewrite common_self, !conv_promoted by assumption.
  reflexivity.
Qed.

Ltac run_text :=
  cbv -[it_signed common_type promote common conv it_min it_max Z.leb Z.ltb make_unsigned int_type u_int].

(** One statement at a time. *)
Section Steps.
  Variable U : universe.
  Variable v : option const.
  Lemma step_assert n ts xs e l :
    const_expr U v n ts xs e = Some (XBool true) ->
    const_body U v (S n) ts xs (SStaticAssert e :: l) = const_body U v n ts xs l.
  Proof.
    intros H.
    transitivity (match const_expr U v n ts xs e with
                  | Some (XBool true) => const_body U v n ts xs l | _ => None end);
      [reflexivity|rewrite H; reflexivity].
  Qed.
  Lemma step_assert_fails n ts xs e l :
    const_expr U v n ts xs e = Some (XBool false) ->
    const_body U v (S n) ts xs (SStaticAssert e :: l) = None.
  Proof.
    intros H.
    transitivity (match const_expr U v n ts xs e with
                  | Some (XBool true) => const_body U v n ts xs l | _ => None end);
      [reflexivity|rewrite H; reflexivity].
  Qed.
  Lemma step_if n ts xs c a b l r :
    const_expr U v n ts xs c = Some (XBool r) ->
    const_body U v (S n) ts xs (SIf true c a b :: l) = const_body U v n ts xs ((if r then a else b) ++ l)%list.
  Proof.
    intros H.
    transitivity (match const_expr U v n ts xs c with
                  | Some (XBool true) => const_body U v n ts xs (a ++ l)%list
                  | Some (XBool false) => const_body U v n ts xs (b ++ l)%list
                  | _ => None end);
      [reflexivity|rewrite H; destruct r; reflexivity].
  Qed.
  Lemma step_and n ts xs a b r :
    const_expr U v n ts xs a = Some (XBool r) ->
    const_expr U v (S n) ts xs (EBin "&&" a b) =
    if r then const_expr U v n ts xs b else Some (XBool false).
  Proof.
    intros H.
    transitivity (match const_expr U v n ts xs a with
                  | Some (XBool true) => const_expr U v n ts xs b
                  | Some (XBool false) => Some (XBool false)
                  | _ => None end).
    - cbn. destruct (const_expr U v n ts xs a) as [[| |]|]; reflexivity.
    - rewrite H. destruct r; reflexivity.
  Qed.
  Lemma step_return n ts xs e l :
    const_body U v (S n) ts xs (SReturn (Some e) :: l) = const_expr U v n ts xs e.
  Proof. reflexivity. Qed.
  (** The call of IsIntegralInRange. *)
  Lemma step_call n ts xs f t a T src z :
    inside "IsIntegralInRange" "" f = Some t ->
    type_text U v n ts t = Some T -> const_expr U v n ts xs a = Some (XInt src z) ->
    const_expr U v (S n) ts xs (ECall (EName f) [a]) =
    const_body U v n [("TargetT", T); ("SourceT", src)] [("value", XInt src z)]
               (match f_body f355_IsIntegralInRange with Body l => l | _ => [] end).
  Proof.
    intros Hf Ht Ha.
    transitivity
      (match inside "IsIntegralInRange" "" f with
       | Some t =>
           match type_text U v n ts t, const_expr U v n ts xs a with
           | Some target, Some (XInt source z) =>
               const_body U v n [("TargetT", target); ("SourceT", source)] [("value", XInt source z)]
                          (match f_body f355_IsIntegralInRange with Body l => l | _ => [] end)
           | _, _ => None
           end
       | None => None
       end); [reflexivity|].
    rewrite Hf, Ht, Ha. reflexivity.
  Qed.
  Lemma step_using n ts xs x t l T :
    type_text U v n ts t = Some T ->
    const_body U v (S n) ts xs (SUsing x t :: l) = const_body U v n ((x, T) :: ts) xs l.
  Proof.
    intros H.
    transitivity (match type_text U v n ts t with
                  | Some T => const_body U v n ((x, T) :: ts) xs l | None => None end);
      [reflexivity|rewrite H; reflexivity].
  Qed.
End Steps.

Definition range_stmts : list stmt :=
  match f_body f355_IsIntegralInRange with Body l => l | _ => [] end.
Notation range_body U v n T s0 z :=
  (const_body U v n [("TargetT", T); ("SourceT", s0)] [("value", XInt s0 z)] range_stmts).

Ltac integer_types T s0 Ht Hs :=
  destruct T as [?|[]]; try discriminate; destruct s0 as [?|[]]; try discriminate;
  injection Ht as <-; injection Hs as <-.
Ltac both_leb :=
  repeat match goal with |- context [Z.leb ?a ?b] => destruct (Z.leb a b) end; reflexivity.

(** The two static_asserts and the first condition. *)
Lemma range_body_head U w n T s0 t s v :
  ity_of U T = Some t -> ity_of U s0 = Some s ->
  exists a b c,
    range_stmts = [SStaticAssert a; SStaticAssert b; c] /\
    range_body U w (11 + n) T s0 v =
    const_body U w (9 + n) [("TargetT", T); ("SourceT", s0)] [("value", XInt s0 v)] [c].
Proof.
  intros Ht Hs. unfold range_stmts. do 3 eexists. split; [reflexivity|].
  cbn [f_body f355_IsIntegralInRange Nat.add].
  rewrite step_assert, step_assert; [reflexivity| |];
    integer_types T s0 Ht Hs; reflexivity.
Qed.

Lemma range_body_same U w n T s0 t s v :
  ity_of U T = Some t -> ity_of U s0 = Some s -> it_signed t = it_signed s ->
  (0 < it_bytes t)%nat -> (0 < it_bytes s)%nat ->
  range_body U w (11 + n) T s0 v = Some (XBool (in_range_same t s v)).
Proof.
  intros Ht Hs E Pt Ps.
  destruct (range_body_head U w n T s0 t s v Ht Hs) as (a & b & c & El & ->).
  injection El as <- <- <-.
  cbn [Nat.add].
  rewrite (step_if _ _ _ _ _ _ _ _ _ true)
    by (integer_types T s0 Ht Hs; run_text; rewrite E;
        match goal with |- context [it_signed ?x] => destruct (it_signed x) end; reflexivity).
  cbv iota. unfold in_range_same. pose proof (relation_same t s) as K1. cbv zeta in K1.
  cbv zeta. rewrite <- (K1 _ _ Pt Ps), <- (K1 _ _ Pt Ps).
  integer_types T s0 Ht Hs; run_text; both_leb.
Qed.

Lemma range_body_run U w n T s0 t s v :
  ity_of U T = Some t -> ity_of U s0 = Some s ->
  (0 < it_bytes t)%nat -> (0 < it_bytes s)%nat -> in_range s v ->
  range_body U w (19 + n) T s0 v = Some (XBool (is_integral_in_range t s v)).
Proof.
  intros Ht Hs Pt Ps R. unfold is_integral_in_range.
  destruct (Bool.eqb (it_signed t) (it_signed s)) eqn:E.
  { apply Bool.eqb_prop in E. apply (range_body_same U w (8 + n)); assumption. }
  destruct (range_body_head U w (8 + n) T s0 t s v Ht Hs) as (a & b & c & El & H).
  change (11 + (8 + n)) with (19 + n) in H. rewrite H. clear H. injection El as <- <- <-.
  cbn [Nat.add].
  rewrite (step_if _ _ _ _ _ _ _ _ _ false).
  2: { integer_types T s0 Ht Hs; run_text;
       repeat match goal with |- context [it_signed ?x] => destruct (it_signed x) end;
       try discriminate; reflexivity. }
  cbn [app].
  rewrite (step_if _ _ _ _ _ _ _ _ _ (it_signed s)) by (integer_types T s0 Ht Hs; reflexivity).
  destruct (it_signed s) eqn:Ss.
  - (* signed source *)
    cbn [app].
    rewrite step_return.
    rewrite (step_and _ _ _ _ _ _ _ (Z.leb 0 v)).
    2: { transitivity (Some (XBool (Z.leb (conv (common (promote s) (promote int_type)) 0)
                                          (conv (common (promote s) (promote int_type)) v)))).
         - integer_types T s0 Ht Hs; reflexivity.
         - destruct (with_zero s v Ps Ss R) as (-> & ->). reflexivity. }
    destruct (Z.leb 0 v); [|reflexivity]. cbn [andb].
    pose proof (range_body_same U w (1 + n) T (TInt (make_unsigned s)) t (make_unsigned s) (conv (make_unsigned s) v)
                  Ht eq_refl) as H.
    rewrite <- H; [|destruct (it_signed t); [discriminate|reflexivity]|exact Pt|exact Ps].
    apply step_call with (t := "TargetT"); [reflexivity|reflexivity|].
    integer_types T s0 Ht Hs; reflexivity.
  - (* unsigned source, signed target *)
    assert (St : it_signed t = true) by (destruct (it_signed t); [reflexivity|discriminate]).
    assert (M : Z.ltb (conv (common (promote t) (promote int_type)) 0)
                      (conv (common (promote t) (promote int_type)) (conv t (it_max t))) = true).
    { destruct (range_ends t Pt) as (_ & B). rewrite (conv_id t _ Pt B).
      destruct (with_zero t _ Pt St B) as (-> & ->).
      destruct (modulus_half _ Pt) as (h & Eh & Hh & Ed). unfold it_max. rewrite St, Ed.
      apply Z.ltb_lt. lia. }
    pose proof (relation_same s (make_unsigned t)) as K1. cbv zeta in K1.
    cbv zeta. destruct (range_ends t Pt) as (_ & B). rewrite <- (conv_id t _ Pt B) at 1.
    rewrite <- (K1 _ _ Ps Pt). cbn [app].
    integer_types T s0 Ht Hs; run_text; rewrite St; run_text; rewrite M; both_leb.
Qed.

(** The call of the text of IsIntegralInRange, for every pair of integer types and every
    value: it compiles, and yields what [is_integral_in_range] says. *)
Lemma range_text_run U m T s0 t s v :
  ity_of U T = Some t -> ity_of U s0 = Some s ->
  (0 < it_bytes t)%nat -> (0 < it_bytes s)%nat -> in_range s v ->
  range_text U m T s0 v = Some (XBool (is_integral_in_range t s v)).
Proof.
  intros Ht Hs Pt Ps R. unfold range_text. cbn [Nat.add].
  rewrite (step_call _ _ _ _ _ _ "T" _ T s0 v) by reflexivity.
  exact (range_body_run U None (5 + m) T s0 t s v Ht Hs Pt Ps R).
Qed.

(** ** C74: the constants of a sentinel, as written *)

(** The range check as written accepts exactly the values that the flag type can hold. *)
Theorem C74_range_check_text :
  forall U m T s0 t s v,
    ity_of U T = Some t -> ity_of U s0 = Some s ->
    (0 < it_bytes t)%nat -> (0 < it_bytes s)%nat -> in_range s v ->
    (range_text U m T s0 v = Some (XBool true) <-> in_range t v) /\
    (range_text U m T s0 v = Some (XBool false) <-> ~ in_range t v).
Proof.
  intros U m T s0 t s v Ht Hs Pt Ps R. rewrite (range_text_run U m T s0 t s v) by assumption.
  rewrite <- (is_integral_in_range_spec t s v Pt Ps R).
  destruct (is_integral_in_range t s v); split; split; congruence || (intros H; exfalso; auto).
Qed.

(** The constant valueToIndicateEmpty (optional.h:814): the returned value, converted to
    the flag type, as representation and comparison of a flag manipulator. *)
Definition initialise (U : universe) (flag : uty) (x : cval) : option manip :=
  match flag, x with
  | UInt k, XInt (TUser (UInt l)) z =>
      if ikind_eqb k l then Some (man_int (u_int U k) z) else None
  | UBool, XConst (VBool b) => Some (man_bool_sentinel b)
  | UFloat, XConst (VFloat y) => Some (man_float binary32 y)
  | UDouble, XConst (VDouble y) => Some (man_float binary64 y)
  | ULongDouble, XConst (VLongDouble r) => Some (man_assign r (fun c => u_ld_eq U c r))
  | _, XConst v => implicit_convert U flag v
  | _, XInt (TUser (UInt l)) z => implicit_convert U flag (VInt l z)
  | _, _ => None
  end.

Lemma ikind_refl k : ikind_eqb k k = true.
Proof. destruct k; reflexivity. Qed.

Lemma integral_text U m k l z :
  universe_ok U -> const_ok U (VInt l z) ->
  convert_text U m (UInt k) (VInt l z) =
  if is_integral_in_range (u_int U k) (u_int U l) z
  then Some (XInt (TUser (UInt k)) (conv (u_int U k) z)) else None.
Proof.
  intros HU Hv. unfold convert_text. cbn [f_body f775_ConvertSentinelToFlagType Nat.add].
  rewrite (step_using _ _ _ _ _ _ _ _ (TUser (UInt l))) by reflexivity.
  rewrite (step_using _ _ _ _ _ _ _ _ (TUser (UInt k))) by reflexivity.
  rewrite (step_if _ _ _ _ _ _ _ _ _ false) by reflexivity. cbn [app].
  rewrite (step_if _ _ _ _ _ _ _ _ _ true) by reflexivity. cbn [app].
  assert (P : forall k, 0 < it_bytes (u_int U k)) by (intros; apply HU).
  pose proof (range_body_run U (Some (VInt l z)) (5 + m) (TUser (UInt k)) (TUser (UInt l)) _ _ z
                eq_refl eq_refl (P k) (P l) Hv) as R.
  match goal with |- const_body ?U ?w (S ?n) ?ts ?xs (SStaticAssert ?e :: _) = _ =>
    assert (A : const_expr U w n ts xs e =
                Some (XBool (is_integral_in_range (u_int U k) (u_int U l) z))) end.
  { rewrite <- R. apply step_call with (t := "FlagTypeNoCV"); reflexivity. }
  destruct (is_integral_in_range _ _ _).
  - rewrite step_assert by exact A. rewrite step_return. reflexivity.
  - apply step_assert_fails. exact A.
Qed.

Theorem C74_sentinel_text :
  forall U m flag v,
    universe_ok U -> const_ok U v ->
    assignment_manip U flag v =
    match convert_text U m flag v with Some x => initialise U flag x | None => None end.
Proof.
  intros U m flag v HU Hv.
  destruct (is_bool flag) eqn:Fb; [destruct flag; try discriminate; destruct v; reflexivity|].
  destruct flag; try discriminate; destruct v; try reflexivity.
  rewrite integral_text by assumption. cbn [assignment_manip is_bool type_of orb is_integral andb].
  destruct (is_integral_in_range _ _ _); [|reflexivity]. cbn. rewrite ikind_refl. reflexivity.
Qed.

(** The text compiles for exactly the constants that the documentation promises to accept. *)
Theorem C74_sentinels_accepted_text :
  forall U m flag v,
    universe_ok U -> const_ok U v ->
    ((exists x, convert_text U m flag v = Some x /\ initialise U flag x <> None) <-> accepts U flag v).
Proof.
  intros U m flag v HU Hv. rewrite <- assignment_accepts by assumption.
  rewrite (C74_sentinel_text U m) by assumption. split.
  - intros (x & -> & H). destruct (initialise U flag x); [eauto|congruence].
  - intros (f & H). destruct (convert_text U m flag v); [|discriminate].
    eexists. split; [reflexivity|congruence].
Qed.

(** An integral sentinel keeps its numeric value. *)
Theorem C74_value_kept :
  forall U m k l z x,
    universe_ok U -> const_ok U (VInt l z) ->
    convert_text U m (UInt k) (VInt l z) = Some x ->
    x = XInt (TUser (UInt k)) z /\ in_range (u_int U k) z.
Proof.
  intros U m k l z x HU Hv H. rewrite (integral_text U m k l z HU Hv) in H.
  destruct (is_integral_in_range _ _ _) eqn:R; [|discriminate]. injection H as <-.
  destruct (C34_range_check_exact (u_int U k) (u_int U l) z) as (Q & Q'); try apply HU; auto.
  rewrite (proj1 (Q' R)). split; [reflexivity|]. apply Q, R.
Qed.

(** ** The constants of the types with unused bits *)

Fixpoint const_value (e : cexpr) : N :=
  match e with
  | CNum n => n
  | CSub a b => const_value a - const_value b
  end.
(** Size of the type of the constant; std::uintptr_t has the size of pointers. *)
Definition const_size (x64 : bool) (s : string) : option nat :=
  if String.eqb s "std::uint8_t" then Some 1
  else if String.eqb s "std::uint32_t" then Some 4
  else if String.eqb s "std::uint64_t" then Some 8
  else if String.eqb s "std::uintptr_t" then Some (if x64 then 8 else 4)
  else None.
(** The specialization of SentinelForExploitingUnusedBits for a type, and the branch of the
    preprocessor (optional.h:480-503). *)
Definition specialization (U : universe) (t : uty) : option (string * string) :=
  match t with
  | UBool => Some ("SentinelForExploitingUnusedBits<bool>", "")
  | UDouble => Some ("SentinelForExploitingUnusedBits<double>", "")
  | UFloat => Some ("SentinelForExploitingUnusedBits<float>", "")
  | UPtr _ => Some ("SentinelForExploitingUnusedBits<T*>",
                    if u_x64 U then "defined TINY_OPTIONAL_x64"
                    else "elif of defined TINY_OPTIONAL_x64")
  | _ => None
  end.
Fixpoint find_sentinel (name cond : string) (l : list (string * (string * (string * cexpr)))) :=
  match l with
  | [] => None
  | (n, (c, x)) :: l' => if String.eqb n name && String.eqb c cond then Some x else find_sentinel name cond l'
  end.
Definition written (U : universe) (t : uty) : option (nat * N) :=
  match specialization U t with
  | Some (name, cond) =>
      match find_sentinel name cond sentinels with
      | Some (ty, e) =>
          match const_size (u_x64 U) ty with
          | Some n => Some (n, const_value e)
          | None => None
          end
      | None => None
      end
  | None => None
  end.

(** The constant as written has the size of the type and fits into its own type (the
    conversion of the initializer changes nothing), and it is the one of the manipulator. *)
Theorem C74_constants :
  forall U cf P f,
    u_spec U P = None -> flag_manipulator U cf P = Some f ->
    exists n v, written U (base P) = Some (n, v) /\ n = size_of U (base P) /\ (v < modulus n)%N /\
                f = man_memcmp (bytes_le n v).
Proof.
  intros U cf P f Hs Hf. unfold flag_manipulator in Hf. rewrite Hs in Hf.
  unfold sentinel_known in Hf. destruct (cf_bit cf); [|discriminate].
  destruct P as [c v t]. cbn [base] in *.
  destruct t; try discriminate; injection Hf as <-.
  all: try (do 2 eexists; split; [reflexivity|]; split; [reflexivity|]; split; reflexivity).
  unfold unused_bits_manip, written, specialization, size_of. destruct (u_x64 U);
    (do 2 eexists; split; [reflexivity|]; split; [reflexivity|]; split; reflexivity).
Qed.

(** ** Examples *)

(** optional<unsigned, -1> does not compile; optional<unsigned char, 255> does, 256 does not;
    the sentinel of an optional<long> may be written as unsigned; bool and int do not mix. *)
Example C74_example :
  convert_text sample_universe 0 (UInt KUInt) (VInt KInt (-1)) = None /\
  convert_text sample_universe 0 (UInt KUChar) (VInt KInt 255) = Some (XInt (TUser (UInt KUChar)) 255) /\
  convert_text sample_universe 0 (UInt KUChar) (VInt KInt 256) = None /\
  convert_text sample_universe 0 (UInt KLong) (VInt KUInt 4294967295) = Some (XInt (TUser (UInt KLong)) 4294967295) /\
  convert_text sample_universe 0 UBool (VInt KInt 1) = None /\
  convert_text sample_universe 0 UFloat (VDouble 0) = None /\
  convert_text sample_universe 0 UFloat (VFloat 0) = Some (XConst (VFloat 0)) /\
  range_text sample_universe 0 (TInt (MkIty 1 true)) (TInt (MkIty 8 false)) 128 = Some (XBool false) /\
  range_text sample_universe 0 (TInt (MkIty 1 true)) (TInt (MkIty 8 false)) 127 = Some (XBool true) /\
  const_ok sample_universe (VInt KUInt 4294967295) /\
  flag_manipulator sample_universe default_config (plain UDouble) = Some man_double.
Proof. repeat split; try (vm_compute; reflexivity); vm_compute; discriminate. Qed.

Print Assumptions C74_range_check_text.
Print Assumptions C74_sentinel_text.
Print Assumptions C74_sentinels_accepted_text.
Print Assumptions C74_value_kept.
Print Assumptions C74_constants.
