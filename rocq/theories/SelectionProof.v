(** * SelectionProof: C75, the text of the header selects the documented strategy *)

From Coq Require Import String List NArith ZArith Bool Arith Lia.
From Verif Require Import Cells CellsFacts Machine Laws Bits Manip IntRange Select Selection Whole.
From Verif Require Import Syntax Constants CompileTime TemplateSyntax Templates Instantiate SelectionText.
Import ListNotations.
Local Open Scope string_scope.

(** ** C75: the text selects what the model selects *)

Definition to_res (o : outcome) : res (decomp * manip) :=
  match o with Chosen d f => Good (d, f) | Rejected _ => Ill end.

Lemma run_ask ans q a b : run ans (Ask q a b) = if ans q then run ans a else run ans b.
Proof. reflexivity. Qed.
Lemma run_leaf ans r : run ans (Leaf r) = r.
Proof. reflexivity. Qed.

(** ** Two trees that give the same results *)

(** A type is at most one of the named types. *)
Definition other_name (q r : question) : bool :=
  match q, r with
  | QSame (TNoCv s) (TType x), QSame (TNoCv t) (TType y) => tval_eqb s t && negb (String.eqb x y)
  | _, _ => false
  end.
Definition known_answer (k : list (question * bool)) (q : question) : option bool :=
  match find (fun p => question_eqb q (fst p)) k with
  | Some (_, b) => Some b
  | None => if existsb (fun p => snd p && other_name q (fst p)) k then Some false else None
  end.
Definition is_result (r : res tval) (t : tree) : bool :=
  match t with Leaf r' => tree_eqb (Leaf r) (Leaf r') | Ask _ _ _ => false end.
(** All the results of t that the answers [k] allow are r. *)
Fixpoint always (k : list (question * bool)) (r : res tval) (t : tree) : bool :=
  match t with
  | Leaf _ => is_result r t
  | Ask q a b =>
      match known_answer k q with
      | Some true => always k r a
      | Some false => always k r b
      | None => always ((q, true) :: k) r a && always ((q, false) :: k) r b
      end
  end.
Fixpoint same_tree (k : list (question * bool)) (s t : tree) : bool :=
  match s with
  | Leaf r => always k r t
  | Ask q a b =>
      match known_answer k q with
      | Some true => same_tree k a t
      | Some false => same_tree k b t
      | None => same_tree ((q, true) :: k) a t && same_tree ((q, false) :: k) b t
      end
  end.

Definition one_name (ans : question -> bool) : Prop :=
  forall t x y, x <> y -> ans (QSame (TNoCv t) (TType x)) = true -> ans (QSame (TNoCv t) (TType y)) = false.
Definition agrees (ans : question -> bool) (k : list (question * bool)) : Prop :=
  forall q b, In (q, b) k -> ans q = b.
Lemma known_answer_agrees ans k q b :
  one_name ans -> agrees ans k -> known_answer k q = Some b -> ans q = b.
Proof.
  intros O A. unfold known_answer. destruct (find _ _) as [[r c]|] eqn:E.
  - intros [= ->]. apply find_some in E as (E & H). cbn in H. apply question_eqb_eq in H. subst r.
    apply A, E.
  - clear E. destruct (existsb _ _) eqn:X; [|discriminate]. intros [= <-].
    apply existsb_exists in X as ([r c] & I & X). cbn in X. apply andb_prop in X as (-> & X).
    apply A in I. unfold other_name in X.
    destruct q as [|[] []| | |]; try discriminate. destruct r as [|[] []| | |]; try discriminate.
    apply andb_prop in X as (X & Y). apply tval_eqb_eq in X. subst.
    eapply O; [|exact I]. intros ->. rewrite String.eqb_refl in Y. discriminate.
Qed.
Lemma agrees_cons ans k q b : agrees ans k -> ans q = b -> agrees ans ((q, b) :: k).
Proof. intros A E r c [[= <- <-]|I]; [exact E|apply A, I]. Qed.
Lemma always_run ans r t : one_name ans -> forall k, agrees ans k -> always k r t = true -> run ans t = r.
Proof.
  intros O. induction t as [r'|q a IHa b IHb]; intros k A H.
  - unfold always, is_result in H. apply tree_eqb_eq in H. cbn. congruence.
  - cbn [always] in H. cbn [run]. destruct (known_answer k q) as [[]|] eqn:E.
    + rewrite (known_answer_agrees _ _ _ _ O A E). eapply IHa; eassumption.
    + rewrite (known_answer_agrees _ _ _ _ O A E). eapply IHb; eassumption.
    + apply andb_prop in H as (H1 & H2). destruct (ans q) eqn:Q.
      * eapply IHa; [|eassumption]. apply agrees_cons; assumption.
      * eapply IHb; [|eassumption]. apply agrees_cons; assumption.
Qed.
Lemma same_tree_run ans s t : one_name ans -> forall k, agrees ans k -> same_tree k s t = true -> run ans s = run ans t.
Proof.
  intros O. induction s as [r|q a IHa b IHb]; intros k A H.
  - cbn. symmetry. eapply always_run; eassumption.
  - cbn [same_tree] in H. cbn [run]. destruct (known_answer k q) as [[]|] eqn:E.
    + rewrite (known_answer_agrees _ _ _ _ O A E). eapply IHa; eassumption.
    + rewrite (known_answer_agrees _ _ _ _ O A E). eapply IHb; eassumption.
    + apply andb_prop in H as (H1 & H2). destruct (ans q) eqn:Q.
      * eapply IHa; [|eassumption]. apply agrees_cons; assumption.
      * eapply IHb; [|eassumption]. apply agrees_cons; assumption.
Qed.
Corollary same_results s t : same_tree [] s t = true -> forall ans, one_name ans -> run ans s = run ans t.
Proof. intros H ans O. eapply same_tree_run; [exact O| |exact H]. intros q b []. Qed.

(** ** The decisions of the text, in order *)

Definition no_bits := "TINY_OPTIONAL_USE_SEPARATE_BOOL_INSTEAD_OF_UNUSED_BITS".
Definition no_member := "TINY_OPTIONAL_USE_SEPARATE_BOOL_INSTEAD_OF_MEMBER".
(** There is a flag manipulator for t: the user's ([u]) or the library's ([l]). *)
Definition ask_manipulator (t : tval) (u l n : tree) : tree :=
  let other := Ask (QSame (TNoCv t) (TType "bool")) l (Ask (QTrait "std::is_pointer_v" t) l n) in
  Ask (QUser t) u
    (Ask (QDefined no_bits) n
       (Ask (QTrait "std::is_floating_point_v" t)
          (Ask (QSame (TNoCv t) (TType "long double")) other l) other)).
(** The payload is valid. *)
Definition ask_payload (t : tval) (y : tree) : tree :=
  Ask (QSame (TNoCv t) (TType "std::nullopt_t")) (Leaf Ill)
    (Ask (QSame (TNoCv t) (TType "std::in_place_t")) (Leaf Ill)
       (Ask (QTrait "std::is_object_v" t)
          (Ask (QTrait "std::is_destructible_v" t)
             (Ask (QTrait "std::is_array_v" t) (Leaf Ill) y) (Leaf Ill)) (Leaf Ill))).
Definition impl (d f : tval) : tree := Leaf (Good (TInst "TinyOptionalImpl" [d; f])).
Definition t_separate (P : tval) : tree :=
  impl (TInst "DecompositionForSeparateFlag" [P]) (TInst "SeparateFlagManipulator" []).
Definition t_inplace (P : tval) : tval := TInst "InplaceStoredTypeDecomposition" [P].
Definition t_member (P m : tval) : tval := TInst "InplaceDecompositionViaMemPtr" [P; m].
Definition t_registered (t : tval) : tval := TInst "optional_flag_manipulator" [t; TType "void"].
Definition t_assigned (t s : tval) : tval := TInst "AssignmentFlagManipulator" [t; s].

(** No member is given. *)
Definition without_member (P : tval) (s : option tval) : tree :=
  match s with
  | None => let r := ask_payload P (impl (t_inplace P) (t_registered P)) in
            ask_manipulator P r r (ask_payload P (t_separate P))
  | Some s => ask_payload P (impl (t_inplace P) (t_assigned P s))
  end.
(** The member m is given. *)
Definition with_member (P m : tval) (s : option tval) : tree :=
  let member y := Ask (QSame P (TMemberOf m)) y (Leaf Ill) in
  let stored f :=
    member (Ask (QDefined no_member) (ask_payload P (t_separate P))
              (Ask (QEqual m TNull) (Leaf Ill) (ask_payload P (impl (t_member P m) f)))) in
  match s with
  | None => ask_manipulator (TMemberType m) (stored (t_registered (TMemberType m)))
              (stored (t_registered (TMemberType m)))
              (Ask (QDefined no_member) (member (ask_payload P (t_separate P))) (Leaf Ill))
  | Some s => stored (t_assigned (TMemberType m) s)
  end.
Definition member_or_not (P m : tval) (s : option tval) : tree :=
  Ask (QEqual m TDefault) (without_member P s)
    (Ask (QTrait "std::is_member_object_pointer_v" (TTypeOf m)) (with_member P m s) (Leaf Ill)).
Definition via_type_decisions : tree :=
  Ask (QSame (TArg "S") (TType "UseDefaultType"))
    (member_or_not (TArg "P") (TConst "m") None)
    (member_or_not (TArg "P") (TConst "m") (Some (TArg "S"))).
(** The sentinel: std::integral_constant<decltype(v), v> *)
Definition constant_sentinel (v : tval) : tval := TInst "std::integral_constant" [TTypeOf v; v].
Definition optional_decisions : tree :=
  let P := TArg "P" in let a := TConst "a" in let b := TConst "b" in
  Ask (QEqual a TDefault) (without_member P None)
    (Ask (QTrait "std::is_member_object_pointer_v" (TTypeOf a))
       (Ask (QEqual b TDefault) (with_member P a None) (with_member P a (Some (constant_sentinel b))))
       (without_member P (Some (constant_sentinel a)))).
Definition inplace_decisions : tree :=
  ask_payload (TArg "P") (impl (t_inplace (TArg "P")) (TArg "F")).
Fixpoint first_type (l : list (string * tree)) (n : tree) : tree :=
  match l with
  | [] => n
  | (x, y) :: l => Ask (QSame (TNoCv (TArg "P")) (TType x)) y (first_type l n)
  end.
Definition t_optional (v : tval) : tree := Leaf (Good (TInst "optional" [TArg "P"; v; TDefault])).
Definition aip_decisions : tree :=
  ask_manipulator (TArg "P") (t_optional TDefault) (t_optional TDefault)
    (first_type
       [("unsigned short", t_optional (TMacro "USHRT_MAX"));
        ("unsigned int", t_optional (TMacro "UINT_MAX"));
        ("unsigned long", t_optional (TMacro "ULONG_MAX"));
        ("unsigned long long", t_optional (TMacro "ULLONG_MAX"));
        ("short", t_optional (TMacro "SHRT_MIN"));
        ("int", t_optional (TMacro "INT_MIN"));
        ("long", t_optional (TMacro "LONG_MIN"));
        ("long long", t_optional (TMacro "LLONG_MIN"))]
       (Leaf Ill)).
Definition manipulator_decisions : tree :=
  ask_manipulator (TArg "T") (Leaf (Good (TArg "user")))
    (Leaf (Good (TInst "MemcpyAndCmpFlagManipulator"
                   [TArg "T"; TInst "SentinelForExploitingUnusedBits" [TNoCv (TArg "T")]])))
    (Leaf (Good (TInst "NoCustomInplaceFlagManipulator" []))).

Lemma via_type_decided : same_tree [] via_type_tree via_type_decisions = true.
Proof. vm_compute. reflexivity. Qed.
Lemma optional_decided : same_tree [] optional_tree optional_decisions = true.
Proof. vm_compute. reflexivity. Qed.
Lemma inplace_decided : same_tree [] inplace_tree inplace_decisions = true.
Proof. vm_compute. reflexivity. Qed.
Lemma aip_decided : same_tree [] aip_tree aip_decisions = true.
Proof. vm_compute. reflexivity. Qed.
Lemma aip_sentinel_decided : same_tree [] aip_sentinel_tree (t_optional (TConst "a")) = true.
Proof. vm_compute. reflexivity. Qed.
Lemma manipulator_decided : same_tree [] manipulator_tree manipulator_decisions = true.
Proof. vm_compute. reflexivity. Qed.

(** ** The answers of a program *)

Definition type_name (u : uty) : string :=
  match u with
  | UBool => "bool" | ULongDouble => "long double" | UNullopt => "std::nullopt_t"
  | UInPlace => "std::in_place_t"
  | UInt KUShort => "unsigned short" | UInt KUInt => "unsigned int" | UInt KULong => "unsigned long"
  | UInt KULLong => "unsigned long long" | UInt KShort => "short" | UInt KInt => "int"
  | UInt KLong => "long" | UInt KLLong => "long long"
  | _ => ""
  end.
Lemma type_value_name x u : type_value x = Some u -> type_name u = x.
Proof.
  unfold type_value. cbn [lookup].
  repeat match goal with
    | |- context [String.eqb ?a ?b] => destruct (String.eqb_spec a b); [subst; intros [= <-]; reflexivity|]
    end; discriminate.
Qed.
Lemma answer_one_name U cf traits A : one_name (answer U cf traits A).
Proof.
  intros t x y N. cbn [answer type_of_tval].
  destruct (type_of_tval U A t) as [s|]; [|discriminate].
  destruct (type_value x) as [u|] eqn:X; [|discriminate].
  destruct (type_value y) as [v|] eqn:Y; [|reflexivity].
  unfold cvty_eqb. cbn. intros H. apply uty_eqb_eq in H. subst u.
  destruct (uty_eqb _ v) eqn:E; [|reflexivity]. apply uty_eqb_eq in E. subst v.
  apply type_value_name in X, Y. congruence.
Qed.
Lemma execute_decisions U cf traits A s t :
  all_questions (understood A) s = true -> same_tree [] s t = true ->
  execute U cf traits A s = run (answer U cf traits A) t.
Proof.
  intros Q E. unfold execute. rewrite Q. apply same_results; [exact E|apply answer_one_name].
Qed.

Lemma via_type_questions P s m :
  all_questions (understood (MkArgs [("P", P)] [("m", m)] [("S", s)] [])) via_type_tree = true.
Proof. vm_compute. reflexivity. Qed.
Lemma optional_questions P a b :
  all_questions (understood (MkArgs [("P", P)] [("a", a); ("b", b)] [] [])) optional_tree = true.
Proof. vm_compute. reflexivity. Qed.
Lemma inplace_questions P f :
  all_questions (understood (MkArgs [("P", P)] [] [] [("F", f)])) inplace_tree = true.
Proof. vm_compute. reflexivity. Qed.
Lemma aip_questions P : all_questions (understood (MkArgs [("P", P)] [] [] [])) aip_tree = true.
Proof. vm_compute. reflexivity. Qed.
Lemma aip_sentinel_questions P a :
  all_questions (understood (MkArgs [("P", P)] [("a", a)] [] [])) aip_sentinel_tree = true.
Proof. vm_compute. reflexivity. Qed.
Lemma manipulator_questions t :
  all_questions (understood (MkArgs [("T", t)] [] [] [])) manipulator_tree = true.
Proof. vm_compute. reflexivity. Qed.

Lemma is_bool_eqb t : is_bool t = uty_eqb t UBool.
Proof. destruct t; reflexivity. Qed.
Lemma valid_payload_eqb U P :
  valid_payload U P =
  if uty_eqb (base P) UNullopt then false
  else if uty_eqb (base P) UInPlace then false
  else if u_destructible U (base P) then match base P with UArray _ => false | _ => true end else false.
Proof.
  unfold valid_payload. destruct (base P); try reflexivity; cbn; destruct (u_destructible U _); reflexivity.
Qed.
Section Answers.
  Variable U : universe.
  Variable cf : config.
  Variable traits : string -> cvty -> bool.
  Variable A : arguments.
  Local Notation ans := (answer U cf traits A).

  Lemma trait_answer x t P :
    type_of_tval U A t = Some P ->
    ans (QTrait x t) =
    if String.eqb x "std::is_floating_point_v" then is_floating (base P)
    else if String.eqb x "std::is_pointer_v" then is_pointer (base P)
    else if String.eqb x "std::is_object_v" then true
    else if String.eqb x "std::is_destructible_v" then u_destructible U (base P)
    else if String.eqb x "std::is_array_v" then match base P with UArray _ => true | _ => false end
    else traits x P.
  Proof. intros E. unfold answer. rewrite E. destruct t; try reflexivity. discriminate. Qed.
  Lemma named_answer t P x u :
    type_of_tval U A t = Some P -> type_value x = Some u ->
    ans (QSame (TNoCv t) (TType x)) = uty_eqb (base P) u.
  Proof.
    intros E X. cbn [answer type_of_tval]. rewrite E, X. reflexivity.
  Qed.
  Lemma run_payload t P y :
    type_of_tval U A t = Some P ->
    run ans (ask_payload t y) = if valid_payload U P then run ans y else Ill.
  Proof.
    intros E. rewrite valid_payload_eqb. unfold ask_payload. cbn [run].
    rewrite !(trait_answer _ _ _ E), (named_answer _ _ "std::nullopt_t" UNullopt E eq_refl),
      (named_answer _ _ "std::in_place_t" UInPlace E eq_refl). cbn [String.eqb Ascii.eqb Bool.eqb].
    destruct (uty_eqb (base P) UNullopt); [reflexivity|].
    destruct (uty_eqb (base P) UInPlace); [reflexivity|].
    destruct (u_destructible U (base P)); try reflexivity. destruct (base P); reflexivity.
  Qed.
  Lemma run_manipulator t P u l n :
    type_of_tval U A t = Some P ->
    run ans (ask_manipulator t u l n) =
    match u_spec U P with
    | Some _ => run ans u
    | None => if sentinel_known cf P then run ans l else run ans n
    end.
  Proof.
    intros E. unfold ask_manipulator, sentinel_known. cbn [run]. rewrite is_bool_eqb.
    rewrite !(trait_answer _ _ _ E), (named_answer _ _ "bool" UBool E eq_refl),
      (named_answer _ _ "long double" ULongDouble E eq_refl). cbn [String.eqb Ascii.eqb Bool.eqb].
    change (answer U cf traits A (QUser t)) with
      (match type_of_tval U A t with
       | Some t => match u_spec U t with Some _ => true | None => false end | None => false end).
    rewrite E. destruct (u_spec U P); [reflexivity|].
    change (answer U cf traits A (QDefined no_bits)) with (negb (cf_bit cf)).
    destruct (cf_bit cf); [|reflexivity]. cbn [negb].
    destruct (is_floating (base P)), (uty_eqb (base P) ULongDouble), (uty_eqb (base P) UBool),
      (is_pointer (base P)); reflexivity.
  Qed.
  Lemma run_custom t P u n :
    type_of_tval U A t = Some P ->
    run ans (ask_manipulator t u u n) = if has_custom U cf P then run ans u else run ans n.
  Proof.
    intros E. rewrite (run_manipulator _ _ _ _ _ E). unfold has_custom, flag_manipulator.
    destruct (u_spec U P); [reflexivity|]. destruct (sentinel_known cf P); reflexivity.
  Qed.
End Answers.

(** optional_flag_manipulator<t>. *)
Lemma registered_model U cf traits t :
  registered U cf traits t = match flag_manipulator U cf t with Some f => Good f | None => Ill end.
Proof.
  unfold registered.
  rewrite (execute_decisions U cf traits _ _ _ (manipulator_questions t) manipulator_decided).
  unfold manipulator_decisions. rewrite (run_manipulator _ _ _ _ _ t) by reflexivity.
  pose proof (C74_constants U cf t) as K. unfold flag_manipulator in *.
  destruct (u_spec U t) as [f|]; [reflexivity|].
  destruct (sentinel_known cf t); [|reflexivity].
  destruct (K _ eq_refl eq_refl) as (n & v & W & _ & _ & ->).
  cbn [run String.eqb Ascii.eqb Bool.eqb andb type_of_tval lookup ar_types base plain].
  rewrite W. reflexivity.
Qed.


Section Values.
  Variable U : universe.
  Variable cf : config.
  Variable traits : string -> cvty -> bool.
  Variable A : arguments.
  Hypothesis HU : universe_ok U.
  Local Notation ans := (answer U cf traits A).

  Lemma separate_meaning P PV :
    type_of_tval U A P = Some PV ->
    meaning U cf traits A (run ans (t_separate P)) = Good (separate U PV, man_separate).
  Proof. intros E. cbn. rewrite E. reflexivity. Qed.
  Lemma registered_value P PV :
    type_of_tval U A P = Some PV ->
    manipulator U cf traits A (t_registered P) =
    match flag_manipulator U cf PV with Some f => Good f | None => Ill end.
  Proof. intros E. rewrite <- (registered_model U cf traits). unfold manipulator, t_registered.
    cbn [String.eqb Ascii.eqb Bool.eqb]. rewrite E. reflexivity. Qed.
  Lemma assigned_value P PV s v :
    const_ok U v -> type_of_tval U A P = Some PV -> sentinel_value U A s = Good v ->
    manipulator U cf traits A (t_assigned P s) =
    match assignment_manip U (base PV) v with Some f => Good f | None => Ill end.
  Proof.
    intros Hv E Es. rewrite (C74_sentinel_text U 0) by assumption. unfold manipulator, t_assigned.
    cbn [String.eqb Ascii.eqb Bool.eqb]. rewrite E, Es.
    destruct (convert_text U 0 (base PV) v); reflexivity.
  Qed.
  Lemma inplace_meaning P PV F :
    type_of_tval U A P = Some PV ->
    meaning U cf traits A (run ans (impl (t_inplace P) F)) =
    match manipulator U cf traits A F with
    | Good f => Good (inplace U PV, f) | Ill => Ill | Stuck s => Stuck s
    end.
  Proof.
    intros E. unfold impl. cbn [run meaning]. unfold decomposition, t_inplace. rewrite E.
    cbn [String.eqb Ascii.eqb Bool.eqb]. destruct (manipulator _ _ _ _ _); reflexivity.
  Qed.
  Lemma member_meaning P PV m c var off F :
    type_of_tval U A P = Some PV -> constant_of U A m = Some (AVal (VMemObj c var (Some off))) ->
    meaning U cf traits A (run ans (impl (t_member P m) F)) =
    match manipulator U cf traits A F with
    | Good f => Good (dec_member (size_of U (base PV)) off (size_of U (base var)), f)
    | Ill => Ill | Stuck s => Stuck s
    end.
  Proof.
    intros E Em. unfold impl. cbn [run meaning]. unfold decomposition, t_member. rewrite E.
    cbn [String.eqb Ascii.eqb Bool.eqb]. rewrite Em. destruct (manipulator _ _ _ _ _); reflexivity.
  Qed.

  (** The sentinel [s] of the tree stands for the argument S. *)
  Definition stands_for (s : option tval) (S : targ) : Prop :=
    match s, S with
    | None, ADefault => True
    | Some s, AVal v => const_ok U v /\ sentinel_value U A s = Good v
    | _, _ => False
    end.

  Ltac finish :=
    repeat match goal with
      | |- context [if valid_payload ?u ?p then _ else _] => destruct (valid_payload u p)
      | |- context [match flag_manipulator ?u ?c ?p with _ => _ end] => destruct (flag_manipulator u c p)
      | |- context [match assignment_manip ?u ?c ?p with _ => _ end] => destruct (assignment_manip u c p)
      end; try reflexivity.

  Lemma without_member_meaning P PV s S :
    type_of_tval U A P = Some PV -> stands_for s S ->
    meaning U cf traits A (run ans (without_member P s)) =
    to_res (optional_sentinel_via_type U cf PV S ADefault).
  Proof.
    intros E Hs. unfold optional_sentinel_via_type, select_decomposition. cbn [filter specs matches].
    destruct s as [s|], S as [|v]; try contradiction Hs; cbn [stands_for] in Hs;
      cbn [is_default andb negb mem_var]; rewrite ?andb_true_r, ?andb_false_r.
    - destruct Hs as (Hv & Es). unfold without_member. rewrite (run_payload _ _ _ _ _ _ _ E).
      transitivity (to_res match with_sentinel U (inplace U PV) PV (AVal v) with
                    | Chosen d f => if valid_payload U PV then Chosen d f else Rejected BadPayload
                    | r => r end).
      + destruct (valid_payload U PV).
        * rewrite (inplace_meaning _ _ _ E), (assigned_value _ _ _ _ Hv E Es). cbn. finish.
        * cbn. finish.
      + destruct (has_custom U cf PV); reflexivity.
    - unfold without_member. rewrite (run_custom _ _ _ _ _ _ _ _ E).
      rewrite !(run_payload _ _ _ _ _ _ _ E).
      destruct (has_custom U cf PV) eqn:C; cbn [andb negb app Select.body].
      + destruct (valid_payload U PV).
        * rewrite (inplace_meaning _ _ _ E), (registered_value _ _ E). cbn. unfold use_manipulator. finish.
        * cbn. unfold use_manipulator. finish.
      + destruct (valid_payload U PV); [|reflexivity]. rewrite (separate_meaning _ _ E). reflexivity.
  Qed.

  Lemma type_of_member m c var off :
    constant_of U A m = Some (AVal (VMemObj c var off)) -> type_of_tval U A (TMemberType m) = Some var.
  Proof. intros E. cbn. rewrite E. reflexivity. Qed.
  Lemma class_answer P PV m c var off :
    type_of_tval U A P = Some PV -> constant_of U A m = Some (AVal (VMemObj c var off)) ->
    ans (QSame P (TMemberOf m)) = cvty_eqb PV (plain c).
  Proof.
    intros E Em. unfold answer. cbn [type_of_tval]. rewrite E, Em.
    destruct P; try discriminate; reflexivity.
  Qed.
  Lemma null_answer m c var off :
    constant_of U A m = Some (AVal (VMemObj c var off)) ->
    ans (QEqual m TNull) = match off with None => true | Some _ => false end.
  Proof. intros Em. cbn. rewrite Em. destruct off; reflexivity. Qed.

  Lemma with_member_meaning P PV m c var off s S :
    type_of_tval U A P = Some PV -> constant_of U A m = Some (AVal (VMemObj c var off)) ->
    stands_for s S ->
    meaning U cf traits A (run ans (with_member P m s)) =
    to_res (optional_sentinel_via_type U cf PV S (AVal (VMemObj c var off))).
  Proof.
    intros E Em Hs. pose proof (type_of_member _ _ _ _ Em) as Ev.
    unfold optional_sentinel_via_type, select_decomposition. cbn [filter specs matches].
    destruct s as [s|], S as [|v]; try contradiction Hs; cbn [stands_for] in Hs;
      cbn [is_default andb negb mem_var is_member_object_pointer]; rewrite ?andb_true_r, ?andb_false_r;
      unfold with_member; cbv zeta.
    - destruct Hs as (Hv & Es). cbn [run]. rewrite (class_answer _ _ _ _ _ _ E Em).
      change (ans (QDefined no_member)) with (negb (cf_mem cf)). rewrite (null_answer _ _ _ _ Em).
      rewrite !(run_payload _ _ _ _ _ _ _ E).
      match goal with |- _ = to_res (match ?x with _ => _ end) =>
        transitivity (to_res match if_member PV (AVal (VMemObj c var off))
            (if cf_mem cf then via_mem_ptr U PV (AVal (VMemObj c var off)) (fun d v' => with_sentinel U d v' (AVal v))
             else Chosen (separate U PV) man_separate) with
          | Chosen d f => if valid_payload U PV then Chosen d f else Rejected BadPayload
          | r => r end) end; [|destruct (has_custom U cf var); reflexivity].
      cbn [if_member mem_class]. destruct (cvty_eqb PV (plain c)); [|reflexivity].
      destruct (cf_mem cf); cbn [negb].
      + destruct off as [off|]; [|reflexivity]. cbn [via_mem_ptr]. destruct (valid_payload U PV).
        * rewrite (member_meaning _ _ _ _ _ _ _ E Em), (assigned_value _ _ _ _ Hv Ev Es). cbn. finish.
        * cbn. finish.
      + destruct (valid_payload U PV); [|reflexivity]. rewrite (separate_meaning _ _ E). reflexivity.
    - rewrite (run_custom _ _ _ _ _ _ _ _ Ev). cbn [run].
      rewrite (class_answer _ _ _ _ _ _ E Em).
      change (answer U cf traits A (QDefined no_member)) with (negb (cf_mem cf)).
      rewrite (null_answer _ _ _ _ Em). rewrite !(run_payload _ _ _ _ _ _ _ E).
      destruct (has_custom U cf var) eqn:C; cbn [andb negb Select.body]; cbn [if_member mem_class].
      + destruct (cvty_eqb PV (plain c)); [|reflexivity]. destruct (cf_mem cf); cbn [negb].
        * destruct off as [off|]; [|reflexivity]. cbn [via_mem_ptr]. unfold use_manipulator.
          destruct (valid_payload U PV).
          -- rewrite (member_meaning _ _ _ _ _ _ _ E Em), (registered_value _ _ Ev). cbn. finish.
          -- cbn. finish.
        * destruct (valid_payload U PV); [|reflexivity]. rewrite (separate_meaning _ _ E). reflexivity.
      + destruct (cf_mem cf); cbn [negb]; [reflexivity|].
        destruct (cvty_eqb PV (plain c)); [|reflexivity].
        destruct (valid_payload U PV); [|reflexivity]. rewrite (separate_meaning _ _ E). reflexivity.
  Qed.

  (** A constant that is neither the default nor a pointer to a member variable. *)
  Lemma not_a_member PV S v :
    is_member_object_pointer (AVal v) = false ->
    to_res (optional_sentinel_via_type U cf PV S (AVal v)) = Ill.
  Proof.
    intros N. unfold optional_sentinel_via_type, select_decomposition. cbn [filter specs matches].
    destruct v; try discriminate; cbn [mem_var is_default];
      rewrite ?andb_true_r, ?andb_false_r; cbn [andb]; reflexivity.
  Qed.
  Lemma member_or_not_meaning P PV m mv s S :
    type_of_tval U A P = Some PV -> constant_of U A m = Some mv -> stands_for s S ->
    meaning U cf traits A (run ans (member_or_not P m s)) =
    to_res (optional_sentinel_via_type U cf PV S mv).
  Proof.
    intros E Em Hs. unfold member_or_not. cbn [run].
    assert (X : ans (QEqual m TDefault) = is_default mv) by (cbn; rewrite Em; reflexivity).
    assert (Y : ans (QTrait "std::is_member_object_pointer_v" (TTypeOf m)) = is_member_object_pointer mv)
      by (cbn; rewrite Em; reflexivity).
    rewrite X, Y. destruct mv as [|v]; cbn [is_default].
    - apply without_member_meaning; assumption.
    - destruct (is_member_object_pointer (AVal v)) eqn:M.
      + destruct v; try discriminate. apply with_member_meaning; assumption.
      + symmetry. apply not_a_member, M.
  Qed.
End Values.

(** ** The property *)

Theorem C75_via_type_text :
  forall U cf traits P s m,
    universe_ok U -> targ_ok U s ->
    via_type_text U cf traits P s m = to_res (optional_sentinel_via_type U cf P s m).
Proof.
  intros U cf traits P s m HU Hs. unfold via_type_text. cbv zeta.
  rewrite (execute_decisions U cf traits _ _ _ (via_type_questions P s m) via_type_decided).
  unfold via_type_decisions. cbn [run].
  match goal with |- context [answer ?u ?c ?t ?a (QSame ?x ?y)] =>
    change (answer u c t a (QSame x y)) with (is_default s) end.
  destruct s as [|v]; cbn [is_default]; apply member_or_not_meaning; try reflexivity; try assumption.
  cbn. auto.
Qed.
Theorem C75_optional_text :
  forall U cf traits P a b,
    universe_ok U -> targ_ok U a -> targ_ok U b ->
    optional_text U cf traits P a b = to_res (optional_type U cf P a b).
Proof.
  intros U cf traits P a b HU Ha Hb. unfold optional_text. cbv zeta.
  rewrite (execute_decisions U cf traits _ _ _ (optional_questions P a b) optional_decided).
  unfold optional_decisions, optional_type, sentinel_and_mem_ptr. cbn [run]. cbv zeta.
  repeat match goal with
    | |- context [answer ?u ?c ?t ?d (QEqual (TConst "a") ?y)] =>
        change (answer u c t d (QEqual (TConst "a") y)) with (is_default a)
    | |- context [answer ?u ?c ?t ?d (QEqual (TConst "b") ?y)] =>
        change (answer u c t d (QEqual (TConst "b") y)) with (is_default b)
    | |- context [answer ?u ?c ?t ?d (QTrait ?x ?y)] =>
        change (answer u c t d (QTrait x y)) with (is_member_object_pointer a)
    end.
  destruct a as [|a]; cbn [is_default].
  - cbn [is_member_object_pointer]. apply without_member_meaning; try reflexivity; assumption.
  - destruct (is_member_object_pointer (AVal a)) eqn:M.
    + destruct a; try discriminate. destruct b as [|b]; cbn [is_default];
        apply with_member_meaning; try reflexivity; try assumption. cbn. auto.
    + apply without_member_meaning; try reflexivity; try assumption. cbn. auto.
Qed.
Theorem C75_inplace_text :
  forall U cf traits P f,
    inplace_text U cf traits P f = to_res (optional_inplace_type U P f).
Proof.
  intros U cf traits P f. unfold inplace_text. cbv zeta.
  rewrite (execute_decisions U cf traits _ _ _ (inplace_questions P f) inplace_decided).
  unfold inplace_decisions, optional_inplace_type. rewrite (run_payload _ _ _ _ _ P) by reflexivity.
  destruct (valid_payload U P); reflexivity.
Qed.
Lemma alias_text U cf traits A P v a :
  universe_ok U -> targ_ok U a -> lookup "P" (ar_types A) = Some P -> constant_of U A v = Some a ->
  alias_of_optional U cf traits A (run (answer U cf traits A) (t_optional v)) =
  to_res (optional_type U cf P a ADefault).
Proof.
  intros HU Ha EP Ev. unfold t_optional. cbn [run]. unfold alias_of_optional. cbn [type_of_tval constant_of].
  rewrite EP. fold (constant_of U A v). rewrite Ev. cbn [String.eqb Ascii.eqb Bool.eqb].
  apply (C75_optional_text U cf traits P a ADefault HU Ha). exact I.
Qed.
Lemma swallowing_ok U t v : universe_ok U -> swallowing_default U t = Some v -> const_ok U v.
Proof.
  intros HU Hv. destruct (uo_short U HU) as (S1 & S2). destruct (uo_intt U HU) as (I1 & I2).
  assert (R : forall k, in_range (u_int U k) (it_min (u_int U k)) /\
                        in_range (u_int U k) (it_max (u_int U k)))
    by (intros k; apply range_ends, (uo_int U HU)).
  unfold swallowing_default in Hv. destruct t as [|k| | | | | | | | | |]; try discriminate;
    destruct k; try discriminate; injection Hv as <-; cbn [const_ok]; try apply R;
    rewrite ?S1, ?S2, ?I1; vm_compute; split; discriminate.
Qed.
Theorem C75_aip_text :
  forall U cf traits P,
    universe_ok U -> aip_text U cf traits P = to_res (optional_aip_default U cf P).
Proof.
  intros U cf traits P HU. unfold aip_text. cbv zeta.
  rewrite (execute_decisions U cf traits _ _ _ (aip_questions P) aip_decided).
  unfold aip_decisions, optional_aip_default. rewrite (run_custom _ _ _ _ _ P) by reflexivity.
  destruct (has_custom U cf P).
  - apply alias_text; try reflexivity; try exact I; assumption.
  - cbn [first_type run].
    rewrite (named_answer _ _ _ _ _ P "unsigned short" (UInt KUShort)) by reflexivity.
    rewrite (named_answer _ _ _ _ _ P "unsigned int" (UInt KUInt)) by reflexivity.
    rewrite (named_answer _ _ _ _ _ P "unsigned long" (UInt KULong)) by reflexivity.
    rewrite (named_answer _ _ _ _ _ P "unsigned long long" (UInt KULLong)) by reflexivity.
    rewrite (named_answer _ _ _ _ _ P "short" (UInt KShort)) by reflexivity.
    rewrite (named_answer _ _ _ _ _ P "int" (UInt KInt)) by reflexivity.
    rewrite (named_answer _ _ _ _ _ P "long" (UInt KLong)) by reflexivity.
    rewrite (named_answer _ _ _ _ _ P "long long" (UInt KLLong)) by reflexivity.
    unfold swallowing_default.
    fold (swallowing_default U (base P)).
    destruct (swallowing_default U (base P)) as [v|] eqn:V.
    + pose proof (swallowing_ok _ _ _ HU V) as Hv.
      destruct (base P) as [| k | | | | | | | | | |]; try discriminate V.
      destruct k; try discriminate V; injection V as <-;
        cbn [uty_eqb ikind_eqb]; apply alias_text; try reflexivity; assumption.
    + destruct (base P) as [| k | | | | | | | | | |]; try reflexivity. destruct k; try discriminate V; reflexivity.
Qed.
Theorem C75_aip_sentinel_text :
  forall U cf traits P a,
    universe_ok U -> targ_ok U a ->
    aip_sentinel_text U cf traits P a = to_res (optional_aip U cf P a).
Proof.
  intros U cf traits P a HU Ha. unfold aip_sentinel_text. cbv zeta.
  rewrite (execute_decisions U cf traits _ _ _ (aip_sentinel_questions P a) aip_sentinel_decided).
  apply alias_text; try reflexivity; assumption.
Qed.

(** ** What follows *)

(** optional<P, a, b> of the text is the documented one; exactly the documented types exist. *)
Theorem C75_as_documented :
  forall U cf traits P a b d f,
    universe_ok U -> targ_ok U a -> targ_ok U b ->
    (optional_text U cf traits P a b = Good (d, f) <->
     valid_payload U P = true /\ documented U cf P a b d f).
Proof.
  intros U cf traits P a b d f HU Ha Hb. rewrite C75_optional_text by assumption.
  rewrite <- C32_selection_as_documented. destruct (optional_type U cf P a b); cbn.
  - split; discriminate.
  - split; congruence.
Qed.
(** Every use has one meaning or is an error: no ambiguity, no unknown name, no endless
    recursion; and nothing else about the payload matters than what the universe records. *)
Theorem C75_one_meaning :
  forall U cf traits P a b m f,
    universe_ok U -> targ_ok U a -> targ_ok U b ->
    forall r, In r [optional_text U cf traits P a b; via_type_text U cf traits P a m;
                    inplace_text U cf traits P f; aip_text U cf traits P;
                    aip_sentinel_text U cf traits P a] ->
              (forall s, r <> Stuck s) /\ (valid_payload U P = false -> r = Ill).
Proof.
  intros U cf traits P a b m f HU Ha Hb r H.
  assert (K : exists o, r = to_res o /\ (valid_payload U P = false -> forall d g, o <> Chosen d g)).
  { assert (V : forall s n, valid_payload U P = false ->
                 forall d g, optional_sentinel_via_type U cf P s n <> Chosen d g).
    { intros s n E d g. unfold optional_sentinel_via_type. rewrite E.
      destruct (select_decomposition _ _ _ _ _); discriminate. }
    assert (O : forall x y, valid_payload U P = false -> forall d g, optional_type U cf P x y <> Chosen d g).
    { intros x y. unfold optional_type. destruct (sentinel_and_mem_ptr x y). apply V. }
    destruct H as [<-|[<-|[<-|[<-|[<-|[]]]]]].
    - rewrite C75_optional_text by assumption. eexists. split; [reflexivity|apply O].
    - rewrite C75_via_type_text by assumption. eexists. split; [reflexivity|apply V].
    - rewrite C75_inplace_text. eexists. split; [reflexivity|].
      intros E d g. unfold optional_inplace_type. rewrite E. discriminate.
    - rewrite C75_aip_text by assumption. eexists. split; [reflexivity|].
      intros E d g. unfold optional_aip_default. destruct (has_custom U cf P); [apply O, E|].
      destruct (swallowing_default U (base P)); [apply O, E|discriminate].
    - rewrite C75_aip_sentinel_text by assumption. eexists. split; [reflexivity|apply O]. }
  destruct K as ([e|d g] & -> & N); cbn; split; try discriminate; try reflexivity.
  intros E. destruct (N E d g eq_refl).
Qed.
(** The sentinels that compile are the ones whose value the flag variable can hold. *)
Theorem C75_sentinels_accepted :
  forall U cf traits P v b,
    universe_ok U -> const_ok U v -> targ_ok U b -> valid_payload U P = true ->
    is_member_object_pointer (AVal v) = false ->
    ((exists d f, optional_text U cf traits P (AVal v) b = Good (d, f)) <-> accepts U (base P) v).
Proof.
  intros U cf traits P v b HU Hv Hb HP Hm.
  rewrite <- (C32_sentinels_accepted U cf P v b HU Hv HP Hm). rewrite C75_optional_text by assumption.
  destruct (optional_type U cf P (AVal v) b) as [e|d f]; cbn.
  - split; intros (d & f & H); discriminate.
  - split; intros _; eexists _, _; reflexivity.
Qed.
(** The types that the text defines are the types of the other theorems: a program that
    names its optionals with the text of the header is a program of C58 to C71. *)
Inductive text_named (U : universe) (cf : config) traits (P : cvty) (d : decomp) (f : manip) : Prop :=
| text_optional a b :
    targ_ok U a -> targ_ok U b -> no_nan U (used_sentinel a b) ->
    optional_text U cf traits P a b = Good (d, f) -> text_named U cf traits P d f
| text_via_type s m :
    targ_ok U s -> targ_ok U m -> no_nan U s ->
    via_type_text U cf traits P s m = Good (d, f) -> text_named U cf traits P d f
| text_inplace g :
    manip_ok (dec_inplace (size_of U (base P))) g ->
    inplace_text U cf traits P g = Good (d, f) -> text_named U cf traits P d f
| text_aip : aip_text U cf traits P = Good (d, f) -> text_named U cf traits P d f
| text_aip_sentinel a :
    targ_ok U a -> no_nan U a -> is_member_object_pointer a = false ->
    aip_sentinel_text U cf traits P a = Good (d, f) -> text_named U cf traits P d f.
Theorem C75_text_types :
  forall U cf traits P d f,
    universe_ok U -> (text_named U cf traits P d f <-> named U cf P d f).
Proof.
  intros U cf traits P d f HU.
  assert (R : forall o, to_res o = Good (d, f) <-> o = Chosen d f).
  { intros [e|d' f']; cbn; split; congruence. }
  split; intros [a b Ha Hb Hn H|s m Hs Hm Hn H|g Hg H|H|a Ha Hn Hm H].
  - apply (named_optional U cf P d f a b); try assumption. apply R. rewrite <- H. symmetry. apply C75_optional_text; assumption.
  - apply (named_via_type U cf P d f s m); try assumption. apply R. rewrite <- H. symmetry. apply C75_via_type_text; assumption.
  - apply (named_inplace U cf P d f g); try assumption. apply R. rewrite <- H. symmetry. apply C75_inplace_text.
  - apply (named_aip U cf P d f ); try assumption. apply R. rewrite <- H. symmetry. apply C75_aip_text; assumption.
  - apply (named_aip_sentinel U cf P d f a); try assumption. apply R. rewrite <- H. symmetry. apply C75_aip_sentinel_text; assumption.
  - apply (text_optional U cf traits P d f a b); try assumption. rewrite C75_optional_text by assumption. apply R, H.
  - apply (text_via_type U cf traits P d f s m); try assumption. rewrite C75_via_type_text by assumption. apply R, H.
  - apply (text_inplace U cf traits P d f g); try assumption. rewrite C75_inplace_text. apply R, H.
  - apply (text_aip U cf traits P d f ); try assumption. rewrite C75_aip_text by assumption. apply R, H.
  - apply (text_aip_sentinel U cf traits P d f a); try assumption. rewrite C75_aip_sentinel_text by assumption. apply R, H.
Qed.
(** ... so that the flag of a type of the text obeys the laws that the optional needs. *)
Corollary C75_text_types_lawful :
  forall U cf traits P d f,
    universe_ok U -> text_named U cf traits P d f -> decomp_ok d /\ manip_ok d f.
Proof.
  intros U cf traits P d f HU H. apply C75_text_types in H; [|exact HU].
  exact (named_lawful _ _ _ _ _ HU H).
Qed.

(** ** The base classes for the special member functions

    The trees above were computed with StorageBase<D, F> in the place of
    CopyAssignmentBase<D, F>, the last of the classes that add the special member
    functions (optional.h:1165-1313).  Those classes do not matter: with all of them, the
    optional types that the trees give are complete, whatever the special member functions
    of the payload are. *)
Definition all_bases (r : res tval) : tree :=
  match r with
  | Good (TInst c args) => decision (_ <~ complete false depth c args ;; ret (TTruth true))
  | _ => Leaf Ill
  end.
(** What is asked there. *)
Definition bases_decisions (r : res tval) : tree :=
  match r with
  | Good (TInst _ [TInst _ (P :: l); _]) =>
      let y := ask_payload P (Leaf (Good (TTruth true))) in
      match l with
      | [] => y
      | m :: _ =>
          Ask (QDefined no_member) (Leaf Ill)
            (Ask (QEqual m TDefault) (Leaf Ill)
               (Ask (QTrait "std::is_member_object_pointer_v" (TTypeOf m))
                  (Ask (QEqual m TNull) (Leaf Ill) y) (Leaf Ill)))
      end
  | _ => Leaf Ill
  end.
Fixpoint results (t : tree) : list (res tval) :=
  match t with Leaf r => [r] | Ask _ a b => results a ++ results b end.
Fixpoint distinct (l : list (res tval)) : list (res tval) :=
  match l with
  | [] => []
  | r :: l => if existsb (fun x => tree_eqb (Leaf r) (Leaf x)) l then distinct l else r :: distinct l
  end.
(** The tree t, and then the questions of the base classes. *)
Fixpoint instead (r : res tval) (t : tree) : tree :=
  match t with
  | Leaf (Good _) => Leaf r
  | Leaf r => Leaf r
  | Ask q a b => Ask q (instead r a) (instead r b)
  end.
Fixpoint and_bases (t : tree) : tree :=
  match t with
  | Leaf r => instead r (bases_decisions r)
  | Ask q a b => Ask q (and_bases a) (and_bases b)
  end.
Definition decided : list (tree * tree) :=
  [(via_type_tree, via_type_decisions); (optional_tree, optional_decisions);
   (inplace_tree, inplace_decisions)].
Lemma bases_checked :
  forallb (fun r => same_tree [] (all_bases r) (bases_decisions r))
    (distinct (flat_map (fun p => results (snd p)) decided)) = true.
Proof. vm_compute. reflexivity. Qed.
Lemma bases_asked :
  forallb (fun p => same_tree [] (snd p) (and_bases (snd p))) decided = true.
Proof. vm_compute. reflexivity. Qed.
Lemma all_decided s t : In (s, t) decided -> same_tree [] s t = true.
Proof.
  intros [E|[E|[E|[]]]]; apply pair_equal_spec in E as (<- & <-);
    [exact via_type_decided|exact optional_decided|exact inplace_decided].
Qed.

Lemma in_distinct r l : In r l -> In r (distinct l).
Proof.
  induction l as [|x l IH]; [intros []|]. cbn [distinct].
  destruct (existsb _ l) eqn:E.
  - intros [<-|H]; [|auto]. apply existsb_exists in E as (y & I & E). apply tree_eqb_eq in E.
    injection E as ->. auto.
  - intros [<-|H]; [left; reflexivity|right; auto].
Qed.
Lemma run_result ans t : In (run ans t) (results t).
Proof.
  induction t as [r|q a IHa b IHb]; cbn; [auto|]. apply in_or_app. destruct (ans q); auto.
Qed.
Lemma run_instead ans r t :
  run ans (instead r t) = match run ans t with Good _ => r | x => x end.
Proof. induction t as [[]|q a IHa b IHb]; try reflexivity. cbn. destruct (ans q); assumption. Qed.
Lemma run_and_bases ans t :
  run ans (and_bases t) =
  match run ans (bases_decisions (run ans t)) with Good _ => run ans t | x => x end.
Proof.
  induction t as [r|q a IHa b IHb]; [apply run_instead|]. cbn. destruct (ans q); assumption.
Qed.
Lemma bases_good ans r v : run ans (bases_decisions r) = Good v -> v = TTruth true.
Proof.
  unfold bases_decisions, ask_payload. intros H.
  repeat match type of H with
    | context [match ?x with _ => _ end] =>
        match x with context [run] => fail 1 | _ => destruct x end; cbn in H
    end; congruence.
Qed.
Theorem C75_special_member_bases :
  forall U cf traits A s v,
    In s [via_type_tree; optional_tree; inplace_tree] ->
    run (answer U cf traits A) s = Good v ->
    run (answer U cf traits A) (all_bases (Good v)) = Good (TTruth true).
Proof.
  intros U cf traits A s v Hs H.
  assert (D : exists t, In (s, t) decided).
  { destruct Hs as [<-|[<-|[<-|[]]]]; eexists;
      [left; reflexivity|right; left; reflexivity|right; right; left; reflexivity]. }
  destruct D as (t & D). pose proof (answer_one_name U cf traits A) as O.
  set (ans := answer U cf traits A) in *.
  rewrite (same_results _ _ (all_decided _ _ D) ans O) in H.
  assert (B : same_tree [] (all_bases (Good v)) (bases_decisions (Good v)) = true).
  { pose proof bases_checked as B. rewrite forallb_forall in B. apply B, in_distinct, in_flat_map.
    exists (s, t). split; [exact D|]. rewrite <- H. apply run_result. }
  rewrite (same_results _ _ B ans O).
  assert (K : same_tree [] t (and_bases t) = true).
  { pose proof bases_asked as K. rewrite forallb_forall in K. exact (K _ D). }
  pose proof (same_results _ _ K ans O) as E. rewrite run_and_bases, H in E.
  destruct (run ans (bases_decisions (Good v))) as [w| |] eqn:W; try discriminate.
  rewrite (bases_good _ _ _ W). reflexivity.
Qed.

(** ** Examples *)

Definition all_traits : string -> cvty -> bool := fun _ _ => true.
Example C75_example :
  let U := sample_universe in
  let cf := default_config in
  let text := optional_text U cf all_traits in
  text (plain UDouble) ADefault ADefault = Good (dec_inplace 8, man_double) /\
  text (plain (UInt KInt)) ADefault ADefault = Good (dec_separate 4 8, man_separate) /\
  text (plain (UInt KUInt)) (AVal (VInt KInt (-1))) ADefault = Ill /\
  text (plain (UArray 3)) ADefault ADefault = Ill /\
  text (plain (UClass 0)) (AVal member_d) ADefault = Good (dec_member 16 0 8, man_double) /\
  text (plain (UClass 0)) (AVal member_i) ADefault = Ill /\
  text (plain (UClass 0)) (AVal member_i) (AVal (VInt KInt 5))
    = Good (dec_member 16 8 4, man_int (MkIty 4 true) 5) /\
  text (plain (UClass 1)) (AVal member_i) (AVal (VInt KInt 5)) = Ill /\
  optional_text U no_ub_tricks all_traits (plain (UClass 0)) (AVal member_d) ADefault
    = Good (dec_separate 16 8, man_separate).
Proof.
  cbv zeta. rewrite !C75_optional_text by (first [apply sample_universe_ok | cbn; unfold in_range; cbn; lia]).
  repeat split.
Qed.
(** The same computed from the text, without the theorem. *)
Example C75_example_computed :
  let U := sample_universe in
  let cf := default_config in
  let size (r : res (decomp * manip)) := match r with Good (d, _) => Some (d_sep d, d_ssize d) | _ => None end in
  size (via_type_text U cf all_traits (plain (UInt KShort)) (AVal (VInt KInt 7)) ADefault) = Some (false, 2) /\
  size (via_type_text U cf all_traits (plain (UClass 0)) (AVal (VInt KInt 5)) (AVal member_i)) = Some (false, 16) /\
  size (inplace_text U cf all_traits (plain (UClass 0)) man_separate) = Some (false, 16) /\
  size (inplace_text U cf all_traits (plain UNullopt) man_separate) = None.
Proof. vm_compute. repeat split. Qed.
Example C75_text_types_example :
  text_named sample_universe default_config all_traits (plain UDouble) (dec_inplace 8) man_double.
Proof.
  apply (text_optional _ _ _ _ _ _ ADefault ADefault); try exact I.
  rewrite C75_optional_text by (first [apply sample_universe_ok|exact I]). reflexivity.
Qed.

Print Assumptions C75_via_type_text.
Print Assumptions C75_optional_text.
Print Assumptions C75_inplace_text.
Print Assumptions C75_aip_text.
Print Assumptions C75_aip_sentinel_text.
Print Assumptions C75_as_documented.
Print Assumptions C75_one_meaning.
Print Assumptions C75_sentinels_accepted.
Print Assumptions C75_text_types.
Print Assumptions C75_special_member_bases.
