(** * Constraints: which function of the header a compiler considers (C77)

    [Overload.v] and [CmpOverload.v] list the constructors, assignments and comparison
    operators with their conditions by hand.  Here these lists are computed from the text:
    parameter types, explicit, = default and = delete from [Source.v] and [Specials.v],
    template heads, constraints and #if conditions from [Heads.v]. *)

From Coq Require Import Ascii String List Bool NArith.
From Verif Require Import Syntax Source Heads.
From Verif Require Exec Declared Select Selection Smf Overload CmpOverload SwapCall Optional.
Import ListNotations.
Local Open Scope string_scope.

(** * Constructors and assignments *)

Section Conversions.
  Import Smf Overload.
  Variable L : lang.

  (** The value of a condition for the class [o]: [U] is the type of the argument [x] (no
      argument for an empty pack [ArgsT]), [tt] what TinyOptionalType stands for.  [None]: not
      a condition that is understood (optional.h:1405-1434). *)
  Fixpoint holds (n : nat) (o : oty) (tt : option oty) (x : option atype) (e : expr) : option bool :=
    let P := payload L o in
    match n with
    | O => None
    | S n =>
        match e with
        | EUn op a => if String.eqb op "!" then option_map negb (holds n o tt x a) else None
        | EBin op a b =>
            match holds n o tt x a, holds n o tt x b with
            | Some u, Some v => if String.eqb op "&&" then Some (u && v)
                                else if String.eqb op "||" then Some (u || v) else None
            | _, _ => None
            end
        | EName c =>
            match x with
            | None =>
                if String.eqb c "std::is_constructible_v<PayloadType,ArgsT...>"
                then Some (l_default L P) else None
            | Some x =>
                if String.eqb c "std::is_constructible_v<PayloadType,U>" then Some (l_constructible L P x)
                else if String.eqb c "std::is_convertible_v<U,PayloadType>" then Some (l_convertible L P x)
                else if String.eqb c "std::is_assignable_v<PayloadType&,U>" then Some (l_assignable L P x)
                else if String.eqb c "std::is_scalar_v<PayloadType>"
                then Some (is_scalar (Select.base P))
                else if String.eqb c "std::is_same_v<std::decay_t<U>,PayloadType>"
                then Some (match fst x with TVal t => Select.cvty_eqb (Select.plain t) P | _ => false end)
                else if String.eqb c "std::is_same_v<my_remove_cvref_t<U>,std::in_place_t>"
                then Some (match fst x with TInPlace => true | _ => false end)
                else if String.eqb c "std::is_same_v<my_remove_cvref_t<U>,TinyOptionalImpl>"
                then Some (match fst x with TOpt o' => oty_eqb o' (OImpl (impl_of L o)) | _ => false end)
                else if String.eqb c "std::is_base_of_v<TinyOptionalImpl,my_remove_cvref_t<U>>"
                then Some (match fst x with TOpt o' => Nat.eqb (impl_of L o') (impl_of L o) | _ => false end)
                else if String.eqb c "std::is_same_v<my_remove_cvref_t<U>,TinyOptionalType>"
                then match tt with
                     | Some t => Some (match fst x with TOpt o' => oty_eqb o' t | _ => false end)
                     | None => None
                     end
                else if String.eqb c "EnableConvertingConstructor<U>::value"
                then match Exec.assoc "EnableConvertingConstructor" conditions with
                     | Some (ps, e) =>
                         match ps with [u] => if String.eqb u "U" then holds n o None (Some x) e else None
                                     | _ => None end
                     | None => None
                     end
                else
                  let assignment t :=
                    match Exec.assoc "EnableConvertingAssignment" conditions with
                    | Some (ps, e) =>
                        match ps with
                        | [a; u] => if String.eqb a "TinyOptionalType" && String.eqb u "U"
                                    then holds n o (Some t) (Some x) e else None
                        | _ => None
                        end
                    | None => None
                    end in
                  if String.eqb c "EnableConvertingAssignment<TinyOptionalImpl,U>::value"
                  then assignment (OImpl (impl_of L o))
                  else if String.eqb c "Base::template EnableConvertingAssignment<optional,U>::value"
                  then assignment o
                  else None
            end
        | _ => None
        end
    end.
  (** All conditions of a function. *)
  Definition enabled (o : oty) (x : option atype) (h : head) : option bool :=
    match h_guard h, h_enable h, h_requires h with
    | [], [], [] => Some true
    | [], [e], [] => holds 12 o None x e
    | _, _, _ => None
    end.

  Definition class_of (o : oty) : string :=
    match o with OOpt _ => "optional" | OImpl _ => "TinyOptionalImpl" end.
  (** The heads of the functions of a class with a name. *)
  Definition functions (cls x : string) : list head :=
    filter (fun h => String.eqb (f_class (h_fun h)) cls && String.eqb (f_name (h_fun h)) x) heads.
  (** Is [f] a default, copy or move constructor?  They are not inherited. *)
  Definition parameter (f : fundef) (t : string) : bool :=
    match f_params f with [p] => String.eqb (Exec.plain 0 (p_type p)) t | _ => false end.
  Definition special (cls : string) (f : fundef) : bool :=
    match f_params f with [] => true | _ => parameter f (cls ++ "const&") || parameter f (cls ++ "&&") end.
  (** The constructors of a class, with the inherited ones. *)
  Definition constructors_of (cls : string) : list head :=
    functions cls cls ++
    match Exec.find_class classes cls with
    | Some c =>
        match Exec.base_of c with
        | Some b => if c_using c then filter (fun h => negb (special b (h_fun h))) (functions b b) else []
        | None => []
        end
    | None => []
    end.

  Fixpoint all {A} (l : list (option (list A))) : option (list A) :=
    match l with
    | [] => Some []
    | Some x :: l' => option_map (app x) (all l')
    | None :: _ => None
    end.

  (** A constructor (optional.h:1441-1499, 2211-2219) as a candidate for the argument [x]; [m]: the copy and move operations of
      the class. *)
  Definition constructor (direct : bool) (o : oty) (m : class_members) (x : atype) (h : head)
    : option (list (cand ceffect)) :=
    let f := h_fun h in
    let cls := class_of o in
    let usable_here := negb (String.eqb (f_ref f) "explicit") || direct in
    match f_params f with
    | [] => Some []
    | [p] =>
        if parameter f (cls ++ "const&")
        then Some (if_rank (ref_rank L o x) 1 (usable (m_cctor m) (CFrom ByCopy)))
        else if parameter f (cls ++ "&&")
        then Some (if rvalue x
                   then if_declared (m_mctor m) (if_rank (ref_rank L o x) 0 (usable (m_mctor m) (CFrom ByMove)))
                   else [])
        else if parameter f "std::nullopt_t"
        then Some (if_true (match fst x with TNullopt => usable_here | _ => false end) 0 CEmpty)
        else if parameter f "U&&"
        then option_map (fun b => if_true (usable_here && b) 2 CValue) (enabled o (Some x) h)
        else None
    | [p; q] =>
        if String.eqb (p_type p) "std::in_place_t" && p_pack q
        then option_map (fun b =>
               if_true (match fst x with TInPlace => usable_here && b | _ => false end) 0 CInPlace)
               (enabled o None h)
        else None
    | _ => Some []                     (* more than one argument *)
    end.
  (** All candidates, from the text. *)
  Definition text_members (o : oty) : option class_members :=
    Declared.members (Declared.Payload (l_traits L (payload L o)) false) (class_of o).
  Definition text_constructors (direct : bool) (o : oty) (x : atype) : option (list (cand ceffect)) :=
    match text_members o with
    | Some m => all (map (constructor direct o m x) (constructors_of (class_of o)))
    | None => None
    end.
  Definition text_construct (direct : bool) (o : oty) (x : atype) : option (option ceffect) :=
    option_map resolve (text_constructors direct o x).

  (** The same for the assignment operators (optional.h:1444-1445, 1517-1531, 2214-2247); those of a base class are hidden by those of the
      class.  [{}] converts to the class by its default constructor and to the type of the
      parameter [U&&], whose default is the payload type. *)
  Definition default_is_payload (h : head) : bool :=
    match h_params h with
    | [(u, false, Some d, None)] =>
        String.eqb u "U" && (String.eqb d "PayloadType" || String.eqb d "PayloadType_")
    | _ => false
    end.
  Definition assignment (o : oty) (m : class_members) (a : aarg) (temp : option ceffect) (h : head)
    : option (list (cand aeffect)) :=
    let f := h_fun h in
    let cls := class_of o in
    if parameter f (cls ++ "const&")
    then Some
      match a with
      | Braces => [(UserDefined, 1, usable (m_cassign m) (ATemp CEmpty ByCopy))]
      | Arg x =>
          match ref_rank L o x with
          | Some r => [(r, 1, usable (m_cassign m) (AFrom ByCopy))]
          | None => match temp with
                    | Some e => [(UserDefined, 1, usable (m_cassign m) (ATemp e ByCopy))]
                    | None => []
                    end
          end
      end
    else if parameter f (cls ++ "&&")
    then Some
      match a with
      | Braces => if_declared (m_massign m) [(UserDefined, 0, usable (m_massign m) (ATemp CEmpty ByMove))]
      | Arg x =>
          match ref_rank L o x with
          | Some r => if rvalue x
                      then if_declared (m_massign m) [(r, 0, usable (m_massign m) (AFrom ByMove))] else []
          | None => match temp with
                    | Some e => if_declared (m_massign m)
                                  [(UserDefined, 0, usable (m_massign m) (ATemp e ByMove))]
                    | None => []
                    end
          end
      end
    else if parameter f "std::nullopt_t"
    then Some (match a with
               | Braces => []          (* nullopt_t has no default constructor *)
               | Arg x => if_true (match fst x with TNullopt => true | _ => false end) 0 AClear
               end)
    else if parameter f "U&&"
    then match a with
         | Braces =>
             if default_is_payload h
             then option_map (fun b : bool => if b then if_rank (l_braces L (payload L o)) 2 (Some AValue) else [])
                             (enabled o (Some (of_payload (payload L o))) h)
             else Some []
         | Arg x => option_map (fun b => if_true b 2 AValue) (enabled o (Some x) h)
         end
    else None.
  Definition text_assignments (o : oty) (a : aarg) : option (list (cand aeffect)) :=
    match text_members o,
          match a with Braces => Some None | Arg x => text_construct false o x end with
    | Some m, Some temp => all (map (assignment o m a temp) (functions (class_of o) "operator="))
    | _, _ => None
    end.
  Definition text_assign_to (o : oty) (a : aarg) : option (option aeffect) :=
    option_map resolve (text_assignments o a).
  (** The whole call; the template of [optional] calls the operator of its base class. *)
  Definition text_assign (o : oty) (a : aarg) : option (option aeffect) :=
    match o, text_assign_to o a with
    | OOpt n, Some (Some AValue) =>
        text_assign_to (OImpl (l_base L n))
          (Arg (match a with Braces => of_payload (payload L o) | Arg x => x end))
    | _, r => r
    end.
End Conversions.

(** ** They are those of the model *)

Section Proof.
  Import Smf Overload.
  Variable L : lang.

  Lemma text_members_smf o : text_members L o = Some (smf L o).
  Proof.
    unfold text_members, Declared.members.
    destruct (Declared.chain_text (Declared.Payload (l_traits L (payload L o)) false)) as (A & B).
    destruct o as [n|k]; cbn [class_of]; [rewrite B|rewrite A]; reflexivity.
  Qed.

  Lemma named_constructor o x n tt :
    holds L (6 + n) o tt (Some x) (EName "EnableConvertingConstructor<U>::value")
    = Some (enable_ctor L (impl_of L o) x).
  Proof.
    cbv -[l_constructible impl_of payload oty_eqb Nat.eqb enable_ctor].
    unfold enable_ctor. fold (payload L o). change (l_payload L (impl_of L o)) with (payload L o).
    f_equal. destruct x as [[o'|t| |] c]; cbn; destruct (l_constructible L (payload L o) _); cbn; try reflexivity.
    destruct o' as [m|m]; cbn; destruct (Nat.eqb _ (impl_of L o)); reflexivity.
  Qed.

  Lemma implicit_head o x :
    enabled L o (Some x) h1484_TinyOptionalImpl
    = Some (enable_ctor L (impl_of L o) x && l_convertible L (payload L o) x).
  Proof.
    unfold enabled. cbn [h1484_TinyOptionalImpl h_guard h_enable h_requires].
    change (holds L 12 o None (Some x) ?[e]) with
      (match holds L (6 + 5) o None (Some x) (EName "EnableConvertingConstructor<U>::value"),
             holds L 11 o None (Some x) (EName "std::is_convertible_v<U,PayloadType>") with
       | Some u, Some v => Some (u && v)
       | _, _ => None
       end).
    rewrite named_constructor. reflexivity.
  Qed.
  Lemma explicit_head o x :
    enabled L o (Some x) h1493_TinyOptionalImpl
    = Some (enable_ctor L (impl_of L o) x && negb (l_convertible L (payload L o) x)).
  Proof.
    unfold enabled. cbn [h1493_TinyOptionalImpl h_guard h_enable h_requires].
    change (holds L 12 o None (Some x) ?[e]) with
      (match holds L (6 + 5) o None (Some x) (EName "EnableConvertingConstructor<U>::value"),
             holds L 11 o None (Some x) (EUn "!" (EName "std::is_convertible_v<U,PayloadType>")) with
       | Some u, Some v => Some (u && v)
       | _, _ => None
       end).
    rewrite named_constructor. reflexivity.
  Qed.
  Lemma in_place_head o : enabled L o None h1456_TinyOptionalImpl = Some (l_default L (payload L o)).
  Proof. reflexivity. Qed.

  Lemma constructors_impl :
    constructors_of "TinyOptionalImpl" =
    [h1441_TinyOptionalImpl; h1442_TinyOptionalImpl; h1443_TinyOptionalImpl; h1449_TinyOptionalImpl;
     h1456_TinyOptionalImpl; h1466_TinyOptionalImpl; h1474_TinyOptionalImpl; h1484_TinyOptionalImpl;
     h1493_TinyOptionalImpl].
  Proof. vm_compute. reflexivity. Qed.
  Lemma constructors_optional :
    constructors_of "optional" =
    [h2211_optional; h2212_optional; h2213_optional; h1449_TinyOptionalImpl;
     h1456_TinyOptionalImpl; h1466_TinyOptionalImpl; h1474_TinyOptionalImpl; h1484_TinyOptionalImpl;
     h1493_TinyOptionalImpl].
  Proof. vm_compute. reflexivity. Qed.
  Lemma assignments_impl :
    functions "TinyOptionalImpl" "operator=" =
    [h1444_op_assign; h1445_op_assign; h1517_op_assign; h1525_op_assign].
  Proof. vm_compute. reflexivity. Qed.
  Lemma assignments_optional :
    functions "optional" "operator=" =
    [h2214_op_assign; h2215_op_assign; h2233_op_assign; h2243_op_assign].
  Proof. vm_compute. reflexivity. Qed.

  Lemma implicit_candidate direct o m x :
    constructor L direct o m x h1484_TinyOptionalImpl =
    Some (if_true (enable_ctor L (impl_of L o) x && l_convertible L (payload L o) x) 2 CValue).
  Proof.
    unfold constructor. rewrite implicit_head. destruct o; reflexivity.
  Qed.
  Lemma explicit_candidate direct o m x :
    constructor L direct o m x h1493_TinyOptionalImpl =
    Some (if_true (direct && (enable_ctor L (impl_of L o) x && negb (l_convertible L (payload L o) x))) 2 CValue).
  Proof.
    unfold constructor. rewrite explicit_head. destruct o; reflexivity.
  Qed.
  Lemma in_place_candidate direct o m x :
    constructor L direct o m x h1456_TinyOptionalImpl =
    Some (if_true (match fst x with TInPlace => direct && l_default L (payload L o) | _ => false end) 0 CInPlace).
  Proof.
    unfold constructor. rewrite in_place_head. reflexivity.
  Qed.

  Lemma text_constructors_model direct o x :
    text_constructors L direct o x = Some (constructors L direct o x).
  Proof.
    unfold text_constructors. rewrite text_members_smf.
    destruct o as [n|k]; cbn [class_of]; [rewrite constructors_optional|rewrite constructors_impl];
      cbn [map]; rewrite implicit_candidate, explicit_candidate, in_place_candidate;
      unfold constructors; generalize (smf L (OOpt n)) || generalize (smf L (OImpl k)); intros m;
      unfold constructor at 1 2 3 4 5 6; cbn - [ref_rank if_rank if_true if_declared rvalue enable_ctor app];
      rewrite ?app_nil_r; reflexivity.
  Qed.

  Lemma assignment_head o x h :
    (match o with OOpt _ => h2243_op_assign | OImpl _ => h1525_op_assign end) = h ->
    enabled L o (Some x) h = Some (enable_assign L o x).
  Proof.
    intros <-. destruct o; cbv -[l_constructible l_assignable impl_of payload oty_eqb is_scalar
                                 Select.cvty_eqb andb orb negb]; reflexivity.
  Qed.
  Lemma text_construct_model direct o x : text_construct L direct o x = Some (construct L direct o x).
  Proof. unfold text_construct. rewrite text_constructors_model. reflexivity. Qed.
  Lemma value_candidate o m a temp h :
    (match o with OOpt _ => h2243_op_assign | OImpl _ => h1525_op_assign end) = h ->
    assignment L o m a temp h =
    Some match a with
         | Braces => if enable_assign L o (of_payload (payload L o))
                     then if_rank (l_braces L (payload L o)) 2 (Some AValue) else []
         | Arg x => if_true (enable_assign L o x) 2 AValue
         end.
  Proof.
    intros <-. unfold assignment. destruct a as [|x]; rewrite (assignment_head o _ _ eq_refl); destruct o; reflexivity.
  Qed.
  Lemma text_assignments_model o a : text_assignments L o a = Some (assignments L o a).
  Proof.
    unfold text_assignments. rewrite text_members_smf.
    destruct a as [|x]; [|rewrite text_construct_model];
      (destruct o as [n|k]; cbn [class_of]; [rewrite assignments_optional|rewrite assignments_impl];
       cbn [map];
       first [rewrite (value_candidate (OOpt n) _ _ _ h2243_op_assign eq_refl)
             |rewrite (value_candidate (OImpl k) _ _ _ h1525_op_assign eq_refl)];
       unfold assignments;
       generalize (smf L (OOpt n)) || generalize (smf L (OImpl k)); intros m;
       unfold assignment at 1 2 3; cbn - [ref_rank if_rank if_true if_declared rvalue enable_assign construct app];
       rewrite ?app_nil_r; try reflexivity).
    all: destruct (ref_rank L _ x); [destruct (rvalue x); rewrite ?app_assoc; reflexivity|].
    all: destruct (construct L false _ x); cbn; rewrite <- ?app_assoc; reflexivity.
  Qed.
End Proof.

(** * Comparison operators *)

(** ** What the text declares *)

Section Comparisons.
  Import CmpOverload Optional.

  (** The template arguments of a type: [X<A,B>const&]. *)
  Fixpoint arguments (inside : bool) (cur s : string) : list string :=
    match s with
    | EmptyString => []
    | String c s' =>
        if inside
        then if Ascii.eqb c ">"%char then [cur]
             else if Ascii.eqb c ","%char then cur :: arguments true "" s'
             else arguments true (cur ++ String c "") s'
        else arguments (Ascii.eqb c "<"%char) "" s'
    end.

  (** A function parameter (optional.h:2398-2766): the pattern, its template parameters, and the type of the value
      that it compares. *)
  Record side := Side { s_pat : pat; s_names : list string; s_value : string }.
  Definition side_of (t : string) : option side :=
    let l := arguments false "" t in
    let p := Exec.plain 0 t in
    if String.eqb t "std::nullopt_t" then Some (Side PNull [] "")
    else if String.eqb t "U const&" then Some (Side PAny ["U"] "U")
    else if String.eqb p "TinyOptionalImplconst&" && Nat.eqb (length l) 2
    then Some (Side PImpl l ("typename TinyOptionalImpl<" ++ String.concat "," l ++ ">::value_type"))
    else if String.eqb p "optionalconst&" && Nat.eqb (length l) 3 then Some (Side POpt l (hd "" l))
    else if String.eqb p "std::optionalconst&" && Nat.eqb (length l) 1 then Some (Side PStd l (hd "" l))
    else None.

  Definition operator_of (x : string) : option cop :=
    Exec.assoc x [("operator==", CRel REq); ("operator!=", CRel RNe); ("operator<", CRel RLt);
                  ("operator<=", CRel RLe); ("operator>", CRel RGt); ("operator>=", CRel RGe);
                  ("operator<=>", CThree)].

  (** The conjuncts of a constraint. *)
  Fixpoint conjuncts (e : expr) : list expr :=
    match e with
    | EBin op a b => if String.eqb op "&&" then conjuncts a ++ conjuncts b else [e]
    | _ => [e]
    end.
  (** A constraint: the argument is not a tiny optional, or the two values are three way
      comparable (a symmetric condition). *)
  Inductive constraint := NotTiny (u : string) | ThreeWay.
  Definition three_way (l r : side) (c : string) : bool :=
    String.eqb c ("std::three_way_comparable_with<" ++ s_value l ++ "," ++ s_value r ++ ">") ||
    String.eqb c ("std::three_way_comparable_with<" ++ s_value r ++ "," ++ s_value l ++ ">").
  Definition constraint_of (l r : side) (e : expr) : option constraint :=
    match e with
    | EUn op (EName c) =>
        if String.eqb op "!" && String.eqb c "is_tiny_optional_v<U>" then Some (NotTiny "U") else None
    | EName c => if three_way l r c then Some ThreeWay else None
    | _ => None
    end.
  Fixpoint every {A B} (f : A -> option B) (l : list A) : option (list B) :=
    match l with
    | [] => Some []
    | a :: l' => match f a, every f l' with Some b, Some r => Some (b :: r) | _, _ => None end
    end.
  (** The type-constraint of the template parameter [x]: [C<y> x] means [C<x, y>]. *)
  Definition concept_of (ps : list (string * bool * option string * option string)) (x : string) : option string :=
    match find (fun p => String.eqb (fst (fst (fst p))) x) ps with
    | Some (_, _, _, Some c) =>
        Some (let y := hd "" (arguments false "" c) in
              if String.eqb c ("std::three_way_comparable_with<" ++ y ++ ">")
              then "std::three_way_comparable_with<" ++ x ++ "," ++ y ++ ">" else c)
    | _ => None
    end.
  Definition concepts (h : head) (l r : side) : list expr :=
    flat_map (fun p => match concept_of (h_params h) (fst (fst (fst p))) with
                       | Some c => [EName c] | None => [] end) (h_params h).
  Definition on (h : head) (s : side) : bool :=
    existsb (fun x => match concept_of (h_params h) x with Some _ => true | None => false end) (s_names s).

  (** The type of the result, and the constraint that it carries: bool, or
      std::enable_if_t<..., bool>; for [<=>] the category that belongs to the two types. *)
  Definition result (o : cop) (l r : side) (t : retty) : option (list constraint) :=
    match t with
    | RValue t =>
        match o with
        | CRel _ =>
            if String.eqb t "bool" then Some []
            else if String.eqb t "std::enable_if_t<!is_tiny_optional_v<U>,bool>" then Some [NotTiny "U"]
            else None
        | CThree =>
            if pat_eqb (s_pat r) PNull
            then if String.eqb t "std::strong_ordering" then Some [] else None
            else if String.eqb t ("std::compare_three_way_result_t<" ++ s_value l ++ "," ++ s_value r ++ ">")
                 then Some [] else None
        end
    | _ => None
    end.

  (** The #if conditions (optional.h:88-97). *)
  Definition compiled (m : mode) (g : string) : option bool :=
    if String.eqb g "defined TINY_OPTIONAL_ENABLE_THREEWAY_COMPARISON" then Some (m_three m)
    else if String.eqb g "defined TINY_OPTIONAL_GCC_WORKAROUND_CWG2445" then Some (m_three m && m_gcc m)
    else if String.eqb g "!defined(TINY_OPTIONAL_ENABLE_THREEWAY_COMPARISON) || defined(TINY_OPTIONAL_GCC_WORKAROUND_CWG2445)"
    then Some (negb (m_three m) || m_three m && m_gcc m)
    else None.

  Fixpoint distinct (l : list string) : bool :=
    match l with [] => true | x :: l' => negb (existsb (String.eqb x) l') && distinct l' end.
  (** Every template parameter is deduced from exactly one place in the function parameters:
      the function accepts all pairs of types of the two patterns. *)
  Definition general (h : head) (l r : side) : bool :=
    let used := (s_names l ++ s_names r)%list in
    distinct used && Nat.eqb (length used) (length (h_params h)) &&
    forallb (fun p => match p with
                      | (x, pack, None, _) => negb pack && existsb (String.eqb x) used
                      | _ => false
                      end) (h_params h).

  (** A comparison operator (optional.h:2398-2766): the function, its constraints. *)
  Record comparison := Comparison { k_fn : fn; k_constraints : list constraint }.
  Definition comparison_of (h : head) : option comparison :=
    let f := h_fun h in
    match operator_of (f_name f), f_params f, h_enable h with
    | Some o, [p; q], [] =>
        match side_of (p_type p), side_of (p_type q) with
        | Some l, Some r =>
            match result o l r (f_ret f),
                  every (constraint_of l r) (flat_map conjuncts (h_requires h) ++ concepts h l r) with
            | Some cs, Some ds =>
                if general h l r && negb (p_pack p || p_pack q) && String.eqb (f_class f) ""
                then Some (Comparison
                             (MkFn true o (s_pat l) (s_pat r) (on h l) (on h r)
                                   match h_requires h with [] => false | _ => true end) (cs ++ ds))
                else None
            | _, _ => None
            end
        | _, _ => None
        end
    | _, _, _ => None
    end.

  Definition comparison_heads : list head :=
    filter (fun h => String.eqb (f_class (h_fun h)) "" &&
                     match operator_of (f_name (h_fun h)) with Some _ => true | None => false end) heads.
  (** The operators that are compiled in a mode. *)
  Definition included (m : mode) (h : head) : option bool :=
    option_map (forallb (fun b => b)) (every (compiled m) (h_guard h)).
  Fixpoint text_comparisons_of (m : mode) (l : list head) : option (list comparison) :=
    match l with
    | [] => Some []
    | h :: l' =>
        match included m h, comparison_of h, text_comparisons_of m l' with
        | Some b, Some c, Some r => Some (if b then c :: r else r)
        | _, _, _ => None
        end
    end.
  Definition text_comparisons (m : mode) : option (list comparison) := text_comparisons_of m comparison_heads.

  (** ** They are those of the model *)

  Definition not_tiny (c : constraint) : bool := match c with NotTiny _ => true | ThreeWay => false end.
  Definition is_three_way (c : constraint) : bool := match c with ThreeWay => true | _ => false end.
  Definition covers (l l' : list fn) : bool := forallb (fun f => existsb (fn_eqb f) l') l.
  Fixpoint once (l : list fn) : bool :=
    match l with [] => true | f :: l' => negb (existsb (fn_eqb f) l') && once l' end.
  Definition agrees_on (d : list fn) (t : option (list comparison)) : bool :=
    match t with
    | None => false
    | Some l =>
        let fs := map k_fn l in
        covers fs d && covers (filter f_tiny d) fs && once fs && forallb f_tiny fs &&
        forallb (fun c => let f := k_fn c in
                          Bool.eqb (existsb not_tiny (k_constraints c))
                                   (pat_eqb (f_l f) PAny || pat_eqb (f_r f) PAny) &&
                          Bool.eqb (existsb is_three_way (k_constraints c))
                                   (cop_eqb (f_op f) CThree && negb (pat_eqb (f_r f) PNull)) &&
                          Bool.eqb (existsb is_three_way (k_constraints c)) (f_req f || f_tcl f || f_tcr f)) l
    end.
  Lemma agrees_all : forallb (fun m => agrees_on (decls m) (text_comparisons m)) modes = true.
  Proof. vm_compute. reflexivity. Qed.

  (** The operators in a program: those of the header as its text declares them, and those of
      <optional>. *)
  Definition std_decls (m : mode) : list fn := flat_map (std_rel m) relops ++ std_three m.
  Definition declares (m : mode) (f : fn) (cs : list constraint) : Prop :=
    (exists l, text_comparisons m = Some l /\ In (Comparison f cs) l) \/ (In f (std_decls m) /\ cs = []).
  (** A candidate for [L o R], of which every constraint is satisfied; [sat]: are the values
      three way comparable (for <optional>: everything that it requires)? *)
  Definition text_viable (m : mode) (sat : fn -> bool) (o : cop) (L R : kind) (x : cand) : Prop :=
    let f := c_fn x in
    (if c_rw x then m_rewrite m = true /\ (if c_rev x then reverses_to m o f else rewrites_to o f) = true
     else c_rev x = false /\ f_op f = o) /\
    rank L (c_l x) <> None /\ rank R (c_r x) <> None /\
    exists cs, declares m f cs /\
      (forall u, In (NotTiny u) cs -> (c_l x = PAny -> k_tiny L = false) /\ (c_r x = PAny -> k_tiny R = false)) /\
      (In ThreeWay cs \/ f_tiny f = false /\ unconditional f = false -> sat f = true).

  Lemma existsb_fn f l : existsb (fn_eqb f) l = true <-> In f l.
  Proof.
    rewrite existsb_exists. split; [intros (g & H & E); apply fn_eqb_eq in E; subst; exact H|].
    intros H. exists f. split; [exact H|]. apply fn_eqb_eq. reflexivity.
  Qed.
  Lemma agrees_on_spec d t :
    agrees_on d t = true ->
    exists l, t = Some l /\ NoDup (map k_fn l) /\
      (forall f, In f (map k_fn l) <-> In f d /\ f_tiny f = true) /\
      forall c, In c l ->
        let f := k_fn c in
        ((exists u, In (NotTiny u) (k_constraints c)) <-> f_l f = PAny \/ f_r f = PAny) /\
        (In ThreeWay (k_constraints c) <-> f_op f = CThree /\ f_r f <> PNull) /\
        (In ThreeWay (k_constraints c) <-> f_req f || f_tcl f || f_tcr f = true).
  Proof.
    intros H. unfold agrees_on in H. destruct t as [l|]; [|discriminate]. exists l.
    split; [reflexivity|].
    apply andb_true_iff in H as (H & H5). apply andb_true_iff in H as (H & H4).
    apply andb_true_iff in H as (H & H3). apply andb_true_iff in H as (H1 & H2).
    split; [|split].
    - revert H3. generalize (map k_fn l). induction l0 as [|f l0 IH]; cbn; [constructor|].
      intros H3. apply andb_true_iff in H3 as (H3 & H3'). constructor; [|apply IH, H3'].
      intros I. apply existsb_fn in I. rewrite I in H3. discriminate.
    - intros f. unfold covers in *. rewrite forallb_forall in H1, H2, H4. split.
      + intros I. split; [apply existsb_fn, H1, I|apply H4, I].
      + intros (I & T). apply existsb_fn, H2, filter_In. auto.
    - intros c I f. rewrite forallb_forall in H5. specialize (H5 c I). cbn zeta in H5. fold f in H5.
      apply andb_true_iff in H5 as (H5 & H7). apply andb_true_iff in H5 as (H5 & H6).
      apply eqb_prop in H5. apply eqb_prop in H6. apply eqb_prop in H7.
      assert (N : (exists u, In (NotTiny u) (k_constraints c)) <-> existsb not_tiny (k_constraints c) = true).
      { rewrite existsb_exists. split; [intros (u & J); exists (NotTiny u); auto|].
        intros ([u|] & J & Q); [eauto|discriminate]. }
      assert (T : In ThreeWay (k_constraints c) <-> existsb is_three_way (k_constraints c) = true).
      { rewrite existsb_exists. split; [intros J; exists ThreeWay; auto|].
        intros ([u|] & J & Q); [discriminate|exact J]. }
      rewrite N, T, H5, <- H7, H6. clear.
      rewrite orb_true_iff, !pat_eqb_eq, andb_true_iff, cop_eqb_eq, negb_true_iff.
      split; [tauto|]. split; [|tauto].
      split; intros (A & B); split; auto.
      + intros Q. apply pat_eqb_eq in Q. congruence.
      + destruct (pat_eqb (f_r f) PNull) eqn:Q; [|reflexivity]. apply pat_eqb_eq in Q. contradiction.
  Qed.
  Lemma text_comparisons_spec m :
    exists l, text_comparisons m = Some l /\ NoDup (map k_fn l) /\
      (forall f, In f (map k_fn l) <-> In f (decls m) /\ f_tiny f = true) /\
      forall c, In c l ->
        let f := k_fn c in
        ((exists u, In (NotTiny u) (k_constraints c)) <-> f_l f = PAny \/ f_r f = PAny) /\
        (In ThreeWay (k_constraints c) <-> f_op f = CThree /\ f_r f <> PNull) /\
        (In ThreeWay (k_constraints c) <-> f_req f || f_tcl f || f_tcr f = true).
  Proof. apply agrees_on_spec. exact (proj1 (forallb_forall _ _) agrees_all m (in_modes m)). Qed.

  Lemma std_not_tiny m f : In f (std_decls m) -> f_tiny f = false.
  Proof.
    assert (H : forallb (fun m => forallb (fun f => negb (f_tiny f)) (std_decls m)) modes = true)
      by (vm_compute; reflexivity).
    rewrite forallb_forall in H. specialize (H m (in_modes m)). rewrite forallb_forall in H.
    intros I. specialize (H f I). destruct (f_tiny f); [discriminate|reflexivity].
  Qed.
  Lemma tiny_or_std m f : In f (decls m) <-> (In f (decls m) /\ f_tiny f = true) \/ In f (std_decls m).
  Proof.
    assert (H : forallb (fun m => forallb (fun f => f_tiny f || existsb (fn_eqb f) (std_decls m)) (decls m)) modes = true)
      by (vm_compute; reflexivity).
    rewrite forallb_forall in H. specialize (H m (in_modes m)). rewrite forallb_forall in H.
    split.
    - intros I. specialize (H f I). apply orb_true_iff in H as [H|H]; [auto|right; apply existsb_fn, H].
    - intros [(I & _)|I]; [exact I|]. unfold decls. rewrite !in_app_iff.
      unfold std_decls in I. rewrite in_app_iff in I. tauto.
  Qed.

  (** The candidates that the text gives are those of [CmpOverload], of which C53 says which
      one is called and what it does. *)
  Theorem C77_comparison_candidates :
    forall m sat o L R x, text_viable m sat o L R x <-> In x (viable m sat o L R).
  Proof.
    intros m sat o L R x. unfold viable. rewrite !filter_In.
    assert (A : In x (candidates m o) <->
                In (c_fn x) (decls m) /\
                (if c_rw x then m_rewrite m = true /\
                                (if c_rev x then reverses_to m o (c_fn x) else rewrites_to o (c_fn x)) = true
                 else c_rev x = false /\ f_op (c_fn x) = o)).
    { unfold candidates. rewrite in_app_iff, in_map_iff. destruct x as [f rw rev]. cbn [c_fn c_rw c_rev].
      split.
      - intros [(g & [= -> <- <-] & I)|I].
        + apply filter_In in I as (I & Q). apply cop_eqb_eq in Q. auto.
        + destruct (m_rewrite m); [|destruct I].
          apply in_app_iff in I as [I|I]; apply in_map_iff in I as (g & [= -> <- <-] & I);
            apply filter_In in I as (I & Q); auto.
      - intros (I & Q). destruct rw.
        + destruct Q as (-> & Q). right. apply in_app_iff. destruct rev; [right|left]; apply in_map_iff;
            exists f; (split; [reflexivity|]); apply filter_In; auto.
        + destruct Q as (-> & Q). left. exists f. split; [reflexivity|]. apply filter_In.
          split; [exact I|]. apply cop_eqb_eq, Q. }
    rewrite A. clear A. destruct (text_comparisons_spec m) as (l & Hl & _ & Hf & Hc).
    assert (B : deducible L R x = true <->
                rank L (c_l x) <> None /\ rank R (c_r x) <> None /\
                guard (c_fn x) (c_l x) L = true /\ guard (c_fn x) (c_r x) R = true).
    { unfold deducible. destruct (rank L (c_l x)), (rank R (c_r x)); rewrite ?andb_true_iff;
        intuition (congruence || discriminate). }
    rewrite B. clear B. unfold text_viable. cbv zeta.
    assert (U : unconditional (c_fn x) || sat (c_fn x) = true <->
                (unconditional (c_fn x) = false -> sat (c_fn x) = true))
      by (destruct (unconditional (c_fn x)), (sat (c_fn x)); cbn; intuition discriminate).
    rewrite U. clear U.
    assert (PA : c_l x = PAny \/ c_r x = PAny <-> f_l (c_fn x) = PAny \/ f_r (c_fn x) = PAny)
      by (unfold c_l, c_r; destruct (c_rev x); tauto).
    assert (GA : forall p k, guard (c_fn x) p k = true <-> (f_tiny (c_fn x) = true -> p = PAny -> k_tiny k = false)).
    { clear. intros p k. unfold guard.
      destruct p; try (split; [intros _ _ Q; discriminate|reflexivity]).
      destruct (f_tiny (c_fn x)), (k_tiny k); cbn; intuition discriminate. }
    rewrite !GA. clear GA. split.
    - intros (Hw & R1 & R2 & cs & [(l' & Hl' & I)|(I & ->)] & G & S).
      + rewrite Hl in Hl'. injection Hl' as <-.
        assert (Hk : In (c_fn x) (map k_fn l)) by (apply in_map_iff; exists (Comparison (c_fn x) cs); auto).
        apply Hf in Hk as (D & T). destruct (Hc _ I) as (C1 & C2 & C3). cbn in C1, C2, C3.
        assert (G' : (c_l x = PAny -> k_tiny L = false) /\ (c_r x = PAny -> k_tiny R = false)).
        { split; intros Q; [assert (Z : exists u, In (NotTiny u) cs) by (apply C1, PA; auto)
                           |assert (Z : exists u, In (NotTiny u) cs) by (apply C1, PA; auto)];
          destruct Z as (u & Z); apply (G u Z); exact Q. }
        repeat split; auto; try (intros; apply G'; assumption).
        intros Q. apply S. left. apply C3. unfold unconditional in Q. rewrite T in Q.
        destruct (f_req (c_fn x) || f_tcl (c_fn x) || f_tcr (c_fn x)); [reflexivity|discriminate].
      + pose proof (std_not_tiny _ _ I) as T. repeat split; auto; try congruence.
        apply tiny_or_std. auto.
    - intros (((D & Hw) & R1 & R2 & G1 & G2) & S). split; [exact Hw|]. split; [exact R1|]. split; [exact R2|].
      apply tiny_or_std in D as [(D & T)|D].
      + assert (I : In (c_fn x) (map k_fn l)) by (apply Hf; auto).
        apply in_map_iff in I as ([f cs] & Q & I). cbn in Q. subst f. exists cs.
        split; [left; eauto|]. split; [intros; split; auto|].
        destruct (Hc _ I) as (_ & _ & C3). cbn in C3. intros [Q|(Q & _)]; [|congruence].
        apply S. apply C3 in Q. unfold unconditional. rewrite Q. reflexivity.
      + exists []. split; [right; auto|]. split; [intros u []|]. intros [[]|(_ & Q)]. auto.
  Qed.

  (** For every compilation and every pair of operands: exactly one of these candidates is
      best, and it is one of the header's for these kinds of operands. *)
  Theorem C77_comparison_called :
    forall m sat r L R, possible m = true -> supported L R = true ->
      exists x, text_viable m sat (CRel r) L R x /\
        (forall y, text_viable m sat (CRel r) L R y -> y <> x -> better m L R x y = true) /\
        (forall z, text_viable m sat (CRel r) L R z ->
                   (forall y, text_viable m sat (CRel r) L R y -> y <> z -> better m L R z y = true) -> z = x) /\
        fits L R x = true.
  Proof.
    intros m sat r L R Hm Hs. destruct (resolve_rel m sat r L R Hm Hs) as (x & F1 & _ & F3 & _).
    destruct (resolve_chosen _ _ _ _ _ _ F1) as (V & B).
    exists x. split; [apply C77_comparison_candidates, V|]. split; [|split; [|exact F3]].
    - intros y Hy. apply B, C77_comparison_candidates, Hy.
    - intros z Hz Bz. eapply chosen_unique; [exact F1|]. split; [apply C77_comparison_candidates, Hz|].
      intros y Hy. apply Bz, C77_comparison_candidates, Hy.
  Qed.
End Comparisons.

(** * The other functions *)

(** What the conditions are about: can the payload type be constructed from the list and the
    arguments, is it copy and move constructible, swappable; can the argument of or_else be
    called; does the compiler have concepts (TINY_OPTIONAL_ENABLE_ORELSE, optional.h:100-103)? *)
Record facts := Facts {
  q_from_list : bool; q_copy : bool; q_move : bool; q_swappable : bool; q_invocable : bool; q_concepts : bool
}.
Definition atom (q : facts) (c : string) : option bool :=
  let payload := "typename StoredTypeDecomposition::PayloadType" in
  Exec.assoc c
    [("std::is_constructible_v<PayloadType,std::initializer_list<U>&,ArgsT...>", q_from_list q);
     ("std::is_move_constructible_v<" ++ payload ++ ">", q_move q);
     ("std::is_swappable_v<" ++ payload ++ ">", q_swappable q);
     ("std::invocable<F>", q_invocable q);
     ("std::copy_constructible<value_type>", q_copy q);
     ("std::move_constructible<value_type>", q_move q)].
Definition all_of (l : list (option bool)) : option bool :=
  option_map (forallb (fun b => b)) (every (fun b => b) l).
(** Is the function considered (optional.h:1463-1549, 1817-1849, 2250-2268)?  ([None]: a condition that is not understood.) *)
Definition considered (q : facts) (h : head) : option bool :=
  all_of (map (fun g => if String.eqb g "defined TINY_OPTIONAL_ENABLE_ORELSE" then Some (q_concepts q) else None)
              (h_guard h) ++
          map (fun e => match e with EName c => atom q c | _ => None end)
              (flat_map conjuncts (h_enable h ++ h_requires h)) ++
          map (fun p => match p with (_, _, _, None) => Some true | _ => None end) (h_params h)).

(** The functions that users call, except for the constructors, assignments and comparisons
    above. *)
Definition other (h : head) : bool :=
  let f := h_fun h in
  existsb (String.eqb (f_class f)) [""; "TinyOptionalImpl"; "optional"] &&
  negb (String.eqb (f_name f) "operator=") &&
  negb (String.eqb (f_class f) "" && match operator_of (f_name f) with Some _ => true | None => false end) &&
  negb (String.eqb (f_name f) (f_class f) && negb (Nat.eqb (length (f_params f)) 3)).
(** The condition in the standard ([optional.optional], C++23) of the functions of
    std::optional with these names and parameters. *)
Definition std_considered (q : facts) (f : fundef) : bool :=
  if String.eqb (f_name f) "or_else"
  then q_concepts q && q_invocable q && (if f_const f then q_copy q else q_move q)
  else if String.eqb (f_name f) "swap" && String.eqb (f_class f) "" then q_move q && q_swappable q
  else if existsb (fun p => String.eqb (p_type p) "std::initializer_list<U>") (f_params f)
          && negb (String.eqb (f_name f) "make_optional")
  then q_from_list q
  else true.

(** Every other function of the header is considered exactly when the standard's is. *)
Theorem C77_other_functions :
  forall q h, In h heads -> other h = true -> considered q h = Some (std_considered q (h_fun h)).
Proof.
  assert (H : forallb (fun h => negb (other h) || forallb (fun q =>
                match considered q h with Some b => Bool.eqb b (std_considered q (h_fun h)) | None => false end)
                (flat_map (fun a => flat_map (fun b => flat_map (fun c => flat_map (fun d => flat_map (fun e =>
                   map (Facts a b c d e) [true; false]) [true; false]) [true; false]) [true; false])
                   [true; false]) [true; false])) heads = true) by (vm_compute; reflexivity).
  intros q h I O. rewrite forallb_forall in H. specialize (H h I). rewrite O in H. cbn [negb orb] in H.
  rewrite forallb_forall in H. specialize (H q).
  assert (Q : match considered q h with Some b => Bool.eqb b (std_considered q (h_fun h)) | None => false end = true).
  { apply H. destruct q as [[] [] [] [] [] []]; cbn; tauto. }
  destruct (considered q h) as [b|]; [|discriminate]. apply eqb_prop in Q. congruence.
Qed.
(** swap: the condition and the parameters are those of [SwapCall.v]: both arguments are
    optionals with the same template arguments. *)
Theorem C77_swap :
  forall l (t : SwapCall.swap_traits) a b,
    exists h D F, functions "" "swap" = [h] /\
      h_params h = [(D, false, None, None); (F, false, None, None)] /\ D <> F /\
      map p_type (f_params (h_fun h))
        = ["TinyOptionalImpl<" ++ D ++ "," ++ F ++ ">&"; "TinyOptionalImpl<" ++ D ++ "," ++ F ++ ">&"] /\
      forall q, q_move q = Smf.t_mc (SwapCall.t_smf t) -> q_swappable q = SwapCall.t_sw t ->
        SwapCall.viable l t a b SwapCall.FTiny =
        SwapCall.l_adl l && Nat.eqb (SwapCall.y_impl a) (SwapCall.y_impl b) &&
        match considered q h with Some c => c | None => false end.
Proof.
  intros l t a b. exists h1849_swap, "StoredTypeDecomposition", "FlagManipulator".
  split; [vm_compute; reflexivity|]. split; [reflexivity|]. split; [discriminate|]. split; [reflexivity|].
  intros q Qm Qs. unfold SwapCall.viable. rewrite <- Qm, <- Qs.
  replace (considered q h1849_swap) with (Some (q_move q && q_swappable q))
    by (destruct q as [a0 b0 [] [] e0 f0]; vm_compute; reflexivity).
  rewrite <- !andb_assoc. reflexivity.
Qed.

(** * Constructors and assignments: what the text declares does *)

Section Effects.
  Import Select Smf Overload.

  Lemma text_assign_to_model L o a : text_assign_to L o a = Some (assign_to L o a).
  Proof. unfold text_assign_to. rewrite text_assignments_model. reflexivity. Qed.
  Lemma text_assign_model L o a : text_assign L o a = Some (assign_effect L o a).
  Proof.
    unfold text_assign, assign_effect. destruct o as [n|k]; rewrite text_assign_to_model; [|reflexivity].
    destruct (assign_to L (OOpt n) a) as [[]|]; rewrite ?text_assign_to_model; reflexivity.
  Qed.

  (** The converting constructor. *)
  Theorem C77_converting_constructor :
    forall L direct o x, fst x <> TNullopt ->
      (text_construct L direct o x = Some (Some CValue) <->
       l_constructible L (payload L o) x = true /\ fst x <> TInPlace /\ ~ related L o x /\
       (direct = true \/ l_convertible L (payload L o) x = true)).
  Proof.
    intros L direct o x H. rewrite text_construct_model, <- (C44_converting_constructor L direct o x H).
    split; congruence.
  Qed.
  (** The converting assignment. *)
  Theorem C77_converting_assignment :
    forall L o x, fst x <> TNullopt ->
      (text_assign_to L o (Arg x) = Some (Some AValue) <->
       fst x <> TOpt o /\ l_constructible L (payload L o) x = true /\
       l_assignable L (payload L o) x = true /\
       ~ (is_scalar (base (payload L o)) = true /\ exists t, fst x = TVal t /\ plain t = payload L o)).
  Proof.
    intros L o x H. rewrite text_assign_to_model, <- (C44_converting_assignment L o x H). split; congruence.
  Qed.
  (** [o = {}] empties the optional, unless the payload type is a volatile scalar. *)
  Theorem C77_braces :
    forall L o, lang_ok L ->
      (is_scalar (base (payload L o)) = true -> cv_volatile (payload L o) = false) ->
      (exists h, text_assign L o Braces = Some (Some (ATemp CEmpty h))) \/ text_assign L o Braces = Some None.
  Proof.
    intros L o HL Hv. rewrite text_assign_model. destruct (assign_effect L o Braces) as [e|] eqn:E; [left|auto].
    destruct (C44_braces_empty L o e HL Hv E) as (h & ->). eauto.
  Qed.
  (** An optional of another type is not accepted where the payload type is a scalar other
      than bool. *)
  Theorem C77_other_optional :
    forall L direct o o' c, lang_ok L ->
      is_scalar (base (payload L o)) = true -> base (payload L o) <> UBool ->
      impl_of L o' <> impl_of L o ->
      text_construct L direct o (TOpt o', c) = Some None /\ text_assign L o (Arg (TOpt o', c)) = Some None.
  Proof.
    intros L direct o o' c HL Hs Hb N. rewrite text_construct_model, text_assign_model.
    destruct (C45_scalars L direct o o' c HL Hs Hb N) as (-> & ->). auto.
  Qed.
  (** All constructor calls and assignments, with any argument. *)
  Theorem C77_conversions :
    forall L direct o x a,
      text_construct L direct o x = Some (construct L direct o x) /\
      text_assign L o a = Some (assign_effect L o a).
  Proof. intros. split; [apply text_construct_model|apply text_assign_model]. Qed.

  Example C77_example :
    lang_ok sample_lang /\
    text_assign sample_lang (OOpt 0) Braces = Some (Some (ATemp CEmpty ByMove)) /\
    text_assign sample_lang (OOpt 2) Braces = Some (Some AValue) /\
    text_assign sample_lang (OOpt 0) (Arg (TVal UDouble, Lvalue)) = Some (Some AValue) /\
    text_assign sample_lang (OOpt 4) (Arg (TOpt (OOpt 4), ConstLvalue)) = Some (Some (AFrom ByCopy)) /\
    text_construct sample_lang false (OOpt 4) (TVal UDouble, Rvalue) = Some (Some CValue) /\
    text_construct sample_lang false (OOpt 4) (TOpt (OOpt 3), Lvalue) = Some None /\
    text_construct sample_lang true (OOpt 4) (TOpt (OOpt 3), Lvalue) = Some (Some CValue) /\
    text_construct sample_lang true (OOpt 0) (TOpt (OOpt 3), Lvalue) = Some None.
  Proof. split; [apply sample_lang_ok|]. vm_compute. repeat split. Qed.
End Effects.

(** gcc in C++20, [std::nullopt == o]: of the header's two functions only the one that is
    not rewritten is called. *)
Example C77_comparison_example :
  let m := CmpOverload.gcc20 in
  let direct := CmpOverload.MkCand
    (CmpOverload.plain true (CmpOverload.CRel Optional.REq) CmpOverload.PNull CmpOverload.PImpl) false false in
  let reversed := CmpOverload.MkCand
    (CmpOverload.plain true (CmpOverload.CRel Optional.REq) CmpOverload.PImpl CmpOverload.PNull) true true in
  CmpOverload.possible m = true /\ CmpOverload.supported CmpOverload.KNull CmpOverload.KOpt = true /\
  forall sat,
    text_viable m sat (CmpOverload.CRel Optional.REq) CmpOverload.KNull CmpOverload.KOpt direct /\
    CmpOverload.better m CmpOverload.KNull CmpOverload.KOpt direct reversed = true /\
    option_map (@length comparison) (text_comparisons m) = Some 60.
Proof.
  cbv zeta. split; [reflexivity|]. split; [reflexivity|]. intros sat.
  split; [apply C77_comparison_candidates; vm_compute; tauto|]. split; vm_compute; reflexivity.
Qed.
Lemma functions_heads cls x h : In h (functions cls x) -> In h heads.
Proof. unfold functions. intros H. apply filter_In in H. exact (proj1 H). Qed.
Example C77_other_example :
  let q := Facts true false true true true true in
  In h1820_or_else heads /\ other h1820_or_else = true /\ considered q h1820_or_else = Some false /\
  In h1830_or_else heads /\ other h1830_or_else = true /\ considered q h1830_or_else = Some true /\
  length (filter other heads) = 36.
Proof.
  cbv zeta.
  assert (F : functions "TinyOptionalImpl" "or_else" = [h1820_or_else; h1830_or_else]) by (vm_compute; reflexivity).
  assert (I : forall h, In h [h1820_or_else; h1830_or_else] -> In h heads)
    by (rewrite <- F; apply functions_heads).
  split; [apply I; left; reflexivity|]. split; [vm_compute; reflexivity|]. split; [vm_compute; reflexivity|].
  split; [apply I; right; left; reflexivity|]. split; [vm_compute; reflexivity|].
  split; [vm_compute; reflexivity|]. vm_compute. reflexivity.
Qed.

Print Assumptions C77_conversions.
Print Assumptions C77_comparison_candidates.
