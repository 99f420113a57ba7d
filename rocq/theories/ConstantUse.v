(** * ConstantUse: what the compiler can evaluate, and what it cannot (C83)

    The functions that optional.h calls in constants, static_assert and if constexpr must
    be constexpr, with everything they call; the README (line 155) says that types and
    methods of the library are not.  Both are read from the trees of the header and the list
    of functions that are declared constexpr (Constexpr.v).

    Rules of C++ used: [expr.const]/5.2 (a constant expression calls constexpr functions
    only), [basic.types]/10 (a literal type has a destructor that is trivial, since C++20
    constexpr, and literal bases).  Functions of the standard library and of the user are
    taken as usable in constant expressions.  Overloads are told apart by name only: a name
    that is evaluated stands for all functions with it, a method counts as constant if some
    overload for each name it calls is.  Operators on optionals (such as [**this]) do not
    count as calls. *)

From Coq Require Import String Ascii List Bool.
From Verif Require Import Syntax TemplateSyntax Source Constants DataText Constexpr.
From Verif Require Library.
Import ListNotations.
Local Open Scope string_scope.

(** ** Calls in the text *)

(** The text before the first [<] or [(]. *)
Fixpoint before_angle (s : string) : string :=
  match s with
  | EmptyString => ""
  | String c r => if (Ascii.eqb c "<" || Ascii.eqb c "(")%bool then "" else String c (before_angle r)
  end.
(** The text after the last [:]; [acc]: what was read since the last one. *)
Fixpoint after_colons (s acc : string) : string :=
  match s with
  | EmptyString => acc
  | String c r => if Ascii.eqb c ":" then after_colons r "" else after_colons r (acc ++ String c "")
  end.
(** impl::IsTinyOptionalHelper<U>: IsTinyOptionalHelper.  For std::numeric_limits<T>::max
    this is numeric_limits, a name of the standard library as well. *)
Definition called_name (s : string) : string := after_colons (before_angle s) "".

(** The functions called in an expression, without the operands of noexcept and sizeof,
    which are not evaluated. *)
Fixpoint calls (e : expr) : list string :=
  match e with
  | EThis | EName _ | EBool _ | ENum _ | EStr | ENoexcept _ | ESizeof _ => []
  | EMember a _ | EUn _ a | ECast _ _ a | EThrow a | EPack a | EDtor a _ => calls a
  | ECall f args =>
      (match f with
       | EName x => [called_name x]
       | EMember a x => called_name x :: calls a
       | _ => calls f
       end) ++ flat_map calls args
  | EBrace _ args => flat_map calls args
  | EBin _ a b => (calls a ++ calls b)%list
  | ECond c a b => (calls c ++ calls a ++ calls b)%list
  | ENew a _ args => (calls a ++ flat_map calls args)%list
  end.

Fixpoint calls_s (s : stmt) : list string :=
  match s with
  | SExpr e | SReturn (Some e) | SStaticAssert e => calls e
  | SReturn None | SUsing _ _ => []
  | SIf _ c a b => (calls c ++ flat_map calls_s a ++ flat_map calls_s b)%list
  | SDecl _ _ args => flat_map calls args
  end.

(** The conditions of static_assert and if constexpr. *)
Fixpoint conditions (s : stmt) : list expr :=
  match s with
  | SStaticAssert e => [e]
  | SIf k c a b => ((if k then [c] else []) ++ flat_map conditions a ++ flat_map conditions b)%list
  | _ => []
  end.

Definition statements (f : fundef) : list stmt :=
  match f_body f with Body l => l | _ => [] end.

(** All functions with a body in the header (optional.h:231-2804). *)
Definition everything : list fundef :=
  f355_IsIntegralInRange :: f775_ConvertSentinelToFlagType :: source.

(** ** What is evaluated by the compiler *)

(** Functions, by name, that the compiler evaluates: those called in the constants of the
    classes, in static_assert and if constexpr of any function, in the variable templates
    (is_tiny_optional_v, optional.h:269), and in the functions that are evaluated. *)
Inductive evaluated : string -> Prop :=
| ev_constant k g x e n :
    In k classes_data -> In (g, DStatic x e) (d_items k) -> In n (calls e) -> evaluated n
| ev_condition f e n :
    In f everything -> In e (flat_map conditions (statements f)) -> In n (calls e) -> evaluated n
| ev_variable t g s :
    In t Library.library -> In (g, TxText s) (td_body t) -> evaluated (called_name s)
| ev_inside n f m :
    evaluated n -> In f everything -> f_name f = n -> In m (flat_map calls_s (statements f)) ->
    evaluated m
| ev_inside_library n d m :
    evaluated n -> In d Library.declared -> Library.fd_name d = n ->
    In m (match Library.fd_body d with Some l => flat_map calls_s l | None => [] end) ->
    evaluated m.

(** A set of names that contains what constants and conditions call and is closed under
    calls; found by computation, [closed] checks it. *)
Definition names : list string :=
  ["ConvertSentinelToFlagType"; "IsIntegralInRange"; "IsTinyOptionalHelper"; "numeric_limits"].
Definition known (n : string) : bool := existsb (String.eqb n) names.

Definition closed : bool :=
  forallb (fun k => forallb (fun i => match i with
                                      | (_, DStatic _ e) => forallb known (calls e)
                                      | _ => true
                                      end) (d_items k)) classes_data &&
  forallb (fun f => forallb (fun e => forallb known (calls e)) (flat_map conditions (statements f)))
          everything &&
  forallb (fun t => forallb (fun i => match i with
                                      | (_, TxText s) => known (called_name s)
                                      | _ => true
                                      end) (td_body t)) Library.library &&
  forallb (fun f => negb (known (f_name f)) || forallb known (flat_map calls_s (statements f)))
          everything &&
  forallb (fun d => negb (known (Library.fd_name d)) ||
                    forallb known (match Library.fd_body d with
                                   | Some l => flat_map calls_s l
                                   | None => []
                                   end)) Library.declared.

Lemma closed_true : closed = true.
Proof. vm_compute. reflexivity. Qed.

Lemma evaluated_known : forall n, evaluated n -> known n = true.
Proof.
  pose proof closed_true as C. unfold closed in C.
  apply andb_true_iff in C; destruct C as [C C5].
  apply andb_true_iff in C; destruct C as [C C4].
  apply andb_true_iff in C; destruct C as [C C3].
  apply andb_true_iff in C; destruct C as [C C2].
  repeat match goal with Q : forallb _ _ = true |- _ => rewrite forallb_forall in Q end.
  intros n H. induction H as [k g x e n K I N | f e n F I N | t g s T I | n f m _ IH F E I | n d m _ IH D E I].
  - specialize (C _ K). rewrite forallb_forall in C. specialize (C _ I). simpl in C.
    rewrite forallb_forall in C. exact (C _ N).
  - specialize (C2 _ F). rewrite forallb_forall in C2. specialize (C2 _ I).
    rewrite forallb_forall in C2. exact (C2 _ N).
  - specialize (C3 _ T). rewrite forallb_forall in C3. exact (C3 _ I).
  - specialize (C4 _ F). rewrite E, IH in C4. simpl in C4. rewrite forallb_forall in C4. exact (C4 _ I).
  - specialize (C5 _ D). rewrite E, IH in C5. simpl in C5. rewrite forallb_forall in C5. exact (C5 _ I).
Qed.

Lemma all_constexpr :
  Forall (fun f => known (f_name f) = true -> In f constexpr_functions) everything.
Proof.
  unfold everything, source.
  repeat (apply Forall_cons;
    [ intro H; first [ vm_compute in H; discriminate H
                     | unfold constexpr_functions; repeat first [ left; reflexivity | right ] ] | ]).
  apply Forall_nil.
Qed.

Lemma all_constexpr_library :
  Forall (fun d => known (Library.fd_name d) = true -> In d constexpr_declared) Library.declared.
Proof.
  unfold Library.declared.
  repeat (apply Forall_cons;
    [ intro H; first [ vm_compute in H; discriminate H
                     | unfold constexpr_declared; repeat first [ left; reflexivity | right ] ] | ]).
  apply Forall_nil.
Qed.

(** Every function of the header that the compiler has to evaluate is declared constexpr,
    whichever constant, assertion or condition it is needed for. *)
Theorem C83_compile_time :
  forall n, evaluated n ->
    (forall f, In f everything -> f_name f = n -> In f constexpr_functions) /\
    (forall d, In d Library.declared -> Library.fd_name d = n -> In d constexpr_declared).
Proof.
  intros n H. apply evaluated_known in H. split.
  - intros f F <-. exact (proj1 (Forall_forall _ _) all_constexpr f F H).
  - intros d D <-. exact (proj1 (Forall_forall _ _) all_constexpr_library d D H).
Qed.
Print Assumptions C83_compile_time.

(** The sentinel of AssignmentFlagManipulator is a constant (optional.h:814): the compiler
    converts it and checks its range (791-794); is_tiny_optional_v is one (269). *)
Example C83_compile_time_example :
  evaluated "ConvertSentinelToFlagType" /\ evaluated "IsIntegralInRange" /\
  evaluated "IsTinyOptionalHelper" /\
  In f355_IsIntegralInRange everything /\ In Library.l259_IsTinyOptionalHelper Library.declared.
Proof.
  split; [ | split; [ | split; [ | split ] ] ].
  - apply ev_constant with (k := d766_AssignmentFlagManipulator) (g := [])
      (x := "valueToIndicateEmpty") (e := ECall (EName "ConvertSentinelToFlagType") []).
    + unfold classes_data. repeat first [ left; reflexivity | right ].
    + vm_compute. tauto.
    + vm_compute. tauto.
  - eapply ev_condition with (f := f775_ConvertSentinelToFlagType)
      (e := ECall (EName "IsIntegralInRange<FlagTypeNoCV>") [EName "SentinelValue::value"]).
    + right. left. reflexivity.
    + vm_compute. tauto.
    + vm_compute. tauto.
  - apply (ev_variable Library.t269_is_tiny_optional_v [] "impl::IsTinyOptionalHelper<U>(nullptr)").
    + left. reflexivity.
    + left. reflexivity.
  - left. reflexivity.
  - right. left. reflexivity.
Qed.

(** ** Types *)

(** A name of a base class, through the aliases of the header (optional.h:2146-2172). *)
Inductive resolves : string -> string -> Prop :=
| res_same x : resolves x x
| res_alias x y z : In (x, y) aliases -> resolves y z -> resolves x z.

Definition base_of (c b : string) : Prop :=
  exists k x, In k classes /\ c_name k = c /\ c_base k = Some x /\ resolves x b.

(** The classes of optionals: StorageBase (optional.h:916-1148), which has the memory, and
    what derives from it. *)
Inductive optional_class : string -> Prop :=
| oc_storage : optional_class "StorageBase"
| oc_derived c b : base_of c b -> optional_class b -> optional_class c.

(** What a literal type needs: the destructor is not user-provided (trivial, if those of
    members and bases are) or, from C++20 on, constexpr; the base classes are literal.  That
    is necessary, not sufficient (constructors and members count, too). *)
Inductive literal (cpp20 : bool) : string -> Prop :=
| lit c :
    (forall f, In f source -> f_class f = c -> f_name f = "~" ++ c ->
       f_body f = Defaulted \/ (cpp20 = true /\ In f constexpr_functions)) ->
    (forall b, base_of c b -> literal cpp20 b) ->
    literal cpp20 c.

Lemma not_constexpr f :
  existsb (String.eqb (f_name f)) (map f_name constexpr_functions) = false ->
  ~ In f constexpr_functions.
Proof.
  intros H I. assert (T : existsb (String.eqb (f_name f)) (map f_name constexpr_functions) = true).
  { apply existsb_exists. exists (f_name f). split; [ apply in_map, I | apply String.eqb_refl ]. }
  congruence.
Qed.

Lemma not_in_source f :
  existsb (String.eqb (f_name f)) (map f_name source) = false -> ~ In f source.
Proof.
  intros H I. assert (T : existsb (String.eqb (f_name f)) (map f_name source) = true).
  { apply existsb_exists. exists (f_name f). split; [ apply in_map, I | apply String.eqb_refl ]. }
  congruence.
Qed.

(** No optional is of a literal type, in any version of C++ and for any payload: there are
    no constexpr variables of these types. *)
Theorem C83_not_literal :
  forall cpp20 c, optional_class c -> ~ literal cpp20 c.
Proof.
  intros cpp20 c H. induction H as [ | c b B _ IH ]; intro L; inversion L as [c' D Bs]; subst.
  - destruct (D f978_dtor_StorageBase) as [E | [_ E]].
    + unfold source. repeat first [ left; reflexivity | right ].
    + reflexivity.
    + reflexivity.
    + discriminate E.
    + revert E. apply not_constexpr. vm_compute. reflexivity.
  - exact (IH (Bs b B)).
Qed.
Print Assumptions C83_not_literal.

(** The classes of the API are such classes. *)
Lemma derives c x b :
  existsb (fun k => String.eqb (c_name k) c &&
                    match c_base k with Some y => String.eqb y x | None => false end) classes = true ->
  resolves x b -> optional_class b -> optional_class c.
Proof.
  intros H R B. apply existsb_exists in H. destruct H as [k [K E]].
  apply andb_true_iff in E. destruct E as [E1 E2].
  destruct (c_base k) as [y | ] eqn:Y; [ | discriminate E2 ].
  apply String.eqb_eq in E1, E2. subst.
  apply oc_derived with (b := b); [ | exact B ].
  exists k, x. auto.
Qed.

Lemma impl_is_optional : optional_class "TinyOptionalImpl".
Proof.
  apply (derives _ "CopyAssignmentBase" "CopyAssignmentBase"); [ reflexivity | apply res_same | ].
  apply (derives _ "MoveAssignmentBase" "MoveAssignmentBase"); [ reflexivity | apply res_same | ].
  apply (derives _ "CopyConstructionBase" "CopyConstructionBase"); [ reflexivity | apply res_same | ].
  apply (derives _ "MoveConstructionBase" "MoveConstructionBase"); [ reflexivity | apply res_same | ].
  apply (derives _ "StorageBase" "StorageBase"); [ reflexivity | apply res_same | ].
  apply oc_storage.
Qed.

Example C83_not_literal_example : optional_class "TinyOptionalImpl" /\ optional_class "optional".
Proof.
  split; [ apply impl_is_optional | ].
  apply (derives _ "TinyOptionalFromSelection" "TinyOptionalImpl");
    [ reflexivity | | apply impl_is_optional ].
  apply res_alias with (y := "optional_sentinel_via_type"); [ vm_compute; tauto | ].
  apply res_alias with (y := "TinyOptionalImplCombined"); [ vm_compute; tauto | ].
  apply res_alias with (y := "TinyOptionalImpl"); [ vm_compute; tauto | ].
  apply res_same.
Qed.

(** ** Functions *)

(** The functions that every call evaluates: not in the branches of if and ?:, not to the
    right of && and ||, not in assert, which may be switched off. *)
Fixpoint certain (e : expr) : list string :=
  match e with
  | ECond c _ _ => certain c
  | EBin o a b =>
      if (String.eqb o "&&" || String.eqb o "||")%bool then certain a
      else (certain a ++ certain b)%list
  | EThis | EName _ | EBool _ | ENum _ | EStr | ENoexcept _ | ESizeof _ => []
  | EMember a _ | EUn _ a | ECast _ _ a | EThrow a | EPack a | EDtor a _ => certain a
  | ECall f args =>
      (match f with
       | EName x => [called_name x]
       | EMember a x => called_name x :: certain a
       | _ => certain f
       end) ++ match f with EName "assert" => [] | _ => flat_map certain args end
  | EBrace _ args => flat_map certain args
  | ENew a _ args => (certain a ++ flat_map certain args)%list
  end.

Fixpoint certain_s (l : list stmt) : list string :=
  match l with
  | SExpr e :: r => (certain e ++ certain_s r)%list
  | SDecl _ _ args :: r => (flat_map certain args ++ certain_s r)%list
  | SReturn (Some e) :: _ => certain e
  | SIf _ c _ _ :: _ => certain c
  | (SStaticAssert _ | SUsing _ _) :: r => certain_s r
  | SReturn None :: _ | [] => []
  end.

(** A call of [f] can be part of a constant expression: [f] is constexpr and for every name
    of a function of the header that it certainly calls, some function with this name can. *)
Inductive constant_call : fundef -> Prop :=
| cc f :
    In f constexpr_functions ->
    (forall n, In n (certain_s (statements f)) ->
       (exists h, In h source /\ f_name h = n) ->
       exists g, f_name g = n /\ constant_call g) ->
    constant_call f.

Lemma has_value_not_constant : forall g, f_name g = "has_value" -> ~ constant_call g.
Proof.
  intros g N H. destruct H as [g I _]. revert I. apply not_constexpr. rewrite N. vm_compute. reflexivity.
Qed.

(** No function of the header can be called in a constant expression, with the exception of
    the functions that select flag and payload from the memory of an optional: constructors,
    observers, modifiers, monadic operations, comparisons, swap, make_optional and hash are
    for run time. *)
Theorem C83_methods :
  forall f, In f source -> constant_call f -> f_name f = "GetIsEmptyFlag" \/ f_name f = "GetPayload".
Proof.
  intros f F H. destruct H as [f I C].
  assert (A : Forall (fun f => f_name f = "GetIsEmptyFlag" \/ f_name f = "GetPayload" \/
                               ~ In f source \/ In "has_value" (certain_s (statements f)))
                     constexpr_functions).
  { unfold constexpr_functions.
    repeat (apply Forall_cons;
      [ first [ left; reflexivity
              | right; left; reflexivity
              | right; right; right; vm_compute; tauto
              | right; right; left; apply not_in_source; vm_compute; reflexivity ] | ]).
    apply Forall_nil. }
  rewrite Forall_forall in A. destruct (A f I) as [N | [N | [N | N]]]; auto.
  - destruct (N F).
  - exfalso. destruct (C "has_value" N) as [g [G Q]].
    + exists f993_has_value. split; [ | reflexivity ].
      unfold source. repeat first [ left; reflexivity | right ].
    + exact (has_value_not_constant g G Q).
Qed.
Print Assumptions C83_methods.

(** The exceptions are real: GetPayload of a decomposition (optional.h:583) is constant. *)
Example C83_methods_example : In f583_GetPayload source /\ constant_call f583_GetPayload.
Proof.
  split.
  - unfold source. repeat first [ left; reflexivity | right ].
  - apply cc.
    + unfold constexpr_functions. repeat first [ left; reflexivity | right ].
    + intros n N. vm_compute in N. destruct N.
Qed.

(** The README says that methods are not constexpr.  Yet and_then, transform and or_else
    (optional.h:1682-1836, 2253-2269) are declared so, all of them and no other function of
    the classes of optionals; since no call of them can be constant (C83_methods), the
    specifier has no use, and up to C++20 such a template is ill-formed without a diagnostic
    being required ([dcl.constexpr]/7). *)
Theorem C83_not_declared_constexpr_refuted :
  ~ (forall f, In f source -> optional_class (f_class f) -> ~ In f constexpr_functions).
Proof.
  intro H. apply (H f1682_and_then).
  - unfold source. repeat first [ left; reflexivity | right ].
  - apply impl_is_optional.
  - unfold constexpr_functions. repeat first [ left; reflexivity | right ].
Qed.
Print Assumptions C83_not_declared_constexpr_refuted.

(** Of the functions of the optional classes and outside of classes. *)
Theorem C83_declared_constexpr :
  forall f, In f source ->
    In (f_class f) ["StorageBase"; "MoveConstructionBase"; "CopyConstructionBase"; "MoveAssignmentBase";
                    "CopyAssignmentBase"; "TinyOptionalImpl"; "optional"; ""] ->
    (In f constexpr_functions <->
     f_name f = "and_then" \/ f_name f = "transform" \/ f_name f = "or_else").
Proof.
  intros f F K. split.
  - intro I.
    assert (A : Forall (fun f =>
                 In (f_class f) ["StorageBase"; "MoveConstructionBase"; "CopyConstructionBase";
                                 "MoveAssignmentBase"; "CopyAssignmentBase"; "TinyOptionalImpl";
                                 "optional"; ""] ->
                 In f source ->
                 f_name f = "and_then" \/ f_name f = "transform" \/ f_name f = "or_else")
                 constexpr_functions).
    { unfold constexpr_functions.
      repeat (apply Forall_cons;
        [ first [ intros _ _; vm_compute; tauto
                | solve [ intros Q _; simpl in Q;
                          repeat (destruct Q as [Q | Q]; [ discriminate Q | ]); destruct Q ]
                | intros _ Q; exfalso; revert Q; apply not_in_source; vm_compute; reflexivity ] | ]).
      apply Forall_nil. }
    exact (proj1 (Forall_forall _ _) A f I K F).
  - intro N.
    assert (A : Forall (fun f => f_name f = "and_then" \/ f_name f = "transform" \/ f_name f = "or_else" ->
                 In f constexpr_functions) source).
    { unfold source.
      repeat (apply Forall_cons;
        [ first [ intros [Q | [Q | Q]]; discriminate Q
                | intros _; unfold constexpr_functions; repeat first [ left; reflexivity | right ] ] | ]).
      apply Forall_nil. }
    exact (proj1 (Forall_forall _ _) A f F N).
Qed.
Print Assumptions C83_declared_constexpr.

Example C83_declared_constexpr_example :
  In f1734_transform source /\ f_class f1734_transform = "TinyOptionalImpl" /\
  f_name f1734_transform = "transform".
Proof.
  split; [ | split; reflexivity ]. unfold source. repeat first [ left; reflexivity | right ].
Qed.
