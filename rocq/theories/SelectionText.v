(** * SelectionText: the storage strategy, computed from the text of the header

    The decision trees of the public type names ([Instantiate.v]) run with the facts of a
    program, compared with the model of the selection ([Select.v]) and its documentation
    ([Selection.v]). *)

From Coq Require Import String List NArith ZArith Bool Arith Lia.
From Verif Require Import Cells CellsFacts Machine Laws Bits Manip IntRange Select Selection.
From Verif Require Import Syntax Constants CompileTime TemplateSyntax Templates Instantiate.
Import ListNotations.
Local Open Scope string_scope.

(** ** The facts of a program *)

(** The template arguments that the program writes, by name: types; constants; types that
    are UseDefaultType ([ADefault]) or have a constant [value] (sentinel types); flag
    manipulators. *)
Record arguments : Type := MkArgs {
  ar_types : list (string * cvty);
  ar_consts : list (string * targ);
  ar_sents : list (string * targ);
  ar_manips : list (string * manip)
}.

Section Facts.
  Variable U : universe.
  Variable cf : config.
  (** std::is_move_constructible_v and the like. *)
  Variable traits : string -> cvty -> bool.
  Variable A : arguments.

  Definition macro_value (x : string) : option const :=
    lookup x
      [("USHRT_MAX", VInt KInt (it_max (u_int U KUShort)));   (* integer promotion: int *)
       ("UINT_MAX", VInt KUInt (it_max (u_int U KUInt)));
       ("ULONG_MAX", VInt KULong (it_max (u_int U KULong)));
       ("ULLONG_MAX", VInt KULLong (it_max (u_int U KULLong)));
       ("SHRT_MIN", VInt KInt (it_min (u_int U KShort)));
       ("INT_MIN", VInt KInt (it_min (u_int U KInt)));
       ("LONG_MIN", VInt KLong (it_min (u_int U KLong)));
       ("LLONG_MIN", VInt KLLong (it_min (u_int U KLLong)))].
  Definition type_value (x : string) : option uty :=
    lookup x
      [("bool", UBool); ("long double", ULongDouble); ("std::nullopt_t", UNullopt);
       ("std::in_place_t", UInPlace); ("unsigned short", UInt KUShort);
       ("unsigned int", UInt KUInt); ("unsigned long", UInt KULong);
       ("unsigned long long", UInt KULLong); ("short", UInt KShort); ("int", UInt KInt);
       ("long", UInt KLong); ("long long", UInt KLLong)].
  Definition constant_of (v : tval) : option targ :=
    match v with
    | TConst x => lookup x (ar_consts A)
    | TDefault => Some ADefault
    | TMacro x => match macro_value x with Some v => Some (AVal v) | None => None end
    | _ => None
    end.
  Fixpoint type_of_tval (t : tval) : option cvty :=
    match t with
    | TType x => match type_value x with Some u => Some (plain u) | None => None end
    | TArg x => lookup x (ar_types A)
    | TNoCv t => match type_of_tval t with Some t => Some (plain (base t)) | None => None end
    | TMemberOf v => match constant_of v with
                     | Some a => match mem_class a with Some c => Some (plain c) | None => None end
                     | None => None
                     end
    | TMemberType v => match constant_of v with Some a => mem_var a | None => None end
    | _ => None
    end.

  (** The answers.  [understood]: the question is one that has an answer below. *)
  Definition answer (q : question) : bool :=
    match q with
    | QDefined x =>
        if String.eqb x "TINY_OPTIONAL_USE_SEPARATE_BOOL_INSTEAD_OF_UNUSED_BITS"
        then negb (cf_bit cf) else negb (cf_mem cf)
    | QSame (TArg x) (TType "UseDefaultType") =>
        match lookup x (ar_sents A) with Some s => is_default s | None => false end
    | QSame a b =>
        match type_of_tval a, type_of_tval b with Some a, Some b => cvty_eqb a b | _, _ => false end
    | QEqual v TDefault => match constant_of v with Some a => is_default a | None => false end
    | QEqual v _ =>                                       (* a member pointer and nullptr *)
        match constant_of v with Some (AVal (VMemObj _ _ None)) => true | _ => false end
    | QTrait x (TTypeOf v) =>
        match constant_of v with Some a => is_member_object_pointer a | None => false end
    | QTrait x t =>
        match type_of_tval t with
        | Some t =>
            if String.eqb x "std::is_floating_point_v" then is_floating (base t)
            else if String.eqb x "std::is_pointer_v" then is_pointer (base t)
            else if String.eqb x "std::is_object_v" then true
            else if String.eqb x "std::is_destructible_v" then u_destructible U (base t)
            else if String.eqb x "std::is_array_v"
            then match base t with UArray _ => true | _ => false end
            else traits x t
        | None => false
        end
    | QUser t =>
        match type_of_tval t with
        | Some t => match u_spec U t with Some _ => true | None => false end
        | None => false
        end
    end.
  Definition is_constant (v : tval) : bool :=
    match v with
    | TConst x => match lookup x (ar_consts A) with Some _ => true | None => false end
    | TDefault => true
    | TMacro x => mem_string x macro_names
    | _ => false
    end.
  Fixpoint is_known_type (t : tval) : bool :=
    match t with
    | TType x => match type_value x with Some _ => true | None => false end
    | TArg x => match lookup x (ar_types A) with Some _ => true | None => false end
    | TNoCv t => is_known_type t
    | TMemberOf v | TMemberType v => is_constant v
    | _ => false
    end.
  Definition understood (q : question) : bool :=
    match q with
    | QDefined x => mem_string x ["TINY_OPTIONAL_USE_SEPARATE_BOOL_INSTEAD_OF_UNUSED_BITS";
                                  "TINY_OPTIONAL_USE_SEPARATE_BOOL_INSTEAD_OF_MEMBER"]
    | QSame (TArg x) (TType "UseDefaultType") =>
        match lookup x (ar_sents A) with Some _ => true | None => false end
    | QSame a b => is_known_type a && is_known_type b
    | QEqual v TDefault | QEqual v TNull => is_constant v
    | QEqual _ _ => false
    | QTrait x (TTypeOf v) => String.eqb x "std::is_member_object_pointer_v" && is_constant v
    | QTrait x t => is_known_type t && mem_string x trait_names
    | QUser t => is_known_type t
    end.
End Facts.

Fixpoint run (ans : question -> bool) (t : tree) : res tval :=
  match t with
  | Leaf r => r
  | Ask q a b => if ans q then run ans a else run ans b
  end.
Fixpoint all_questions (p : question -> bool) (t : tree) : bool :=
  match t with
  | Leaf _ => true
  | Ask q a b => p q && all_questions p a && all_questions p b
  end.

(** ** Dropping questions *)

Lemma tval_eqb_eq : forall a b, tval_eqb a b = true -> a = b.
Proof.
  fix IH 1. intros a b. destruct a; destruct b; cbn; try discriminate; intros H;
    try (apply String.eqb_eq in H; congruence);
    try (apply IH in H; congruence); try (apply Bool.eqb_prop in H; congruence); try reflexivity.
  apply andb_prop in H as (Hc & H). apply String.eqb_eq in Hc. subst c0. f_equal.
  revert args0 H. induction args as [|x l IHl]; intros [|y m]; try discriminate; [reflexivity|].
  intros H. apply andb_prop in H as (H1 & H2). apply IH in H1. subst y. f_equal. apply IHl, H2.
Qed.
Lemma question_eqb_eq a b : question_eqb a b = true -> a = b.
Proof.
  destruct a, b; cbn; try discriminate; intros H.
  - apply String.eqb_eq in H. congruence.
  - apply andb_prop in H as (H1 & H2). apply tval_eqb_eq in H1, H2. congruence.
  - apply andb_prop in H as (H1 & H2). apply tval_eqb_eq in H1, H2. congruence.
  - apply andb_prop in H as (H1 & H2). apply String.eqb_eq in H1. apply tval_eqb_eq in H2. congruence.
  - apply tval_eqb_eq in H. congruence.
Qed.
Lemma tree_eqb_eq a : forall b, tree_eqb a b = true -> a = b.
Proof.
  induction a as [r|q y IHy n IHn]; intros [r'|q' y' n']; cbn; intros H.
  - destruct r, r'; try discriminate; try reflexivity.
    + apply tval_eqb_eq in H. congruence.
    + apply String.eqb_eq in H. congruence.
  - destruct r; discriminate.
  - discriminate.
  - apply andb_prop in H as (H & H2). apply andb_prop in H as (H & H1).
    apply question_eqb_eq in H. apply IHy in H1. apply IHn in H2. congruence.
Qed.
Lemma run_prune ans t : run ans (prune t) = run ans t.
Proof.
  induction t as [r|q y IHy n IHn]; [reflexivity|]. cbn.
  destruct (tree_eqb (prune y) (prune n)) eqn:E.
  - apply tree_eqb_eq in E. rewrite <- IHy, <- IHn, <- E. destruct (ans q); reflexivity.
  - cbn. rewrite IHy, IHn. reflexivity.
Qed.

(** ** What the classes mean *)

(** The decision trees of this file, and their pruned forms. *)
Definition depth : nat := 40.
Definition via_type_tree : tree :=
  decision (used true depth (TxApp "optional_sentinel_via_type" [TxName "P"; TxName "S"; TxName "m"])
              [("P", TArg "P"); ("S", TArg "S"); ("m", TConst "m")]).
Definition optional_tree : tree :=
  decision (used true depth (TxApp "optional" [TxName "P"; TxName "a"; TxName "b"])
              [("P", TArg "P"); ("a", TConst "a"); ("b", TConst "b")]).
Definition inplace_tree : tree :=
  decision (used true depth (TxApp "optional_inplace" [TxName "P"; TxName "F"])
              [("P", TArg "P"); ("F", TArg "F")]).
(** The type that optional_aip<P> and optional_aip<P, a> is an alias of. *)
Definition aip_tree : tree :=
  decision (evaluate true depth [("P", TArg "P")] (TxApp "optional_aip" [TxName "P"])).
Definition aip_sentinel_tree : tree :=
  decision (evaluate true depth [("P", TArg "P"); ("a", TConst "a")]
              (TxApp "optional_aip" [TxName "P"; TxName "a"])).
(** The base class of optional_flag_manipulator<T>. *)
Definition manipulator_tree : tree :=
  decision (m <~ complete true depth "optional_flag_manipulator" [TArg "T"; TType "void"] ;;
            match snd m with Some b => ret b | None => stuck "base" end).

Section Meaning.
  Variable U : universe.
  Variable cf : config.
  Variable traits : string -> cvty -> bool.

  (** A decision tree, run with the facts of the program; all its questions must be ones
      that the program answers. *)
  Definition execute (A : arguments) (t : tree) : res tval :=
    if all_questions (understood A) t then run (answer U cf traits A) t else Stuck "question".

  (** StoredTypeDecomposition (optional.h:572-646; what the functions do: C72). *)
  Definition decomposition (A : arguments) (D : tval) : res decomp :=
    match D with
    | TInst c (t :: l) =>
        match type_of_tval U A t with
        | None => Stuck c
        | Some P =>
            if String.eqb c "DecompositionForSeparateFlag" then Good (separate U P)
            else if String.eqb c "InplaceStoredTypeDecomposition" then Good (inplace U P)
            else if String.eqb c "InplaceDecompositionViaMemPtr"
            then match l with
                 | [v] => match constant_of U A v with
                          | Some (AVal (VMemObj _ var (Some off))) =>
                              Good (dec_member (size_of U (base P)) off (size_of U (base var)))
                          | _ => Stuck c
                          end
                 | _ => Stuck c
                 end
            else Stuck c
        end
    | _ => Stuck "decomposition"
    end.

  (** The [value] of a sentinel type. *)
  Definition sentinel_value (A : arguments) (v : tval) : res const :=
    match v with
    | TArg x => match lookup x (ar_sents A) with Some (AVal v) => Good v | _ => Stuck x end
    | TInst c [t; w] =>
        if String.eqb c "std::integral_constant" && tval_eqb t (TTypeOf w)
        then match constant_of U A w with Some (AVal v) => Good v | _ => Stuck c end
        else Stuck c
    | _ => Stuck "sentinel"
    end.

  (** optional_flag_manipulator<t>: the user's specialization, or the class that the header
      derives it from (the constants: C74). *)
  Definition registered (t : cvty) : res manip :=
    match execute (MkArgs [("T", t)] [] [] []) manipulator_tree with
    | Good (TArg _) => match u_spec U t with Some f => Good f | None => Stuck "user" end
    | Good (TInst c [_; TInst s [w]]) =>
        if String.eqb c "MemcpyAndCmpFlagManipulator" && String.eqb s "SentinelForExploitingUnusedBits"
        then match type_of_tval U (MkArgs [("T", t)] [] [] []) w with
             | Some u => match written U (base u) with
                         | Some (n, v) => Good (man_memcmp (bytes_le n v))
                         | None => Stuck s
                         end
             | None => Stuck s
             end
        else Stuck c
    | Good _ => Ill
    | Ill => Ill
    | Stuck s => Stuck s
    end.

  (** FlagManipulator (optional.h:680-850; what the functions do: C72, C74). *)
  Definition manipulator (A : arguments) (F : tval) : res manip :=
    match F with
    | TArg x => match lookup x (ar_manips A) with Some f => Good f | None => Stuck x end
    | TInst c args =>
        if String.eqb c "SeparateFlagManipulator" then Good man_separate
        else if String.eqb c "optional_flag_manipulator"
        then match args with
             | [t; TType "void"] =>
                 match type_of_tval U A t with Some t => registered t | None => Stuck c end
             | _ => Stuck c
             end
        else if String.eqb c "AssignmentFlagManipulator"
        then match args with
             | [t; s] =>
                 match type_of_tval U A t, sentinel_value A s with
                 | Some t, Good v =>
                     match convert_text U 0 (base t) v with
                     | Some x => match initialise U (base t) x with Some f => Good f | None => Ill end
                     | None => Ill
                     end
                 | None, _ => Stuck c
                 | _, Ill => Ill
                 | _, Stuck s => Stuck s
                 end
             | _ => Stuck c
             end
        else Stuck c
    | _ => Stuck "manipulator"
    end.

  (** TinyOptionalImpl<D, F>: where the flag is, and what its values are. *)
  Definition meaning (A : arguments) (r : res tval) : res (decomp * manip) :=
    match r with
    | Good (TInst _ [D; F]) =>
        match decomposition A D, manipulator A F with
        | Good d, Good f => Good (d, f)
        | Stuck s, _ | _, Stuck s => Stuck s
        | _, _ => Ill
        end
    | Good _ => Stuck "type"
    | Ill => Ill
    | Stuck s => Stuck s
    end.

  (** ** The public type names, as the text of the header defines them *)

  (** optional_sentinel_via_type<P, S, m> *)
  Definition via_type_text (P : cvty) (S m : targ) : res (decomp * manip) :=
    let A := MkArgs [("P", P)] [("m", m)] [("S", S)] [] in
    meaning A (execute A via_type_tree).
  (** optional<P, a, b> *)
  Definition optional_text (P : cvty) (a b : targ) : res (decomp * manip) :=
    let A := MkArgs [("P", P)] [("a", a); ("b", b)] [] [] in
    meaning A (execute A optional_tree).
  (** optional_inplace<P, F> *)
  Definition inplace_text (P : cvty) (f : manip) : res (decomp * manip) :=
    let A := MkArgs [("P", P)] [] [] [("F", f)] in
    meaning A (execute A inplace_tree).
  (** optional_aip<P> and optional_aip<P, a>: an alias of some optional<P, x, y>. *)
  Definition alias_of_optional (A : arguments) (r : res tval) : res (decomp * manip) :=
    match r with
    | Good (TInst c [t; x; y]) =>
        match type_of_tval U A t, constant_of U A x, constant_of U A y with
        | Some P, Some a, Some b =>
            if String.eqb c "optional" then optional_text P a b else Stuck c
        | _, _, _ => Stuck c
        end
    | Good _ => Stuck "alias"
    | Ill => Ill
    | Stuck s => Stuck s
    end.
  Definition aip_text (P : cvty) : res (decomp * manip) :=
    let A := MkArgs [("P", P)] [] [] [] in alias_of_optional A (execute A aip_tree).
  Definition aip_sentinel_text (P : cvty) (a : targ) : res (decomp * manip) :=
    let A := MkArgs [("P", P)] [("a", a)] [] [] in alias_of_optional A (execute A aip_sentinel_tree).
End Meaning.
