(** * Instantiate: the templates of the header, instantiated as they are written

    An evaluator for the trees of [Templates.v]: alias, class and variable templates,
    default arguments, partial specializations chosen by matching and SFINAE,
    static_asserts of instantiated classes.  Where the result depends on the program (its
    types, template arguments, macros) the evaluator asks a question; the answers make the
    branches of a decision tree, which is run with the facts of a program. *)

From Coq Require Import String List NArith ZArith Bool Arith Lia.
From Verif Require Import Cells CellsFacts Machine Laws Bits Manip IntRange Select Selection.
From Verif Require Import Syntax Constants CompileTime TemplateSyntax Templates.
Import ListNotations.
Local Open Scope string_scope.

(** ** Values of the evaluator *)

(** Types, constants and classes, as far as they are known without knowing the program. *)
Inductive tval : Type :=
| TType (x : string)                  (* a type of the language or of std *)
| TArg (x : string)                   (* a type that the program passes *)
| TNoCv (t : tval)                    (* std::remove_cv_t<t> *)
| TMemberOf (v : tval)                (* the class of a member pointer *)
| TMemberType (v : tval)              (* the type of its variable *)
| TTypeOf (v : tval)                  (* decltype(v) *)
| TConst (x : string)                 (* a constant that the program passes *)
| TDefault                            (* UseDefaultValue *)
| TNull
| TMacro (x : string)                 (* a limit of <climits> *)
| TTruth (b : bool)
| TInst (c : string) (args : list tval)   (* a class, not necessarily complete *)
| TUntouched (s : string).

Fixpoint tval_eqb (a b : tval) {struct a} : bool :=
  match a, b with
  | TType x, TType y | TArg x, TArg y | TConst x, TConst y | TMacro x, TMacro y
  | TUntouched x, TUntouched y => String.eqb x y
  | TNoCv s, TNoCv t | TMemberOf s, TMemberOf t | TMemberType s, TMemberType t
  | TTypeOf s, TTypeOf t => tval_eqb s t
  | TDefault, TDefault | TNull, TNull => true
  | TTruth x, TTruth y => Bool.eqb x y
  | TInst c l, TInst d m =>
      String.eqb c d &&
      (fix all (l m : list tval) : bool :=
         match l, m with
         | [], [] => true
         | x :: l', y :: m' => tval_eqb x y && all l' m'
         | _, _ => false
         end) l m
  | _, _ => false
  end.

(** Questions about the program. *)
Inductive question : Type :=
| QDefined (macro : string)
| QSame (a b : tval)                  (* std::is_same_v *)
| QEqual (a b : tval)                 (* the same constant? *)
| QTrait (x : string) (t : tval)
| QUser (t : tval).                   (* is there a user's specialization for t? *)
Definition question_eqb (a b : question) : bool :=
  match a, b with
  | QDefined x, QDefined y => String.eqb x y
  | QSame a b, QSame c d | QEqual a b, QEqual c d => tval_eqb a c && tval_eqb b d
  | QTrait x t, QTrait y u => String.eqb x y && tval_eqb t u
  | QUser t, QUser u => tval_eqb t u
  | _, _ => false
  end.

(** [Ill]: an ill-formed program (or a substitution failure).  [Stuck]: something that the
    evaluator does not know, or two partial specializations that match. *)
Inductive res (A : Type) : Type :=
| Good (a : A)
| Ill
| Stuck (s : string).
Arguments Good {A} _.
Arguments Ill {A}.
Arguments Stuck {A} _.

(** The decision tree, and computations that ask and remember the answers. *)
Inductive tree : Type :=
| Leaf (r : res tval)
| Ask (q : question) (yes no : tree).
Definition known : Type := list (question * bool).
Definition M (A : Type) : Type := known -> (res A -> known -> tree) -> tree.
Definition ret {A} (a : A) : M A := fun kn k => k (Good a) kn.
Definition ill {A} : M A := fun kn k => k Ill kn.
Definition stuck {A} (s : string) : M A := fun kn k => k (Stuck s) kn.
Definition bind {A B} (m : M A) (f : A -> M B) : M B := fun kn k =>
  m kn (fun r kn' => match r with
                     | Good a => f a kn' k
                     | Ill => k Ill kn'
                     | Stuck s => k (Stuck s) kn'
                     end).
(** Substitution failure is not an error. *)
Definition sfinae {A} (m : M A) : M (option A) := fun kn k =>
  m kn (fun r kn' => match r with
                     | Good a => k (Good (Some a)) kn'
                     | Ill => k (Good None) kn'
                     | Stuck s => k (Stuck s) kn'
                     end).
Definition ask (q : question) : M bool := fun kn k =>
  match find (fun p => question_eqb q (fst p)) kn with
  | Some (_, b) => k (Good b) kn
  | None => Ask q (k (Good true) ((q, true) :: kn)) (k (Good false) ((q, false) :: kn))
  end.
Notation "x <~ m ;; f" := (bind m (fun x => f)) (at level 61, m at next level, right associativity).

Section MapM.
  Variables A B : Type.
  Variable f : A -> M B.
  Fixpoint mapM (l : list A) : M (list B) :=
    match l with
    | [] => ret []
    | x :: l' => y <~ f x ;; ys <~ mapM l' ;; ret (y :: ys)
    end.
End MapM.
Arguments mapM {A B} f l.

(** ** Names with a fixed meaning *)

Fixpoint lookup {A} (x : string) (l : list (string * A)) : option A :=
  match l with
  | [] => None
  | (y, a) :: l' => if String.eqb x y then Some a else lookup x l'
  end.
Definition mem_string (x : string) (l : list string) : bool := existsb (String.eqb x) l.

Definition type_names : list string :=
  ["void"; "bool"; "long double"; "UseDefaultType"; "std::nullopt_t"; "std::in_place_t";
   "unsigned short"; "unsigned int"; "unsigned long"; "unsigned long long";
   "short"; "int"; "long"; "long long"].
Definition macro_names : list string :=
  ["USHRT_MAX"; "UINT_MAX"; "ULONG_MAX"; "ULLONG_MAX"; "SHRT_MIN"; "INT_MIN"; "LONG_MIN";
   "LLONG_MIN"].
(** Classes whose members are not looked at here: what they do is C72, C74. *)
Definition other_classes : list string :=
  ["SeparateFlagManipulator"; "MemcpyAndCmpFlagManipulator"; "SentinelForExploitingUnusedBits";
   "AssignmentFlagManipulator"; "SeparateFlagStorage"; "InplaceStorage"; "std::integral_constant";
   "MemberPointerFragments"].
(** Type traits of std that depend on the program's types only. *)
Definition trait_names : list string :=
  ["std::is_floating_point_v"; "std::is_pointer_v"; "std::is_object_v"; "std::is_destructible_v";
   "std::is_array_v"; "std::is_member_object_pointer_v"; "std::is_move_constructible_v";
   "std::is_copy_constructible_v"; "std::is_move_assignable_v"; "std::is_copy_assignable_v"].

Definition is_type (v : tval) : bool :=
  match v with
  | TType _ | TArg _ | TNoCv _ | TMemberOf _ | TMemberType _ | TTypeOf _ | TInst _ _ => true
  | _ => false
  end.

(** Are two template arguments the same?  UseDefaultType has one value only: the type of
    a constant is UseDefaultType iff the constant is UseDefaultValue. *)
Definition same (a b : tval) : M bool :=
  if tval_eqb a b then ret true
  else match a, b with
       | TTruth _, TTruth _ | TType _, TType _ | TInst _ _, TType _ | TType _, TInst _ _ => ret false
       | TTypeOf v, TType x | TType x, TTypeOf v =>
           if tval_eqb v TDefault then ret (String.eqb x "UseDefaultType")
           else if String.eqb x "UseDefaultType" then ask (QEqual v TDefault) else ask (QSame a b)
       | TType _, _ => if is_type b then ask (QSame b a) else ret false
       | TDefault, _ => if is_type b then ret false else ask (QEqual b a)
       | _, _ => if is_type a && is_type b then ask (QSame a b)
                 else if negb (is_type a) && negb (is_type b) then ask (QEqual a b)
                 else ret false
       end.
(** A trait of std; UseDefaultType is no member pointer. *)
Definition trait (f : string) (t : tval) : M bool :=
  if String.eqb f "std::is_member_object_pointer_v"
  then d <~ same t (TType "UseDefaultType") ;; if d : bool then ret false else ask (QTrait f t)
  else ask (QTrait f t).

(** The conditions of #if: defined / not defined / the other branch of not defined. *)
Definition condition (s : string) : M bool :=
  if String.prefix "!defined " s
  then b <~ ask (QDefined (substring 9 (String.length s - 9) s)) ;; ret (negb b)
  else if String.prefix "else of !defined " s
  then ask (QDefined (substring 17 (String.length s - 17) s))
  else stuck s.
Fixpoint guarded (l : list string) : M bool :=
  match l with
  | [] => ret true
  | s :: l' => b <~ condition s ;; if b : bool then guarded l' else ret false
  end.
(** What remains of a list after the preprocessor. *)
Fixpoint preprocess {A} (l : list (list string * A)) : M (list A) :=
  match l with
  | [] => ret []
  | (g, a) :: l' => b <~ guarded g ;; r <~ preprocess l' ;; ret (if b : bool then a :: r else r)
  end.

Definition env : Type := list (string * tval).

(** Is the class declared in the header (or one of the others)? *)
Definition definitions (f : string) : list tdef := filter (fun d => String.eqb (td_name d) f) templates.
Definition primary (f : string) : option tdef :=
  find (fun d => match td_pattern d with None => true | _ => false end) (definitions f).
Definition specializations (f : string) : list tdef :=
  filter (fun d => match td_pattern d with None => false | _ => true end) (definitions f).

Definition is_param (ps : list (string * bool * option texpr)) (x : string) : bool :=
  existsb (fun p => String.eqb x (fst (fst p))) ps.

(** ** The evaluator *)

(** One level of the evaluator, with [ev] for the level below.  [fuel] bounds the depth. *)
Section Level.
  (** The evaluator at lower depth: expressions in an environment; and the complete class
      [c<args>] (its members, the class it derives from). *)
  Variable ev : env -> texpr -> M tval.
  Variable complete : string -> list tval -> M (env * option tval).
  (** Skip the base classes with the special member functions: CopyAssignmentBase<D, F> is
      StorageBase<D, F>. *)
  Variable skip : bool.

  Definition as_bool (v : tval) : M bool :=
    match v with TTruth b => ret b | _ => stuck "not a bool" end.

  (** Arguments and default arguments for the parameters. *)
  Fixpoint with_defaults (ps : list (string * bool * option texpr)) (args : list tval) (e : env)
    : M (list tval * env) :=
    match ps, args with
    | [], [] => ret ([], e)
    | [], _ => ill
    | (x, true, _) :: _, _ => ret (args, e)               (* a pack takes the rest *)
    | (x, false, _) :: ps', a :: args' =>
        r <~ with_defaults ps' args' ((x, a) :: e) ;; ret (a :: fst r, snd r)
    | (x, false, Some d) :: ps', [] =>
        a <~ ev e d ;; r <~ with_defaults ps' [] ((x, a) :: e) ;; ret (a :: fst r, snd r)
    | (x, false, None) :: _, [] => ill
    end.

  (** Deduction: the arguments of a specialization that are parameters are bound... *)
  Fixpoint deduce (ps : list (string * bool * option texpr)) (pat : list texpr) (args : list tval) : env :=
    match pat, args with
    | TxName x :: pat', a :: args' =>
        if is_param ps x then (x, a) :: deduce ps pat' args' else deduce ps pat' args'
    | _ :: pat', _ :: args' => deduce ps pat' args'
    | _, _ => []
    end.
  (** ... the others must be the given ones. *)
  Fixpoint agree (ps : list (string * bool * option texpr)) (e : env) (pat : list texpr)
    (args : list tval) : M bool :=
    match pat, args with
    | [], [] => ret true
    | p :: pat', a :: args' =>
        match p with
        | TxName x =>
            if is_param ps x then agree ps e pat' args'
            else v <~ ev e p ;; b <~ same v a ;; if b : bool then agree ps e pat' args' else ret false
        | _ => v <~ ev e p ;; b <~ same v a ;; if b : bool then agree ps e pat' args' else ret false
        end
    | _, _ => ret false
    end.
  Fixpoint matching (l : list tdef) (args : list tval) : M (list (tdef * env)) :=
    match l with
    | [] => ret []
    | d :: l' =>
        let pat := match td_pattern d with Some p => p | None => [] end in
        let e := deduce (td_params d) pat args in
        g <~ guarded (td_guard d) ;;
        r <~ (if g : bool then sfinae (agree (td_params d) e pat args) else ret None) ;;
        rest <~ matching l' args ;;
        match r with
        | Some true => ret ((d, e) :: rest)
        | _ => ret rest
        end
    end.
  (** The definition that is used for [f<args>] (all arguments given), with the environment
      of its parameters. *)
  Definition choose (f : string) (args : list tval) : M (tdef * env) :=
    match primary f with
    | None => stuck f
    | Some d =>
        g <~ guarded (td_guard d) ;;
        if negb g then ill
        else
          l <~ matching (specializations f) args ;;
          match l with
          | [] => r <~ with_defaults (td_params d) args [] ;; ret (d, snd r)
          | [x] => ret x
          | _ => stuck "ambiguous"
          end
    end.

  (** The right hand side of an alias or a variable. *)
  Definition right_hand_side (d : tdef) : M texpr :=
    l <~ preprocess (td_body d) ;;
    match l with [e] => ret e | _ => stuck "right hand side" end.

  (** Traits and class templates of std. *)
  Definition std_template (f : string) (args : list tval) : option (M tval) :=
    if String.eqb f "std::is_same_v"
    then match args with
         | [a; b] => Some (r <~ same a b ;; ret (TTruth r))
         | _ => None
         end
    else if String.eqb f "std::remove_cv_t"
    then match args with [t] => Some (ret (TNoCv t)) | _ => None end
    else if String.eqb f "std::conditional_t"
    then match args with
         | [c; a; b] => Some (x <~ as_bool c ;; ret (if x : bool then a else b))
         | _ => None
         end
    else if String.eqb f "std::enable_if_t"
    then match args with
         | [c] => Some (x <~ as_bool c ;; if x : bool then ret (TType "void") else ill)
         | _ => None
         end
    else if mem_string f trait_names
    then match args with
         | [t] => Some (b <~ trait f t ;; ret (TTruth b))
         | _ => None
         end
    else None.

  (** std::is_base_of_v<a, b>: b must be complete. *)
  Fixpoint derives (n : nat) (a b : tval) : M bool :=
    match n with
    | 0 => stuck "is_base_of"
    | S n' =>
        if tval_eqb a b then ret true
        else match b with
             | TInst c args =>
                 if mem_string c other_classes then ret false
                 else
                   m <~ complete c args ;;
                   match snd m with
                   | Some t => derives n' a t
                   | None => ret false
                   end
             | TArg _ => ret false           (* a class of the program *)
             | _ => stuck "is_base_of"
             end
    end.

  (** [f<args>] *)
  Definition apply (f : string) (args : list tval) : M tval :=
    match std_template f args with
    | Some m => m
    | None =>
        if String.eqb f "std::is_base_of_v"
        then match args with
             | [a; b] => r <~ derives 5 a b ;; ret (TTruth r)
             | _ => ill
             end
        else if mem_string f other_classes then ret (TInst f args)
        else if skip && String.eqb f "CopyAssignmentBase" then ret (TInst f args)
        else match primary f with
             | None => stuck f
             | Some d =>
                 r <~ with_defaults (td_params d) args [] ;;
                 match td_kind d with
                 | TClass => ret (TInst f (fst r))
                 | TAlias => e <~ right_hand_side d ;; ev (snd r) e
                 | TVariable =>
                     x <~ choose f (fst r) ;; e <~ right_hand_side (fst x) ;; ev (snd x) e
                 end
             end
    end.

  (** [v::x] *)
  Definition member (v : tval) (x : string) : M tval :=
    match v with
    | TInst c args =>
        if String.eqb c "MemberPointerFragments"             (* optional.h:339-348 *)
        then match args with
             | [m] =>
                 b <~ trait "std::is_member_object_pointer_v" (TTypeOf m) ;;
                 if negb b then ill
                 else if String.eqb x "ClassType" then ret (TMemberOf m)
                 else if String.eqb x "VariableType" then ret (TMemberType m)
                 else ill
             | _ => ill
             end
        else if mem_string c other_classes then stuck x
        else
          m <~ complete c args ;;
          match lookup x (fst m) with Some a => ret a | None => ill end
    | _ => stuck x
    end.

  Definition name (e : env) (x : string) : M tval :=
    match lookup x e with
    | Some v => ret v
    | None =>
        if String.eqb x "UseDefaultValue" then ret TDefault
        else if String.eqb x "nullptr" then ret TNull
        else if mem_string x type_names then ret (TType x)
        else if mem_string x macro_names then ret (TMacro x)
        else if mem_string x other_classes || String.eqb x "NoCustomInplaceFlagManipulator"
        then ret (TInst x [])
        else stuck x
    end.

  (** Both operands of && and || are substituted, also if the first one decides. *)
  Definition expression (e : env) (t : texpr) : M tval :=
    match t with
    | TxName x => name e x
    | TxApp f args => l <~ mapM (ev e) args ;; apply f l
    | TxMem a x => v <~ ev e a ;; member v x
    | TxNot a => v <~ ev e a ;; b <~ as_bool v ;; ret (TTruth (negb b))
    | TxAnd a b => v <~ ev e a ;; w <~ ev e b ;; x <~ as_bool v ;; y <~ as_bool w ;; ret (TTruth (x && y))
    | TxOr a b => v <~ ev e a ;; w <~ ev e b ;; x <~ as_bool v ;; y <~ as_bool w ;; ret (TTruth (x || y))
    | TxNe a b => v <~ ev e a ;; w <~ ev e b ;; x <~ same v w ;; ret (TTruth (negb x))
    | TxDecltype a => v <~ ev e a ;;
                      ret (match v with TDefault => TType "UseDefaultType" | _ => TTypeOf v end)
    | TxBool b => ret (TTruth b)
    | TxText s => ret (TUntouched s)
    end.

  (** The members of a class, in order; the static_asserts must hold.  Constants are
      evaluated here too if they can be (the compiler does it on use). *)
  Fixpoint members (l : list titem) (e : env) : M env :=
    match l with
    | [] => ret e
    | IUsing x t :: l' => v <~ ev e t ;; members l' ((x, v) :: e)
    | IConst x t :: l' =>
        if String.eqb x "test" then members l' e             (* only for the unit tests *)
        else v <~ ev e t ;; members l' ((x, v) :: e)
    | IAssert t :: l' =>
        v <~ ev e t ;;
        match v with
        | TTruth true => members l' e
        | TTruth false => ill
        | TUntouched s => if String.prefix "noexcept(" s then members l' e else stuck s
        | _ => stuck "static_assert"
        end
    end.
  (** [c<args>] as a complete class: its members (own and inherited) and its base class,
      which is completed first. *)
  Definition complete_class (c : string) (args : list tval) : M (env * option tval) :=
    if String.eqb c "optional_flag_manipulator"
    then (* A specialization by the user, or the ones of the header. *)
      match args with
      | t :: _ =>
          u <~ ask (QUser t) ;;
          if u : bool then ret ([], Some (TArg "user"))
          else x <~ choose c args ;; b <~ preprocess (td_body (fst x)) ;;
               match b with
               | [e] => v <~ ev (snd x) e ;; ret ([], Some v)
               | _ => stuck c
               end
      | [] => ill
      end
    else if skip && String.eqb c "CopyAssignmentBase" then complete "StorageBase" (firstn 2 args)
    else
      x <~ choose c args ;;
      b <~ preprocess (td_body (fst x)) ;;
      bs <~ match b with
            | [] => ret ([], None)
            | [e] =>
                v <~ ev (snd x) e ;;
                match v with
                | TInst d l => m <~ complete d l ;; ret (fst m, Some v)
                | _ => stuck c
                end
            | _ => stuck c
            end ;;
      i <~ preprocess (td_items (fst x)) ;;
      e <~ members i (snd x) ;;
      ret ((firstn (List.length e - List.length (snd x)) e ++ fst bs)%list, snd bs).
End Level.

Section Depth.
  Variable skip : bool.
  Fixpoint evaluate (n : nat) (e : env) (t : texpr) : M tval :=
    match n with
    | 0 => stuck "depth"
    | S n' => expression (evaluate n') (complete n') skip e t
    end
  with complete (n : nat) (c : string) (args : list tval) : M (env * option tval) :=
    match n with
    | 0 => stuck "depth"
    | S n' => complete_class (evaluate n') (complete n') skip c args
    end.

  (** A type that the program uses: an optional must be complete.  The result is the
      instance of TinyOptionalImpl that it is or derives from. *)
  Definition used (n : nat) (t : texpr) (e : env) : M tval :=
    v <~ evaluate n e t ;;
    match v with
    | TInst c args =>
        m <~ complete n c args ;;
        if String.eqb c "TinyOptionalImpl" then ret v
        else match snd m with
             | Some (TInst b l) => if String.eqb b "TinyOptionalImpl" then ret (TInst b l) else stuck b
             | _ => stuck c
             end
    | _ => stuck "not a class"
    end.
End Depth.
Definition decision (m : M tval) : tree := m [] (fun r _ => Leaf r).

(** Questions whose answer does not matter are dropped. *)
Fixpoint tree_eqb (s t : tree) : bool :=
  match s, t with
  | Leaf (Good a), Leaf (Good b) => tval_eqb a b
  | Leaf Ill, Leaf Ill => true
  | Leaf (Stuck a), Leaf (Stuck b) => String.eqb a b
  | Ask q a b, Ask r c d => question_eqb q r && tree_eqb a c && tree_eqb b d
  | _, _ => false
  end.
Fixpoint prune (t : tree) : tree :=
  match t with
  | Leaf r => Leaf r
  | Ask q a b => let a' := prune a in let b' := prune b in if tree_eqb a' b' then a' else Ask q a' b'
  end.
