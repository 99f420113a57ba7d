(** * Declared: the declarations of the header, read as the compiler reads them (C76)

    Which copy and move operations an optional has and which of its functions are noexcept
    follows from declarations only: from [= default], [= delete], noexcept specifications,
    base classes and the conditions that choose between the two versions of a base class.
    Here these are taken from the text of the header ([Source.v], [Specials.v],
    [Templates.v]) and evaluated for arbitrary traits of the payload. *)

From Coq Require Import String List Bool NArith.
From Verif Require Import Cells Machine Optional Program Syntax Source Exec Specials.
From Verif Require TemplateSyntax Templates Smf.
Import ListNotations TemplateSyntax.
Local Open Scope string_scope.

Local Notation lv := (Cat false false).

(** The traits of the payload that declarations depend on. *)
Record payload : Type := Payload {
  pl_traits : Smf.traits;
  pl_swappable : bool          (* is_nothrow_swappable *)
}.

(** ** The two versions of a base class *)

(** The condition that is the default argument of a base class (optional.h:1168, 1225,
    1280-1281, 1342-1343). *)
Fixpoint condition (t : Smf.traits) (e : texpr) : option bool :=
  match e with
  | TxApp x [TxMem (TxName "StoredTypeDecomposition") "PayloadType"] =>
      if String.eqb x "std::is_copy_constructible_v" then Some (Smf.t_cc t)
      else if String.eqb x "std::is_move_constructible_v" then Some (Smf.t_mc t)
      else if String.eqb x "std::is_copy_assignable_v" then Some (Smf.t_ca t)
      else if String.eqb x "std::is_move_assignable_v" then Some (Smf.t_ma t)
      else None
  | TxAnd a b =>
      match condition t a, condition t b with Some x, Some y => Some (x && y) | _, _ => None end
  | TxOr a b =>
      match condition t a, condition t b with Some x, Some y => Some (x || y) | _, _ => None end
  | TxNot a => option_map negb (condition t a)
  | TxBool b => Some b
  | _ => None
  end.

(** The members and the base class of [cls] (written without template arguments, which are
    always <StoredTypeDecomposition, FlagManipulator> or, for [optional], its own): those of
    the specialisation if its last argument is the value of the default argument. *)
Definition template_base (d : tdef) : option string :=
  match td_body d with
  | [] => None
  | ([], TxApp b _) :: _ => Some (unalias 5 b)
  | _ => Some "?"
  end.
Definition version (t : Smf.traits) (cls : string) : option (option string * list fundef) :=
  let of_class := filter (fun f => String.eqb (f_class f) cls) in
  match filter (fun d => String.eqb (td_name d) cls) Templates.templates with
  | [p] => Some (template_base p, of_class source)
  | [p; s] =>
      match td_pattern p, td_params p, td_pattern s with
      | None, [_; _; (_, false, Some c)], Some [TxName _; TxName _; TxBool b] =>
          match condition t c with
          | Some x => Some (if Bool.eqb x b then (template_base s, of_class specials)
                            else (template_base p, of_class source))
          | None => None
          end
      | _, _, _ => None
      end
  | _ => None
  end.

(** ** noexcept specifications *)

(** [ps]: the parameters of the function; [noexcept(x.f(...))] asks for the specification of
    the member function [f] of the class of [x] (optional.h:1852). *)
Fixpoint specification (n : nat) (p : payload) (ps : list param) (e : expr) : option bool :=
  match n with
  | O => None
  | S n =>
      match e with
      | EBool b => Some b
      | EName x =>
          if String.eqb x "std::is_nothrow_move_constructible_v<PayloadType>"
          then Some (Smf.t_nmc (pl_traits p))
          else if String.eqb x "std::is_nothrow_move_assignable_v<PayloadType>"
          then Some (Smf.t_nma (pl_traits p))
          else if String.eqb x "std::is_nothrow_swappable_v<PayloadType>" then Some (pl_swappable p)
          else None
      | EUn o a => if String.eqb o "!" then option_map negb (specification n p ps a) else None
      | EBin o a b =>
          match specification n p ps a, specification n p ps b with
          | Some x, Some y => if String.eqb o "&&" then Some (x && y)
                              else if String.eqb o "||" then Some (x || y) else None
          | _, _ => None
          end
      | ENoexcept (ECall (EMember (EName x) m) _) =>
          match filter (fun q => String.eqb (p_name q) x) ps with
          | [q] =>
              match filter (fun f => String.eqb (f_name f) m
                                     && String.eqb (plain 0 (p_type q)) (f_class f ++ "&")) source with
              | [f] => match f_noexcept f with
                       | Some e => specification n p (f_params f) e
                       | None => Some false
                       end
              | _ => None
              end
          | _ => None
          end
      | _ => None
      end
  end.
(** The specification of a function that is not defaulted. *)
Definition declared (p : payload) (f : fundef) : option bool :=
  match f_noexcept f with Some e => specification 5 p (f_params f) e | None => Some false end.

(** ** Copy and move operations *)

(** The declaration of the function [x] with one parameter of type [cls ++ suffix]. *)
Definition declaration (p : payload) (fs : list fundef) (cls x suffix : string) : option Smf.decl :=
  match filter (fun f => String.eqb (f_name f) x
                         && match f_params f with
                            | [q] => String.eqb (plain 0 (p_type q)) (cls ++ suffix)
                            | _ => false
                            end) fs with
  | [] => Some Smf.NotDeclared
  | [f] =>
      match f_body f with
      | Deleted => Some Smf.Deleted
      | Defaulted => match f_noexcept f with None => Some Smf.Defaulted | Some _ => None end
      | Body _ => option_map Smf.Provided (declared p f)
      end
  | _ => None
  end.
Definition declarations (p : payload) (fs : list fundef) (cls : string) : option Smf.class_decl :=
  match declaration p fs cls cls "const&", declaration p fs cls cls "&&",
        declaration p fs cls "operator=" "const&", declaration p fs cls "operator=" "&&" with
  | Some a, Some b, Some c, Some d => Some (Smf.MkClass a b c d)
  | _, _, _, _ => None
  end.
(** The declarations of [cls] and its base classes, the root first. *)
Fixpoint chain (n : nat) (p : payload) (cls : string) : option (list Smf.class_decl) :=
  match n with
  | O => None
  | S n =>
      match version (pl_traits p) cls with
      | Some (b, fs) =>
          match declarations p fs cls, match b with Some b => chain n p b | None => Some [] end with
          | Some d, Some l => Some (l ++ [d])%list
          | _, _ => None
          end
      | None => None
      end
  end.
(** The operations of a variable of class [cls] by the rules of the language. *)
Definition members (p : payload) (cls : string) : option Smf.class_members :=
  option_map Smf.members (chain 8 p cls).

(** ** All other functions *)

(** The ways to call the functions, with the category of the object where that matters. *)
Inductive use : Type :=
| UDefault | UNullopt | UInPlace | UInPlaceList | UConvert (imp : bool) | UDestroy
| UAssignNull | UAssignValue | UEmplace | UEmplaceList | UReset | USwap | UFreeSwap
| UHasValue (c : cat) | UBool (c : cat) | UArrow (c : cat) | UDeref (c : cat) | UValue (c : cat)
| UValueOr (c : cat) | UAndThen (c : cat) | UTransform (c : cat) | UOrElse (c : cat)
| UMake | UMakeList | UHash
| UCompare (r : relop) (a b : side) | UThree (a b : side)
with side : Type := STiny (c : cat) | SStd | SNull | SValue.

Definition rel_name (r : relop) : string :=
  match r with REq => "==" | RNe => "!=" | RLt => "<" | RLe => "<=" | RGt => ">" | RGe => ">=" end.

Section Uses.
  Context {W : Type} (n : ini W) (a : arg W) (fo : fn_opt W) (fu : fn_use W) (fnull : W -> res (option rep) * W)
          (i j : loc) (v : rep) (o : option rep).

  Definition side_value (s : side) : value W :=
    match s with STiny c => VOpt i c | SStd => VStd o | SNull => VNullopt | SValue => VRep v end.

  (** The constructor of [cls] for the arguments [vs]: [= default] and inherited
      constructors have the specification of the base class's one. *)
  Fixpoint constructor (d : nat) (p : payload) (cls : string) (vs : list (value W)) : option bool :=
    match d with
    | O => None
    | S d =>
        match find_class classes cls with
        | Some c =>
            let base := match base_of c with Some b => constructor d p b vs | None => None end in
            match pick (constructors cls vs) None vs with
            | Some f => match f_body f, f_noexcept f with
                        | Body _, _ => declared p f
                        | Defaulted, None => base
                        | _, _ => None
                        end
            | None => if c_using c then base else None
            end
        | None => None
        end
    end.
  Definition member_call (p : payload) (cls x : string) (c : cat) (vs : list (value W)) : list (option bool) :=
    match pick (lookup 6 cls x) (Some c) vs with Some f => [declared p f] | None => [] end.
  Definition free_call (p : payload) (x : string) (vs : list (value W)) : list (option bool) :=
    map (declared p) (viable (overloads "" x) vs).

  (** The specifications of all functions that the expression may call, for an optional of
      class [cls]. *)
  Definition noexcept_of (p : payload) (cls : string) (u : use) : list (option bool) :=
    match u with
    | UDefault => [constructor 8 p cls []]
    | UNullopt => [constructor 8 p cls [VNullopt]]
    | UInPlace => [constructor 8 p cls [VInPlace; VIni n]]
    | UInPlaceList => [constructor 8 p cls [VInPlace; VIList; VIni n]]
    | UConvert imp => [constructor 8 p cls [VConv imp n]]
    | UDestroy => map (declared p) (overloads cls ("~" ++ cls))
    | UAssignNull => member_call p cls "operator=" lv [VNullopt]
    | UAssignValue => member_call p cls "operator=" lv [VArg a]
    | UEmplace => member_call p cls "emplace" lv [VIni n]
    | UEmplaceList => member_call p cls "emplace" lv [VIList; VIni n]
    | UReset => member_call p cls "reset" lv []
    | USwap => member_call p cls "swap" lv [VOpt j lv]
    | UFreeSwap => free_call p "swap" [@VOpt W i lv; VOpt j lv]
    | UHasValue c => member_call p cls "has_value" c []
    | UBool c => member_call p cls "operator bool" c []
    | UArrow c => member_call p cls "operator->" c []
    | UDeref c => member_call p cls "operator*" c []
    | UValue c => member_call p cls "value" c []
    | UValueOr c => member_call p cls "value_or" c [VIni n]
    | UAndThen c => member_call p cls "and_then" c [VFnOpt fo c]
    | UTransform c => member_call p cls "transform" c [VFnUse fu true c]
    | UOrElse c => member_call p cls "or_else" c [VFnNull fnull]
    | UMake => free_call p "make_optional" [VIni n]
    | UMakeList => free_call p "make_optional" [VIList; VIni n]
    | UHash => map (declared p) (overloads "hash" "operator()")
    | UCompare r x y => free_call p ("operator" ++ rel_name r) [side_value x; side_value y]
    | UThree x y => free_call p "operator<=>" [side_value x; side_value y]
    end.
End Uses.

(** * The standard *)

(** [optional.ctor] ... [optional.comp.with.t], [optional.specalg], [optional.hash] of the
    standard (with LWG 2762, by which operator* and operator-> are noexcept): noexcept without
    condition, under a condition, or not. *)
Definition std_noexcept (p : payload) (u : use) : bool :=
  match u with
  | UDefault | UNullopt | UDestroy | UAssignNull | UReset => true
  | UHasValue _ | UBool _ | UArrow _ | UDeref _ => true
  | UCompare _ SNull _ | UCompare _ _ SNull | UThree _ SNull | UThree SNull _ => true
  | USwap | UFreeSwap => Smf.t_nmc (pl_traits p) && pl_swappable p
  | UInPlace | UInPlaceList | UConvert _ | UAssignValue | UEmplace | UEmplaceList => false
  | UValue _ | UValueOr _ | UAndThen _ | UTransform _ | UOrElse _ => false
  | UMake | UMakeList | UHash | UCompare _ _ _ | UThree _ _ => false
  end.
(** Is there such an expression at all?  [<=>] is declared with the optional on the left (and
    for std::optional on the left if a workaround is enabled); the compiler finds the other
    orders by itself. *)
Definition is_tiny (s : side) : bool := match s with STiny _ => true | _ => false end.
Definition exists_in_std (u : use) : bool :=
  match u with
  | UCompare _ a b => is_tiny a || is_tiny b
  | UThree a _ => is_tiny a
  | _ => true
  end.

(** * C76 *)

Definition optional_classes : list string := ["TinyOptionalImpl"; "optional"].

(** The declarations in the text are those of the model of C43. *)
Lemma chain_text p :
  chain 8 p "TinyOptionalImpl" = Some (Smf.chain (pl_traits p)) /\
  chain 8 p "optional" = Some (Smf.chain (pl_traits p) ++ [Smf.all_defaulted])%list.
Proof. destruct p as [[[] [] [] [] x y] z]; split; vm_compute; reflexivity. Qed.

(** For all traits of the payload the copy and move operations of an optional exist and are
    noexcept exactly as those of std::optional. *)
Theorem C76_copy_and_move_as_std :
  forall p cls, In cls optional_classes ->
    exists c, members p cls = Some c /\
      let t := pl_traits p in
      Smf.compiles (Smf.copy_construct c) = Smf.std_copy_construct t /\
      Smf.compiles (Smf.move_construct c) = Smf.std_move_construct t /\
      Smf.compiles (Smf.copy_assign c) = Smf.std_copy_assign t /\
      Smf.compiles (Smf.move_assign c) = Smf.std_move_assign t /\
      Smf.nothrow (Smf.copy_construct c) = false /\
      Smf.nothrow (Smf.move_construct c) = Smf.std_nothrow_move_construct t /\
      Smf.nothrow (Smf.copy_assign c) = false /\
      Smf.nothrow (Smf.move_assign c) = Smf.std_nothrow_move_assign t.
Proof.
  intros p cls H. destruct (chain_text p) as (A & B).
  destruct H as [<-|[<-|[]]]; unfold members; [rewrite A|rewrite B]; eexists; (split; [reflexivity|]);
    apply Smf.C43_as_std_optional; [left; reflexivity|right; exists 0; reflexivity].
Qed.

(** Every other function of the API is noexcept exactly when std::optional's is: all
    functions that the expression may call say so, and there is one. *)
Theorem C76_noexcept_as_std :
  forall W (n : ini W) a fo fu fnull i j v o p cls u b,
    In cls optional_classes ->
    In b (noexcept_of n a fo fu fnull i j v o p cls u) -> b = Some (std_noexcept p u).
Proof.
  intros W n a fo fu fnull i j v o p cls u b H.
  assert (F : Forall (fun b => b = Some (std_noexcept p u)) (noexcept_of n a fo fu fnull i j v o p cls u)).
  { destruct H as [<-|[<-|[]]]; destruct u as [| | | |[]| | | | | | | | |[[] []]|[[] []]|[[] []]|[[] []]|[[] []]
      |[[] []]|[[] []]|[[] []]|[[] []]| | | |[] [[[] []]| | |] [[[] []]| | |]|[[[] []]| | |] [[[] []]| | |]];
      vm_compute; repeat constructor. }
  rewrite Forall_forall in F. apply F.
Qed.
Theorem C76_exists :
  forall W (n : ini W) a fo fu fnull i j v o p cls u,
    In cls optional_classes -> exists_in_std u = true ->
    noexcept_of n a fo fu fnull i j v o p cls u <> [].
Proof.
  intros W n a fo fu fnull i j v o p cls u H X.
  destruct H as [<-|[<-|[]]]; destruct u as [| | | |[]| | | | | | | | |[[] []]|[[] []]|[[] []]|[[] []]|[[] []]
      |[[] []]|[[] []]|[[] []]|[[] []]| | | |[] [[[] []]| | |] [[[] []]| | |]|[[[] []]| | |] [[[] []]| | |]];
    first [discriminate X|clear X; vm_compute; discriminate].
Qed.

(** A payload with a throwing move constructor, and one that cannot be copied. *)
Example C76_example :
  let throwing := Payload (Smf.MkTraits true true true true false true) true in
  let unique := Payload (Smf.MkTraits false true false true true true) true in
  option_map Smf.move_construct (members throwing "optional") = Some (Smf.Usable false false) /\
  option_map Smf.move_construct (members unique "optional") = Some (Smf.Usable true false) /\
  option_map Smf.copy_construct (members unique "optional") = Some Smf.Unusable /\
  std_noexcept throwing USwap = false /\ std_noexcept unique USwap = true /\
  std_noexcept throwing UReset = true /\ std_noexcept unique UEmplace = false.
Proof. vm_compute. repeat split. Qed.

Print Assumptions C76_copy_and_move_as_std.
Print Assumptions C76_noexcept_as_std.
Print Assumptions C76_exists.
