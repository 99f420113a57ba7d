(** * Library: the deduction guide, make_optional, std::hash and is_tiny_optional_v, as
    syntax trees

    Written by tools/cpp2coq.py --library from /repo/include/tiny/optional.h; not edited by
    hand. *)

From Coq Require Import String List.
From Verif Require Import Syntax TemplateSyntax.
Import ListNotations.
Local Open Scope string_scope.

(** A function template or a deduction guide: name, #if conditions, template parameters
    (class or auto, name, pack?, default), parameters (type or None for the ellipsis, what
    follows the type, pack?, name), return type, statements (None: a guide). *)
Record fdecl : Type := FDecl {
  fd_name : string;
  fd_guard : list string;
  fd_params : list (string * string * bool * option texpr);
  fd_args : list (option texpr * string * bool * string);
  fd_ret : texpr;
  fd_body : option (list stmt)
}.

(** optional.h:253-256 *)
Definition l253_IsTinyOptionalHelper : fdecl :=
  FDecl "IsTinyOptionalHelper" []
    [("class", "U", false, None)]
    [(Some (TxName "U"), "const*", false, "")]
    (TxApp "std::enable_if_t" [TxMem (TxName "U") "is_tiny_optional"; TxName "bool"])
    (Some [
        SReturn (Some (EBool true))]).

(** optional.h:259-262 *)
Definition l259_IsTinyOptionalHelper : fdecl :=
  FDecl "IsTinyOptionalHelper" []
    [("class", "", false, None)]
    [(None, "...", false, "")]
    (TxName "bool")
    (Some [
        SReturn (Some (EBool false))]).

(** optional.h:2276-2276 *)
Definition l2276_optional : fdecl :=
  FDecl "optional" []
    [("class", "T", false, None)]
    [(Some (TxName "T"), "", false, "")]
    (TxApp "optional" [TxName "T"; TxName "UseDefaultValue"; TxName "UseDefaultValue"])
    (None).

(** optional.h:2280-2284 *)
Definition l2280_make_optional : fdecl :=
  FDecl "make_optional" []
    [("class", "PayloadType", false, None); ("auto", "sentinelOrMemPtr", false, Some (TxName
        "UseDefaultValue")); ("auto", "irrelevantOrSentinel", false, Some (TxName
        "UseDefaultValue"))]
    [(Some (TxName "PayloadType"), "&&", false, "v")]
    (TxApp "optional" [TxApp "std::decay_t" [TxName "PayloadType"]; TxName "sentinelOrMemPtr";
        TxName "irrelevantOrSentinel"])
    (Some [
        SReturn (Some (EBrace
            "optional<std::decay_t<PayloadType>,sentinelOrMemPtr,irrelevantOrSentinel>" [ECall
            (EName "std::forward<PayloadType>") [EName "v"]]))]).

(** optional.h:2292-2295 *)
Definition l2292_make_optional : fdecl :=
  FDecl "make_optional" []
    [("class", "PayloadType", false, None); ("auto", "sentinelOrMemPtr", false, Some (TxName
        "UseDefaultValue")); ("auto", "irrelevantOrSentinel", false, Some (TxName
        "UseDefaultValue")); ("class", "ArgsT", true, None)]
    [(Some (TxName "ArgsT"), "&&", true, "args")]
    (TxApp "optional" [TxName "PayloadType"; TxName "sentinelOrMemPtr"; TxName
        "irrelevantOrSentinel"])
    (Some [
        SReturn (Some (EBrace "optional<PayloadType,sentinelOrMemPtr,irrelevantOrSentinel>"
            [EName "std::in_place"; EPack (ECall (EName "std::forward<ArgsT>") [EName
            "args"])]))]).

(** optional.h:2304-2309 *)
Definition l2304_make_optional : fdecl :=
  FDecl "make_optional" []
    [("class", "PayloadType", false, None); ("auto", "sentinelOrMemPtr", false, Some (TxName
        "UseDefaultValue")); ("auto", "irrelevantOrSentinel", false, Some (TxName
        "UseDefaultValue")); ("class", "U", false, None); ("class", "ArgsT", true, None)]
    [(Some (TxApp "std::initializer_list" [TxName "U"]), "", false, "il"); (Some (TxName
        "ArgsT"), "&&", true, "args")]
    (TxApp "optional" [TxName "PayloadType"; TxName "sentinelOrMemPtr"; TxName
        "irrelevantOrSentinel"])
    (Some [
        SReturn (Some (EBrace "optional<PayloadType,sentinelOrMemPtr,irrelevantOrSentinel>"
            [EName "std::in_place"; EName "il"; EPack (ECall (EName "std::forward<ArgsT>")
            [EName "args"])]))]).

(** optional.h:269-269 *)
Definition t269_is_tiny_optional_v : tdef :=
  Template "is_tiny_optional_v" TVariable []
    [("U", false, None)]
    None
    [([], TxText "impl::IsTinyOptionalHelper<U>(nullptr)")]
    [].

(** optional.h:292-292 *)
Definition t292_my_remove_cvref_t : tdef :=
  Template "my_remove_cvref_t" TAlias []
    [("T", false, None)]
    None
    [([], TxApp "std::remove_cv_t" [TxApp "std::remove_reference_t" [TxName "T"]])]
    [].

(** optional.h:314-314 *)
Definition t314_ConditionalIdentity : tdef :=
  Template "ConditionalIdentity" TAlias []
    [("Type", false, None); ("", false, None)]
    None
    [([], TxName "Type")]
    [].

(** optional.h:318-323 *)
Definition t318_EnableHashHelper : tdef :=
  Template "EnableHashHelper" TAlias []
    [("Type", false, None); ("TypeToCheckForHashable", false, None)]
    None
    [([], TxApp "ConditionalIdentity" [TxName "Type"; TxApp "std::enable_if_t" [TxApp
        "std::is_default_constructible_v" [TxApp "std::hash" [TxApp "std::remove_const_t"
        [TxName "TypeToCheckForHashable"]]]]])]
    [].

(** optional.h:329-329 *)
Definition t329_IsStdOptional : tdef :=
  Template "IsStdOptional" TVariable []
    [("T", false, None)]
    None
    [([], TxBool false)]
    [].

(** optional.h:331-331 *)
Definition t331_IsStdOptional : tdef :=
  Template "IsStdOptional" TVariable []
    [("T", false, None)]
    (Some [TxApp "std::optional" [TxName "T"]])
    [([], TxBool true)]
    [].

(** optional.h:335-335 *)
Definition t335_IsSomeOptional : tdef :=
  Template "IsSomeOptional" TVariable []
    [("T", false, None)]
    None
    [([], TxOr (TxApp "is_tiny_optional_v" [TxName "T"]) (TxApp "IsStdOptional" [TxName "T"]))]
    [].

(** optional.h:2779-2790 *)
Definition t2779_hash : tdef :=
  Template "hash" TClass []
    [("StoredTypeDecomposition", false, None); ("FlagManipulator", false, None)]
    (Some [TxApp "EnableHashHelper" [TxApp "TinyOptionalImpl" [TxName "StoredTypeDecomposition";
        TxName "FlagManipulator"]; TxMem (TxName "StoredTypeDecomposition") "PayloadType"]])
    []
    [].

(** optional.h:2794-2805 *)
Definition t2794_hash : tdef :=
  Template "hash" TClass []
    [("PayloadType", false, None); ("sentinelOrMemPtr", false, None); ("irrelevantOrSentinel",
        false, None)]
    (Some [TxApp "EnableHashHelper" [TxApp "optional" [TxName "PayloadType"; TxName
        "sentinelOrMemPtr"; TxName "irrelevantOrSentinel"]; TxName "PayloadType"]])
    []
    [].

Definition declared : list fdecl :=
  [l253_IsTinyOptionalHelper;
   l259_IsTinyOptionalHelper;
   l2276_optional;
   l2280_make_optional;
   l2292_make_optional;
   l2304_make_optional].

Definition library : list tdef :=
  [t269_is_tiny_optional_v;
   t292_my_remove_cvref_t;
   t314_ConditionalIdentity;
   t318_EnableHashHelper;
   t329_IsStdOptional;
   t331_IsStdOptional;
   t335_IsSomeOptional;
   t2779_hash;
   t2794_hash].

(** Classes: template parameters, how they derive from their base class. *)
Definition class_heads : list (string * list (string * string * bool * option texpr) * string) :=
  [("TinyOptionalImpl", [("class", "StoredTypeDecomposition", false, None); ("class",
      "FlagManipulator", false, None)], "private");
   ("optional", [("class", "PayloadType_", false, None); ("auto", "sentinelOrMemPtr", false,
       None); ("auto", "irrelevantOrSentinel", false, None)], "public")].

(** Declarations of is_tiny_optional: class, access, text. *)
Definition markers : list (string * string * string) :=
  [("TinyOptionalImpl", "public", "static constexpr bool is_tiny_optional=true;")].
