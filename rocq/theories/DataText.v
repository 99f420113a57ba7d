(** * DataText: the data, constants and types that the classes of optional.h declare

    Written by tools/cpp2coq.py --data from /repo/include/tiny/optional.h; not edited by
    hand.  Without nested classes and alias templates. *)

From Coq Require Import String List.
From Verif Require Import Syntax TemplateSyntax.
Import ListNotations.
Local Open Scope string_scope.

(** using x = t; t x; an anonymous union; static constexpr ... x = e. *)
Inductive datum : Type :=
| DAlias (x : string) (t : texpr)
| DMember (x : string) (t : texpr)
| DUnion (l : list (string * texpr))
| DStatic (x : string) (e : expr).

(** A class: name, a partial specialisation?, template parameters, base classes, what it
    declares with the #if conditions. *)
Record dclass : Type := DClass {
  d_name : string;
  d_special : bool;
  d_params : list string;
  d_bases : list texpr;
  d_items : list (list string * datum)
}.

(** optional.h:231-247 *)
Definition d231_sentinel_flag_manipulator : dclass :=
  DClass "sentinel_flag_manipulator" false ["PayloadType"; "SentinelValue"] []
    [].

(** optional.h:517-528 *)
Definition d517_SeparateFlagStorage : dclass :=
  DClass "SeparateFlagStorage" false ["PayloadType"] []
    [([], DUnion [("payload", TxApp "std::remove_const_t" [TxName "PayloadType"])]);
     ([], DMember "isEmptyFlag" (TxName "bool"))].

(** optional.h:533-544 *)
Definition d533_InplaceStorage : dclass :=
  DClass "InplaceStorage" false ["PayloadType"] []
    [([], DUnion [("storage", TxApp "std::remove_const_t" [TxName "PayloadType"])])].

(** optional.h:573-587 *)
Definition d573_DecompositionForSeparateFlag : dclass :=
  DClass "DecompositionForSeparateFlag" false ["PayloadType_"] []
    [([], DAlias "PayloadType" (TxName "PayloadType_"));
     ([], DAlias "StoredType" (TxApp "SeparateFlagStorage" [TxName "PayloadType"]))].

(** optional.h:594-608 *)
Definition d594_InplaceStoredTypeDecomposition : dclass :=
  DClass "InplaceStoredTypeDecomposition" false ["PayloadType_"] []
    [([], DAlias "StoredType" (TxApp "InplaceStorage" [TxName "PayloadType_"]));
     ([], DAlias "PayloadType" (TxName "PayloadType_"))].

(** optional.h:624-646 *)
Definition d624_InplaceDecompositionViaMemPtr : dclass :=
  DClass "InplaceDecompositionViaMemPtr" false ["PayloadType_"; "memPtrToIsEmptyFlag"] []
    [(["!defined TINY_OPTIONAL_USE_SEPARATE_BOOL_INSTEAD_OF_MEMBER"], DAlias "StoredType" (TxApp
        "InplaceStorage" [TxName "PayloadType_"]));
     (["!defined TINY_OPTIONAL_USE_SEPARATE_BOOL_INSTEAD_OF_MEMBER"], DAlias "PayloadType"
         (TxName "PayloadType_"))].

(** optional.h:680-701 *)
Definition d680_SeparateFlagManipulator : dclass :=
  DClass "SeparateFlagManipulator" false [] []
    [].

(** optional.h:710-759 *)
Definition d710_MemcpyAndCmpFlagManipulator : dclass :=
  DClass "MemcpyAndCmpFlagManipulator" false ["FlagType"; "SentinelValue"] []
    [([], DStatic "valueToIndicateEmpty" (EName "SentinelValue::value"))].

(** optional.h:766-850 *)
Definition d766_AssignmentFlagManipulator : dclass :=
  DClass "AssignmentFlagManipulator" false ["FlagType"; "SentinelValue"] []
    [([], DStatic "valueToIndicateEmpty" (ECall (EName "ConvertSentinelToFlagType") []))].

(** optional.h:916-1148 *)
Definition d916_StorageBase : dclass :=
  DClass "StorageBase" false ["StoredTypeDecomposition"; "FlagManipulator"] []
    [([], DAlias "StoredType" (TxMem (TxName "StoredTypeDecomposition") "StoredType"));
     ([], DAlias "PayloadType" (TxMem (TxName "StoredTypeDecomposition") "PayloadType"));
     ([], DAlias "FlagType" (TxText
         "std::remove_reference_t<decltype(StoredTypeDecomposition::GetIsEmptyFlag(std::declval<StoredType&>()))>"));
     ([], DStatic "is_compressed" (EBin "==" (ESizeof (EName "StoredType")) (ESizeof (EName
         "PayloadType"))));
     ([], DMember "mStorage" (TxApp "std::remove_const_t" [TxName "StoredType"]))].

(** optional.h:1168-1195 *)
Definition d1168_MoveConstructionBase : dclass :=
  DClass "MoveConstructionBase" false ["StoredTypeDecomposition"; "FlagManipulator"] [TxApp
      "StorageBase" [TxName "StoredTypeDecomposition"; TxName "FlagManipulator"]]
    [([], DAlias "Base" (TxApp "StorageBase" [TxName "StoredTypeDecomposition"; TxName
        "FlagManipulator"]));
     ([], DAlias "PayloadType" (TxMem (TxName "Base") "PayloadType"))].

(** optional.h:1200-1209 *)
Definition d1200_MoveConstructionBase : dclass :=
  DClass "MoveConstructionBase" true ["StoredTypeDecomposition"; "FlagManipulator"] [TxApp
      "StorageBase" [TxName "StoredTypeDecomposition"; TxName "FlagManipulator"]]
    [([], DAlias "Base" (TxApp "StorageBase" [TxName "StoredTypeDecomposition"; TxName
        "FlagManipulator"]))].

(** optional.h:1225-1249 *)
Definition d1225_CopyConstructionBase : dclass :=
  DClass "CopyConstructionBase" false ["StoredTypeDecomposition"; "FlagManipulator"] [TxApp
      "MoveConstructionBase" [TxName "StoredTypeDecomposition"; TxName "FlagManipulator"]]
    [([], DAlias "Base" (TxApp "MoveConstructionBase" [TxName "StoredTypeDecomposition"; TxName
        "FlagManipulator"]));
     ([], DAlias "PayloadType" (TxMem (TxName "Base") "PayloadType"))].

(** optional.h:1254-1263 *)
Definition d1254_CopyConstructionBase : dclass :=
  DClass "CopyConstructionBase" true ["StoredTypeDecomposition"; "FlagManipulator"] [TxApp
      "MoveConstructionBase" [TxName "StoredTypeDecomposition"; TxName "FlagManipulator"]]
    [([], DAlias "Base" (TxApp "MoveConstructionBase" [TxName "StoredTypeDecomposition"; TxName
        "FlagManipulator"]))].

(** optional.h:1280-1309 *)
Definition d1280_MoveAssignmentBase : dclass :=
  DClass "MoveAssignmentBase" false ["StoredTypeDecomposition"; "FlagManipulator"] [TxApp
      "CopyConstructionBase" [TxName "StoredTypeDecomposition"; TxName "FlagManipulator"]]
    [([], DAlias "Base" (TxApp "CopyConstructionBase" [TxName "StoredTypeDecomposition"; TxName
        "FlagManipulator"]));
     ([], DAlias "PayloadType" (TxMem (TxName "Base") "PayloadType"))].

(** optional.h:1314-1325 *)
Definition d1314_MoveAssignmentBase : dclass :=
  DClass "MoveAssignmentBase" true ["StoredTypeDecomposition"; "FlagManipulator"] [TxApp
      "CopyConstructionBase" [TxName "StoredTypeDecomposition"; TxName "FlagManipulator"]]
    [([], DAlias "Base" (TxApp "CopyConstructionBase" [TxName "StoredTypeDecomposition"; TxName
        "FlagManipulator"]))].

(** optional.h:1342-1365 *)
Definition d1342_CopyAssignmentBase : dclass :=
  DClass "CopyAssignmentBase" false ["StoredTypeDecomposition"; "FlagManipulator"] [TxApp
      "MoveAssignmentBase" [TxName "StoredTypeDecomposition"; TxName "FlagManipulator"]]
    [([], DAlias "Base" (TxApp "MoveAssignmentBase" [TxName "StoredTypeDecomposition"; TxName
        "FlagManipulator"]))].

(** optional.h:1370-1382 *)
Definition d1370_CopyAssignmentBase : dclass :=
  DClass "CopyAssignmentBase" true ["StoredTypeDecomposition"; "FlagManipulator"] [TxApp
      "MoveAssignmentBase" [TxName "StoredTypeDecomposition"; TxName "FlagManipulator"]]
    [([], DAlias "Base" (TxApp "MoveAssignmentBase" [TxName "StoredTypeDecomposition"; TxName
        "FlagManipulator"]))].

(** optional.h:1391-1838 *)
Definition d1391_TinyOptionalImpl : dclass :=
  DClass "TinyOptionalImpl" false ["StoredTypeDecomposition"; "FlagManipulator"] [TxApp
      "CopyAssignmentBase" [TxName "StoredTypeDecomposition"; TxName "FlagManipulator"]]
    [([], DAlias "Base" (TxApp "CopyAssignmentBase" [TxName "StoredTypeDecomposition"; TxName
        "FlagManipulator"]));
     ([], DAlias "PayloadType" (TxMem (TxName "Base") "PayloadType"));
     ([], DAlias "value_type" (TxName "PayloadType"));
     ([], DStatic "is_tiny_optional" (EBool true))].

(** optional.h:2199-2271 *)
Definition d2199_optional : dclass :=
  DClass "optional" false ["PayloadType_"; "sentinelOrMemPtr"; "irrelevantOrSentinel"] [TxApp
      "TinyOptionalFromSelection" [TxApp "SelectSentinelValueAndMemPtrFromConstants" [TxName
      "PayloadType_"; TxName "sentinelOrMemPtr"; TxName "irrelevantOrSentinel"]]]
    [([], DAlias "Base" (TxApp "TinyOptionalFromSelection" [TxApp
        "SelectSentinelValueAndMemPtrFromConstants" [TxName "PayloadType_"; TxName
        "sentinelOrMemPtr"; TxName "irrelevantOrSentinel"]]))].

(** All of them. *)
Definition classes_data : list dclass :=
  [d231_sentinel_flag_manipulator;
   d517_SeparateFlagStorage;
   d533_InplaceStorage;
   d573_DecompositionForSeparateFlag;
   d594_InplaceStoredTypeDecomposition;
   d624_InplaceDecompositionViaMemPtr;
   d680_SeparateFlagManipulator;
   d710_MemcpyAndCmpFlagManipulator;
   d766_AssignmentFlagManipulator;
   d916_StorageBase;
   d1168_MoveConstructionBase;
   d1200_MoveConstructionBase;
   d1225_CopyConstructionBase;
   d1254_CopyConstructionBase;
   d1280_MoveAssignmentBase;
   d1314_MoveAssignmentBase;
   d1342_CopyAssignmentBase;
   d1370_CopyAssignmentBase;
   d1391_TinyOptionalImpl;
   d2199_optional].

(** The constructors and conversion functions: class, name, parameters, explicit. *)
Definition conversions : list (string * string * list param * bool) :=
  [("SeparateFlagStorage", "SeparateFlagStorage", [], false);
   ("InplaceStorage", "InplaceStorage", [], false);
   ("StorageBase", "StorageBase", [], false);
   ("StorageBase", "StorageBase", [Param "std::in_place_t" "" false; Param "ArgsT&&" "args"
       true], true);
   ("StorageBase", "StorageBase", [Param "DirectInitializationFromFunctionTag" "" false; Param
       "FuncT&&" "func" false; Param "ArgT&&" "arg" false], false);
   ("StorageBase", "StorageBase", [Param "StorageBase const&" "" false], false);
   ("StorageBase", "StorageBase", [Param "StorageBase&&" "" false], false);
   ("MoveConstructionBase", "MoveConstructionBase", [], false);
   ("MoveConstructionBase", "MoveConstructionBase", [Param "MoveConstructionBase const&" ""
       false], false);
   ("MoveConstructionBase", "MoveConstructionBase", [Param "MoveConstructionBase&&" "rhs"
       false], false);
   ("MoveConstructionBase", "MoveConstructionBase", [], false);
   ("MoveConstructionBase", "MoveConstructionBase", [Param "MoveConstructionBase const&" ""
       false], false);
   ("MoveConstructionBase", "MoveConstructionBase", [Param "MoveConstructionBase&&" "" false],
       false);
   ("CopyConstructionBase", "CopyConstructionBase", [], false);
   ("CopyConstructionBase", "CopyConstructionBase", [Param "CopyConstructionBase&&" "" false],
       false);
   ("CopyConstructionBase", "CopyConstructionBase", [Param "CopyConstructionBase const&" "rhs"
       false], false);
   ("CopyConstructionBase", "CopyConstructionBase", [], false);
   ("CopyConstructionBase", "CopyConstructionBase", [Param "CopyConstructionBase const&" ""
       false], false);
   ("CopyConstructionBase", "CopyConstructionBase", [Param "CopyConstructionBase&&" "" false],
       false);
   ("MoveAssignmentBase", "MoveAssignmentBase", [], false);
   ("MoveAssignmentBase", "MoveAssignmentBase", [Param "MoveAssignmentBase const&" "" false],
       false);
   ("MoveAssignmentBase", "MoveAssignmentBase", [Param "MoveAssignmentBase&&" "" false], false);
   ("MoveAssignmentBase", "MoveAssignmentBase", [], false);
   ("MoveAssignmentBase", "MoveAssignmentBase", [Param "MoveAssignmentBase const&" "" false],
       false);
   ("MoveAssignmentBase", "MoveAssignmentBase", [Param "MoveAssignmentBase&&" "" false], false);
   ("CopyAssignmentBase", "CopyAssignmentBase", [], false);
   ("CopyAssignmentBase", "CopyAssignmentBase", [Param "CopyAssignmentBase&&" "" false], false);
   ("CopyAssignmentBase", "CopyAssignmentBase", [Param "CopyAssignmentBase const&" "" false],
       false);
   ("CopyAssignmentBase", "CopyAssignmentBase", [], false);
   ("CopyAssignmentBase", "CopyAssignmentBase", [Param "CopyAssignmentBase&&" "" false], false);
   ("CopyAssignmentBase", "CopyAssignmentBase", [Param "CopyAssignmentBase const&" "" false],
       false);
   ("TinyOptionalImpl", "TinyOptionalImpl", [], false);
   ("TinyOptionalImpl", "TinyOptionalImpl", [Param "TinyOptionalImpl const&" "" false], false);
   ("TinyOptionalImpl", "TinyOptionalImpl", [Param "TinyOptionalImpl&&" "" false], false);
   ("TinyOptionalImpl", "TinyOptionalImpl", [Param "std::nullopt_t" "" false], false);
   ("TinyOptionalImpl", "TinyOptionalImpl", [Param "std::in_place_t" "" false; Param "ArgsT&&"
       "args" true], true);
   ("TinyOptionalImpl", "TinyOptionalImpl", [Param "std::in_place_t" "" false; Param
       "std::initializer_list<U>" "ilist" false; Param "ArgsT&&" "args" true], true);
   ("TinyOptionalImpl", "TinyOptionalImpl", [Param "DirectInitializationFromFunctionTag" "tag"
       false; Param "FuncT&&" "func" false; Param "ArgT&&" "arg" false], false);
   ("TinyOptionalImpl", "TinyOptionalImpl", [Param "U&&" "v" false], false);
   ("TinyOptionalImpl", "TinyOptionalImpl", [Param "U&&" "v" false], true);
   ("TinyOptionalImpl", "operator bool", [], true);
   ("optional", "optional", [], false);
   ("optional", "optional", [Param "optional const&" "" false], false);
   ("optional", "optional", [Param "optional&&" "" false], false)].
