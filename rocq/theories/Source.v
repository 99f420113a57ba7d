(** * Source: the text of the functions of optional.h, as syntax trees

    Written by tools/cpp2coq.py from /repo/include/tiny/optional.h; not edited by hand.
    The types are those of [Syntax.v].  Every definition is one function, with its
    lines; nothing is interpreted here. *)

From Coq Require Import String List.
From Verif Require Import Syntax.
Import ListNotations.
Local Open Scope string_scope.

(** optional.h:233-236, sentinel_flag_manipulator *)
Definition f233_is_empty : fundef :=
  Fun "sentinel_flag_manipulator" "is_empty" true
      [Param "PayloadType const&" "payload" false]
      false "" (Some (EBool true))
      (RValue "bool")
      []
      (Body [
        SReturn (Some (EBin "==" (EName "payload") (EName "SentinelValue")))]).

(** optional.h:238-241, sentinel_flag_manipulator *)
Definition f238_init_empty_flag : fundef :=
  Fun "sentinel_flag_manipulator" "init_empty_flag" true
      [Param "PayloadType&" "uninitializedPayloadMemory" false]
      false "" (Some (EBool true))
      (RValue "void")
      []
      (Body [
        SExpr (ENew (EUn "&" (EName "uninitializedPayloadMemory")) "PayloadType" [EName
            "SentinelValue"])]).

(** optional.h:243-246, sentinel_flag_manipulator *)
Definition f243_invalidate_empty_flag : fundef :=
  Fun "sentinel_flag_manipulator" "invalidate_empty_flag" true
      [Param "PayloadType&" "emptyPayload" false]
      false "" (Some (EBool true))
      (RValue "void")
      []
      (Body [
        SExpr (EDtor (EName "emptyPayload") "PayloadType")]).

(** optional.h:578-581, DecompositionForSeparateFlag *)
Definition f578_GetIsEmptyFlag : fundef :=
  Fun "DecompositionForSeparateFlag" "GetIsEmptyFlag" true
      [Param "StoredType&" "v" false]
      false "" (Some (EBool true))
      (RRef false false "bool&")
      []
      (Body [
        SReturn (Some (EMember (EName "v") "isEmptyFlag"))]).

(** optional.h:583-586, DecompositionForSeparateFlag *)
Definition f583_GetPayload : fundef :=
  Fun "DecompositionForSeparateFlag" "GetPayload" true
      [Param "StoredType&" "v" false]
      false "" (Some (EBool true))
      (RRef false false "PayloadType&")
      []
      (Body [
        SReturn (Some (EMember (EName "v") "payload"))]).

(** optional.h:599-602, InplaceStoredTypeDecomposition *)
Definition f599_GetIsEmptyFlag : fundef :=
  Fun "InplaceStoredTypeDecomposition" "GetIsEmptyFlag" true
      [Param "StoredType&" "v" false]
      false "" (Some (EBool true))
      (RRef false false "auto&")
      []
      (Body [
        SReturn (Some (EMember (EName "v") "storage"))]).

(** optional.h:604-607, InplaceStoredTypeDecomposition *)
Definition f604_GetPayload : fundef :=
  Fun "InplaceStoredTypeDecomposition" "GetPayload" true
      [Param "StoredType&" "v" false]
      false "" (Some (EBool true))
      (RRef false false "PayloadType&")
      []
      (Body [
        SReturn (Some (EMember (EName "v") "storage"))]).

(** optional.h:637-640, InplaceDecompositionViaMemPtr; only if !defined TINY_OPTIONAL_USE_SEPARATE_BOOL_INSTEAD_OF_MEMBER *)
Definition f637_GetIsEmptyFlag : fundef :=
  Fun "InplaceDecompositionViaMemPtr" "GetIsEmptyFlag" true
      [Param "StoredType&" "v" false]
      false "" (Some (EBool true))
      (RRef false false "auto&")
      []
      (Body [
        SReturn (Some (EMember (EMember (EName "v") "storage") "*memPtrToIsEmptyFlag"))]).

(** optional.h:642-645, InplaceDecompositionViaMemPtr; only if !defined TINY_OPTIONAL_USE_SEPARATE_BOOL_INSTEAD_OF_MEMBER *)
Definition f642_GetPayload : fundef :=
  Fun "InplaceDecompositionViaMemPtr" "GetPayload" true
      [Param "StoredType&" "v" false]
      false "" (Some (EBool true))
      (RRef false false "PayloadType&")
      []
      (Body [
        SReturn (Some (EMember (EName "v") "storage"))]).

(** optional.h:682-685, SeparateFlagManipulator *)
Definition f682_is_empty : fundef :=
  Fun "SeparateFlagManipulator" "is_empty" true
      [Param "bool" "isEmptyFlag" false]
      false "" (Some (EBool true))
      (RValue "bool")
      []
      (Body [
        SReturn (Some (EName "isEmptyFlag"))]).

(** optional.h:687-693, SeparateFlagManipulator *)
Definition f687_init_empty_flag : fundef :=
  Fun "SeparateFlagManipulator" "init_empty_flag" true
      [Param "bool&" "isEmptyFlag" false]
      false "" (Some (EBool true))
      (RValue "void")
      []
      (Body [
        SExpr (EBin "=" (EName "isEmptyFlag") (EBool true))]).

(** optional.h:695-700, SeparateFlagManipulator *)
Definition f695_invalidate_empty_flag : fundef :=
  Fun "SeparateFlagManipulator" "invalidate_empty_flag" true
      [Param "bool&" "isEmptyFlag" false]
      false "" (Some (EBool true))
      (RValue "void")
      []
      (Body [
        SExpr (EBin "=" (EName "isEmptyFlag") (EBool false))]).

(** optional.h:729-737, MemcpyAndCmpFlagManipulator *)
Definition f729_is_empty : fundef :=
  Fun "MemcpyAndCmpFlagManipulator" "is_empty" true
      [Param "FlagType const&" "isEmptyFlag" false]
      false "" (Some (EBool true))
      (RValue "bool")
      []
      (Body [
        SReturn (Some (EBin "==" (ECall (EName "std::memcmp") [ECast "const_cast" "void*" (ECast
            "static_cast" "void volatile const*" (ECall (EName "std::addressof") [EName
            "isEmptyFlag"])); EUn "&" (EName "valueToIndicateEmpty"); ESizeof (EName
            "valueToIndicateEmpty")]) (ENum 0)))]).

(** optional.h:739-749, MemcpyAndCmpFlagManipulator *)
Definition f739_init_empty_flag : fundef :=
  Fun "MemcpyAndCmpFlagManipulator" "init_empty_flag" true
      [Param "FlagType&" "uninitializedIsEmptyFlagMemory" false]
      false "" (Some (EBool true))
      (RValue "void")
      []
      (Body [
        SExpr (ECall (EName "std::memcpy") [ECast "const_cast" "void*" (ECast "static_cast"
            "void volatile const*" (ECall (EName "std::addressof") [EName
            "uninitializedIsEmptyFlagMemory"])); EUn "&" (EName "valueToIndicateEmpty"); ESizeof
            (EName "valueToIndicateEmpty")])]).

(** optional.h:751-758, MemcpyAndCmpFlagManipulator *)
Definition f751_invalidate_empty_flag : fundef :=
  Fun "MemcpyAndCmpFlagManipulator" "invalidate_empty_flag" true
      [Param "FlagType&" "isEmptyFlag" false]
      false "" (Some (EBool true))
      (RValue "void")
      []
      (Body [
        SExpr (EDtor (EName "isEmptyFlag") "FlagType")]).

(** optional.h:818-830, AssignmentFlagManipulator *)
Definition f818_is_empty : fundef :=
  Fun "AssignmentFlagManipulator" "is_empty" true
      [Param "FlagType const&" "isEmptyFlag" false]
      false "" (Some (EBool true))
      (RValue "bool")
      []
      (Body [
        SStaticAssert (ENoexcept (EBin "==" (EName "isEmptyFlag") (EName
            "valueToIndicateEmpty")));
        SReturn (Some (EBin "==" (EName "isEmptyFlag") (EName "valueToIndicateEmpty")))]).

(** optional.h:832-842, AssignmentFlagManipulator *)
Definition f832_init_empty_flag : fundef :=
  Fun "AssignmentFlagManipulator" "init_empty_flag" true
      [Param "FlagType&" "uninitializedIsEmptyFlagMemory" false]
      false "" (Some (EBool true))
      (RValue "void")
      []
      (Body [
        SStaticAssert (ENoexcept (EBin "=" (EUn "*" (ECast "const_cast"
            "std::remove_cv_t<FlagType>*" (EUn "&" (EName "uninitializedIsEmptyFlagMemory"))))
            (EName "valueToIndicateEmpty")));
        SExpr (ENew (ECast "const_cast" "void*" (ECast "static_cast" "void volatile const*"
            (ECall (EName "std::addressof") [EName "uninitializedIsEmptyFlagMemory"])))
            "FlagType" [EName "valueToIndicateEmpty"])]).

(** optional.h:844-849, AssignmentFlagManipulator *)
Definition f844_invalidate_empty_flag : fundef :=
  Fun "AssignmentFlagManipulator" "invalidate_empty_flag" true
      [Param "FlagType&" "isEmptyFlag" false]
      false "" (Some (EBool true))
      (RValue "void")
      []
      (Body [
        SExpr (EDtor (EName "isEmptyFlag") "FlagType")]).

(** optional.h:955-959, StorageBase *)
Definition f955_StorageBase : fundef :=
  Fun "StorageBase" "StorageBase" false
      []
      false "" (Some (EBool true))
      (RNone)
      []
      (Body [
        SExpr (ECall (EName "FlagManipulator::init_empty_flag") [ECall (EName "GetIsEmptyFlag")
            []]);
        SExpr (ECall (EName "assert") [EUn "!" (ECall (EName "has_value") [])])]).

(** optional.h:962-967, StorageBase *)
Definition f962_StorageBase : fundef :=
  Fun "StorageBase" "StorageBase" false
      [Param "std::in_place_t" "" false; Param "ArgsT&&" "args" true]
      false "explicit" None
      (RNone)
      []
      (Body [
        SExpr (ECall (EName "FlagManipulator::init_empty_flag") [ECall (EName "GetIsEmptyFlag")
            []]);
        SExpr (ECall (EName "ConstructPayload") [EPack (ECall (EName "std::forward<ArgsT>")
            [EName "args"])])]).

(** optional.h:970-975, StorageBase *)
Definition f970_StorageBase : fundef :=
  Fun "StorageBase" "StorageBase" false
      [Param "DirectInitializationFromFunctionTag" "" false; Param "FuncT&&" "func" false; Param
          "ArgT&&" "arg" false]
      false "" None
      (RNone)
      []
      (Body [
        SExpr (ECall (EName "FlagManipulator::init_empty_flag") [ECall (EName "GetIsEmptyFlag")
            []]);
        SExpr (ECall (EName "ConstructPayloadFromFunction") [ECall (EName "std::forward<FuncT>")
            [EName "func"]; ECall (EName "std::forward<ArgT>") [EName "arg"]])]).

(** optional.h:978-983, StorageBase *)
Definition f978_dtor_StorageBase : fundef :=
  Fun "StorageBase" "~StorageBase" false
      []
      false "" (Some (EBool true))
      (RNone)
      []
      (Body [
        SIf false (ECall (EName "has_value") []) [
          SExpr (ECall (EName "DestroyPayload") [])] []]).

(** optional.h:988-988, StorageBase *)
Definition f988_StorageBase : fundef :=
  Fun "StorageBase" "StorageBase" false
      [Param "StorageBase const&" "" false]
      false "" None
      (RNone)
      []
      (Deleted).

(** optional.h:989-989, StorageBase *)
Definition f989_StorageBase : fundef :=
  Fun "StorageBase" "StorageBase" false
      [Param "StorageBase&&" "" false]
      false "" None
      (RNone)
      []
      (Deleted).

(** optional.h:990-990, StorageBase *)
Definition f990_op_assign : fundef :=
  Fun "StorageBase" "operator=" false
      [Param "StorageBase const&" "" false]
      false "" None
      (RRef false false "StorageBase&")
      []
      (Deleted).

(** optional.h:991-991, StorageBase *)
Definition f991_op_assign : fundef :=
  Fun "StorageBase" "operator=" false
      [Param "StorageBase&&" "" false]
      false "" None
      (RRef false false "StorageBase&")
      []
      (Deleted).

(** optional.h:993-996, StorageBase *)
Definition f993_has_value : fundef :=
  Fun "StorageBase" "has_value" false
      []
      true "" (Some (EBool true))
      (RValue "bool")
      []
      (Body [
        SReturn (Some (EUn "!" (ECall (EName "FlagManipulator::is_empty") [ECall (EName
            "GetIsEmptyFlag") []])))]).

(** optional.h:998-1001, StorageBase *)
Definition f998_GetIsEmptyFlag : fundef :=
  Fun "StorageBase" "GetIsEmptyFlag" false
      []
      false "" (Some (EBool true))
      (RRef false false "FlagType&")
      []
      (Body [
        SReturn (Some (ECall (EName "StoredTypeDecomposition::GetIsEmptyFlag") [EMember (EUn "*"
            (EThis)) "mStorage"]))]).

(** optional.h:1003-1006, StorageBase *)
Definition f1003_GetIsEmptyFlag : fundef :=
  Fun "StorageBase" "GetIsEmptyFlag" false
      []
      true "" (Some (EBool true))
      (RRef true false "FlagType const&")
      []
      (Body [
        SReturn (Some (ECall (EMember (ECast "const_cast" "StorageBase&" (EUn "*" (EThis)))
            "GetIsEmptyFlag") []))]).

(** optional.h:1008-1011, StorageBase *)
Definition f1008_GetPayload : fundef :=
  Fun "StorageBase" "GetPayload" false
      []
      false "" (Some (EBool true))
      (RRef false false "PayloadType&")
      []
      (Body [
        SReturn (Some (ECall (EName "StoredTypeDecomposition::GetPayload") [EMember (EUn "*"
            (EThis)) "mStorage"]))]).

(** optional.h:1013-1016, StorageBase *)
Definition f1013_GetPayload : fundef :=
  Fun "StorageBase" "GetPayload" false
      []
      true "" (Some (EBool true))
      (RRef true false "PayloadType const&")
      []
      (Body [
        SReturn (Some (ECall (EMember (ECast "const_cast" "StorageBase&" (EUn "*" (EThis)))
            "GetPayload") []))]).

(** optional.h:1018-1021, StorageBase *)
Definition f1018_DestroyPayload : fundef :=
  Fun "StorageBase" "DestroyPayload" false
      []
      false "" (Some (EBool true))
      (RValue "void")
      []
      (Body [
        SExpr (EDtor (ECall (EName "GetPayload") []) "PayloadType")]).

(** optional.h:1026-1029, InitializeIsEmptyFlagScope *)
Definition f1026_InitializeIsEmptyFlagScope : fundef :=
  Fun "InitializeIsEmptyFlagScope" "InitializeIsEmptyFlagScope" false
      [Param "StorageBase&" "opt" false]
      false "explicit" (Some (EBool true))
      (RNone)
      [("opt", [EName "opt"])]
      (Body []).

(** optional.h:1031-1036, InitializeIsEmptyFlagScope *)
Definition f1031_dtor_InitializeIsEmptyFlagScope : fundef :=
  Fun "InitializeIsEmptyFlagScope" "~InitializeIsEmptyFlagScope" false
      []
      false "" (Some (EBool true))
      (RNone)
      []
      (Body [
        SIf false (EUn "!" (EName "doNotInitialize")) [
          SExpr (ECall (EName "FlagManipulator::init_empty_flag") [ECall (EMember (EName "opt")
              "GetIsEmptyFlag") []])] []]).

(** optional.h:1044-1080, StorageBase *)
Definition f1044_ConstructPayload : fundef :=
  Fun "StorageBase" "ConstructPayload" false
      [Param "ArgsT&&" "args" true]
      false "" (Some (EName "std::is_nothrow_constructible_v<PayloadType,ArgsT...>"))
      (RValue "void")
      []
      (Body [
        SExpr (ECall (EName "assert") [EUn "!" (ECall (EName "has_value") [])]);
        SExpr (ECall (EName "FlagManipulator::invalidate_empty_flag") [ECall (EName
            "GetIsEmptyFlag") []]);
        SIf true (EName "std::is_nothrow_constructible_v<PayloadType,ArgsT...>") [
          SExpr (ENew (ECast "const_cast" "void*" (ECast "static_cast" "void volatile const*"
              (ECall (EName "std::addressof") [ECall (EName "GetPayload") []]))) "PayloadType"
              [EPack (ECall (EName "std::forward<ArgsT>") [EName "args"])])] [
          SDecl "InitializeIsEmptyFlagScope" "initScope" [EUn "*" (EThis)];
          SExpr (ENew (ECast "const_cast" "void*" (ECast "static_cast" "void volatile const*"
              (ECall (EName "std::addressof") [ECall (EName "GetPayload") []]))) "PayloadType"
              [EPack (ECall (EName "std::forward<ArgsT>") [EName "args"])]);
          SExpr (EBin "=" (EMember (EName "initScope") "doNotInitialize") (EBool true))];
        SExpr (ECall (EName "assert") [EBin "&&" (ECall (EName "has_value") []) (EStr)])]).

(** optional.h:1084-1114, StorageBase *)
Definition f1084_ConstructPayloadFromFunction : fundef :=
  Fun "StorageBase" "ConstructPayloadFromFunction" false
      [Param "FuncT&&" "func" false; Param "ArgT&&" "arg" false]
      false "" (Some (EName
          "std::is_nothrow_constructible_v<PayloadType,std::invoke_result_t<FuncT,ArgT>>"))
      (RValue "void")
      []
      (Body [
        SExpr (ECall (EName "assert") [EUn "!" (ECall (EName "has_value") [])]);
        SExpr (ECall (EName "FlagManipulator::invalidate_empty_flag") [ECall (EName
            "GetIsEmptyFlag") []]);
        SIf true (EName
            "std::is_nothrow_constructible_v<PayloadType,std::invoke_result_t<FuncT,ArgT>>") [
          SExpr (ENew (ECast "const_cast" "void*" (ECast "static_cast" "void volatile const*"
              (ECall (EName "std::addressof") [ECall (EName "GetPayload") []]))) "PayloadType"
              [ECall (EName "std::invoke") [ECall (EName "std::forward<FuncT>") [EName "func"];
              ECall (EName "std::forward<ArgT>") [EName "arg"]]])] [
          SDecl "InitializeIsEmptyFlagScope" "initScope" [EUn "*" (EThis)];
          SExpr (ENew (ECast "const_cast" "void*" (ECast "static_cast" "void volatile const*"
              (ECall (EName "std::addressof") [ECall (EName "GetPayload") []]))) "PayloadType"
              [ECall (EName "std::invoke") [ECall (EName "std::forward<FuncT>") [EName "func"];
              ECall (EName "std::forward<ArgT>") [EName "arg"]]]);
          SExpr (EBin "=" (EMember (EName "initScope") "doNotInitialize") (EBool true))];
        SExpr (ECall (EName "assert") [EBin "&&" (ECall (EName "has_value") []) (EStr)])]).

(** optional.h:1118-1133, StorageBase *)
Definition f1118_AssignValue : fundef :=
  Fun "StorageBase" "AssignValue" false
      [Param "T&&" "v" false]
      false "" None
      (RValue "void")
      []
      (Body [
        SIf false (ECall (EName "has_value") []) [
          SExpr (EBin "=" (ECall (EName "GetPayload") []) (ECall (EName "std::forward<T>")
              [EName "v"]))] [
          SExpr (ECall (EName "ConstructPayload") [ECall (EName "std::forward<T>") [EName
              "v"]])];
        SExpr (ECall (EName "assert") [EBin "&&" (ECall (EName "has_value") []) (EStr)])]).

(** optional.h:1136-1143, StorageBase *)
Definition f1136_reset : fundef :=
  Fun "StorageBase" "reset" false
      []
      false "" (Some (EBool true))
      (RValue "void")
      []
      (Body [
        SIf false (ECall (EName "has_value") []) [
          SExpr (ECall (EMember (EUn "*" (EThis)) "DestroyPayload") []);
          SExpr (ECall (EName "FlagManipulator::init_empty_flag") [ECall (EName
              "GetIsEmptyFlag") []]);
          SExpr (ECall (EName "assert") [EUn "!" (ECall (EName "has_value") [])])] []]).

(** optional.h:1175-1175, MoveConstructionBase *)
Definition f1175_MoveConstructionBase : fundef :=
  Fun "MoveConstructionBase" "MoveConstructionBase" false
      []
      false "" None
      (RNone)
      []
      (Defaulted).

(** optional.h:1176-1176, MoveConstructionBase *)
Definition f1176_MoveConstructionBase : fundef :=
  Fun "MoveConstructionBase" "MoveConstructionBase" false
      [Param "MoveConstructionBase const&" "" false]
      false "" None
      (RNone)
      []
      (Defaulted).

(** optional.h:1179-1194, MoveConstructionBase *)
Definition f1179_MoveConstructionBase : fundef :=
  Fun "MoveConstructionBase" "MoveConstructionBase" false
      [Param "MoveConstructionBase&&" "rhs" false]
      false "" (Some (EName "std::is_nothrow_move_constructible_v<PayloadType>"))
      (RNone)
      [("Base", [])]
      (Body [
        SIf false (ECall (EMember (EName "rhs") "has_value") []) [
          SExpr (ECall (EMember (EUn "*" (EThis)) "ConstructPayload") [ECall (EName "std::move")
              [ECall (EMember (EName "rhs") "GetPayload") []]])] [
          SExpr (ECall (EName "assert") [EUn "!" (ECall (EMember (EUn "*" (EThis)) "has_value")
              [])])];
        SExpr (ECall (EName "assert") [EBin "==" (ECall (EMember (EUn "*" (EThis)) "has_value")
            []) (ECall (EMember (EName "rhs") "has_value") [])])]).

(** optional.h:1232-1232, CopyConstructionBase *)
Definition f1232_CopyConstructionBase : fundef :=
  Fun "CopyConstructionBase" "CopyConstructionBase" false
      []
      false "" None
      (RNone)
      []
      (Defaulted).

(** optional.h:1233-1233, CopyConstructionBase *)
Definition f1233_CopyConstructionBase : fundef :=
  Fun "CopyConstructionBase" "CopyConstructionBase" false
      [Param "CopyConstructionBase&&" "" false]
      false "" None
      (RNone)
      []
      (Defaulted).

(** optional.h:1236-1248, CopyConstructionBase *)
Definition f1236_CopyConstructionBase : fundef :=
  Fun "CopyConstructionBase" "CopyConstructionBase" false
      [Param "CopyConstructionBase const&" "rhs" false]
      false "" None
      (RNone)
      [("Base", [])]
      (Body [
        SIf false (ECall (EMember (EName "rhs") "has_value") []) [
          SExpr (ECall (EMember (EUn "*" (EThis)) "ConstructPayload") [ECall (EMember (EName
              "rhs") "GetPayload") []])] [
          SExpr (ECall (EName "assert") [EUn "!" (ECall (EMember (EUn "*" (EThis)) "has_value")
              [])])];
        SExpr (ECall (EName "assert") [EBin "==" (ECall (EMember (EUn "*" (EThis)) "has_value")
            []) (ECall (EMember (EName "rhs") "has_value") [])])]).

(** optional.h:1287-1287, MoveAssignmentBase *)
Definition f1287_MoveAssignmentBase : fundef :=
  Fun "MoveAssignmentBase" "MoveAssignmentBase" false
      []
      false "" None
      (RNone)
      []
      (Defaulted).

(** optional.h:1288-1288, MoveAssignmentBase *)
Definition f1288_MoveAssignmentBase : fundef :=
  Fun "MoveAssignmentBase" "MoveAssignmentBase" false
      [Param "MoveAssignmentBase const&" "" false]
      false "" None
      (RNone)
      []
      (Defaulted).

(** optional.h:1289-1289, MoveAssignmentBase *)
Definition f1289_MoveAssignmentBase : fundef :=
  Fun "MoveAssignmentBase" "MoveAssignmentBase" false
      [Param "MoveAssignmentBase&&" "" false]
      false "" None
      (RNone)
      []
      (Defaulted).

(** optional.h:1290-1290, MoveAssignmentBase *)
Definition f1290_op_assign : fundef :=
  Fun "MoveAssignmentBase" "operator=" false
      [Param "MoveAssignmentBase const&" "" false]
      false "" None
      (RRef false false "MoveAssignmentBase&")
      []
      (Defaulted).

(** optional.h:1293-1308, MoveAssignmentBase *)
Definition f1293_op_assign : fundef :=
  Fun "MoveAssignmentBase" "operator=" false
      [Param "MoveAssignmentBase&&" "rhs" false]
      false "" (Some (EBin "&&" (EName "std::is_nothrow_move_assignable_v<PayloadType>") (EName
          "std::is_nothrow_move_constructible_v<PayloadType>")))
      (RRef false false "MoveAssignmentBase&")
      []
      (Body [
        SIf false (ECall (EMember (EName "rhs") "has_value") []) [
          SExpr (ECall (EMember (EUn "*" (EThis)) "AssignValue") [ECall (EName "std::move")
              [ECall (EMember (EName "rhs") "GetPayload") []]])] [
          SExpr (ECall (EMember (EUn "*" (EThis)) "reset") [])];
        SExpr (ECall (EName "assert") [EBin "==" (ECall (EMember (EUn "*" (EThis)) "has_value")
            []) (ECall (EMember (EName "rhs") "has_value") [])]);
        SReturn (Some (EUn "*" (EThis)))]).

(** optional.h:1347-1347, CopyAssignmentBase *)
Definition f1347_CopyAssignmentBase : fundef :=
  Fun "CopyAssignmentBase" "CopyAssignmentBase" false
      []
      false "" None
      (RNone)
      []
      (Defaulted).

(** optional.h:1348-1348, CopyAssignmentBase *)
Definition f1348_CopyAssignmentBase : fundef :=
  Fun "CopyAssignmentBase" "CopyAssignmentBase" false
      [Param "CopyAssignmentBase&&" "" false]
      false "" None
      (RNone)
      []
      (Defaulted).

(** optional.h:1349-1349, CopyAssignmentBase *)
Definition f1349_CopyAssignmentBase : fundef :=
  Fun "CopyAssignmentBase" "CopyAssignmentBase" false
      [Param "CopyAssignmentBase const&" "" false]
      false "" None
      (RNone)
      []
      (Defaulted).

(** optional.h:1350-1350, CopyAssignmentBase *)
Definition f1350_op_assign : fundef :=
  Fun "CopyAssignmentBase" "operator=" false
      [Param "CopyAssignmentBase&&" "" false]
      false "" None
      (RRef false false "CopyAssignmentBase&")
      []
      (Defaulted).

(** optional.h:1353-1364, CopyAssignmentBase *)
Definition f1353_op_assign : fundef :=
  Fun "CopyAssignmentBase" "operator=" false
      [Param "CopyAssignmentBase const&" "rhs" false]
      false "" None
      (RRef false false "CopyAssignmentBase&")
      []
      (Body [
        SIf false (ECall (EMember (EName "rhs") "has_value") []) [
          SExpr (ECall (EMember (EUn "*" (EThis)) "AssignValue") [ECall (EMember (EName "rhs")
              "GetPayload") []])] [
          SExpr (ECall (EMember (EUn "*" (EThis)) "reset") [])];
        SExpr (ECall (EName "assert") [EBin "==" (ECall (EMember (EUn "*" (EThis)) "has_value")
            []) (ECall (EMember (EName "rhs") "has_value") [])]);
        SReturn (Some (EUn "*" (EThis)))]).

(** optional.h:1441-1441, TinyOptionalImpl *)
Definition f1441_TinyOptionalImpl : fundef :=
  Fun "TinyOptionalImpl" "TinyOptionalImpl" false
      []
      false "" None
      (RNone)
      []
      (Defaulted).

(** optional.h:1442-1442, TinyOptionalImpl *)
Definition f1442_TinyOptionalImpl : fundef :=
  Fun "TinyOptionalImpl" "TinyOptionalImpl" false
      [Param "TinyOptionalImpl const&" "" false]
      false "" None
      (RNone)
      []
      (Defaulted).

(** optional.h:1443-1443, TinyOptionalImpl *)
Definition f1443_TinyOptionalImpl : fundef :=
  Fun "TinyOptionalImpl" "TinyOptionalImpl" false
      [Param "TinyOptionalImpl&&" "" false]
      false "" None
      (RNone)
      []
      (Defaulted).

(** optional.h:1444-1444, TinyOptionalImpl *)
Definition f1444_op_assign : fundef :=
  Fun "TinyOptionalImpl" "operator=" false
      [Param "TinyOptionalImpl const&" "" false]
      false "" None
      (RRef false false "TinyOptionalImpl&")
      []
      (Defaulted).

(** optional.h:1445-1445, TinyOptionalImpl *)
Definition f1445_op_assign : fundef :=
  Fun "TinyOptionalImpl" "operator=" false
      [Param "TinyOptionalImpl&&" "" false]
      false "" None
      (RRef false false "TinyOptionalImpl&")
      []
      (Defaulted).

(** optional.h:1446-1446, TinyOptionalImpl *)
Definition f1446_dtor_TinyOptionalImpl : fundef :=
  Fun "TinyOptionalImpl" "~TinyOptionalImpl" false
      []
      false "" (Some (EBool true))
      (RNone)
      []
      (Defaulted).

(** optional.h:1449-1452, TinyOptionalImpl *)
Definition f1449_TinyOptionalImpl : fundef :=
  Fun "TinyOptionalImpl" "TinyOptionalImpl" false
      [Param "std::nullopt_t" "" false]
      false "" (Some (EBool true))
      (RNone)
      [("TinyOptionalImpl", [])]
      (Body []).

(** optional.h:1456-1459, TinyOptionalImpl *)
Definition f1456_TinyOptionalImpl : fundef :=
  Fun "TinyOptionalImpl" "TinyOptionalImpl" false
      [Param "std::in_place_t" "" false; Param "ArgsT&&" "args" true]
      false "explicit" None
      (RNone)
      [("Base", [EName "std::in_place"; EPack (ECall (EName "std::forward<ArgsT>") [EName
          "args"])])]
      (Body []).

(** optional.h:1466-1469, TinyOptionalImpl *)
Definition f1466_TinyOptionalImpl : fundef :=
  Fun "TinyOptionalImpl" "TinyOptionalImpl" false
      [Param "std::in_place_t" "" false; Param "std::initializer_list<U>" "ilist" false; Param
          "ArgsT&&" "args" true]
      false "explicit" None
      (RNone)
      [("Base", [EName "std::in_place"; EName "ilist"; EPack (ECall (EName
          "std::forward<ArgsT>") [EName "args"])])]
      (Body []).

(** optional.h:1474-1477, TinyOptionalImpl *)
Definition f1474_TinyOptionalImpl : fundef :=
  Fun "TinyOptionalImpl" "TinyOptionalImpl" false
      [Param "DirectInitializationFromFunctionTag" "tag" false; Param "FuncT&&" "func" false;
          Param "ArgT&&" "arg" false]
      false "" None
      (RNone)
      [("Base", [EName "tag"; ECall (EName "std::forward<FuncT>") [EName "func"]; ECall (EName
          "std::forward<ArgT>") [EName "arg"]])]
      (Body []).

(** optional.h:1484-1487, TinyOptionalImpl *)
Definition f1484_TinyOptionalImpl : fundef :=
  Fun "TinyOptionalImpl" "TinyOptionalImpl" false
      [Param "U&&" "v" false]
      false "" None
      (RNone)
      [("Base", [EName "std::in_place"; ECall (EName "std::forward<U>") [EName "v"]])]
      (Body []).

(** optional.h:1493-1496, TinyOptionalImpl *)
Definition f1493_TinyOptionalImpl : fundef :=
  Fun "TinyOptionalImpl" "TinyOptionalImpl" false
      [Param "U&&" "v" false]
      false "explicit" None
      (RNone)
      [("Base", [EName "std::in_place"; ECall (EName "std::forward<U>") [EName "v"]])]
      (Body []).

(** optional.h:1517-1521, TinyOptionalImpl *)
Definition f1517_op_assign : fundef :=
  Fun "TinyOptionalImpl" "operator=" false
      [Param "std::nullopt_t" "" false]
      false "" (Some (EBool true))
      (RRef false false "TinyOptionalImpl&")
      []
      (Body [
        SExpr (ECall (EName "reset") []);
        SReturn (Some (EUn "*" (EThis)))]).

(** optional.h:1525-1529, TinyOptionalImpl *)
Definition f1525_op_assign : fundef :=
  Fun "TinyOptionalImpl" "operator=" false
      [Param "U&&" "v" false]
      false "" None
      (RRef false false "TinyOptionalImpl&")
      []
      (Body [
        SExpr (ECall (EMember (EUn "*" (EThis)) "AssignValue") [ECall (EName "std::forward<U>")
            [EName "v"]]);
        SReturn (Some (EUn "*" (EThis)))]).

(** optional.h:1533-1539, TinyOptionalImpl *)
Definition f1533_emplace : fundef :=
  Fun "TinyOptionalImpl" "emplace" false
      [Param "ArgsT&&" "args" true]
      false "" None
      (RRef false false "PayloadType&")
      []
      (Body [
        SExpr (ECall (EName "reset") []);
        SExpr (ECall (EName "ConstructPayload") [EPack (ECall (EName "std::forward<ArgsT>")
            [EName "args"])]);
        SExpr (ECall (EName "assert") [ECall (EName "has_value") []]);
        SReturn (Some (ECall (EName "GetPayload") []))]).

(** optional.h:1546-1552, TinyOptionalImpl *)
Definition f1546_emplace : fundef :=
  Fun "TinyOptionalImpl" "emplace" false
      [Param "std::initializer_list<U>" "ilist" false; Param "ArgsT&&" "args" true]
      false "" None
      (RRef false false "PayloadType&")
      []
      (Body [
        SExpr (ECall (EName "reset") []);
        SExpr (ECall (EName "ConstructPayload") [EName "ilist"; EPack (ECall (EName
            "std::forward<ArgsT>") [EName "args"])]);
        SExpr (ECall (EName "assert") [ECall (EName "has_value") []]);
        SReturn (Some (ECall (EName "GetPayload") []))]).

(** optional.h:1555-1558, TinyOptionalImpl *)
Definition f1555_op_bool : fundef :=
  Fun "TinyOptionalImpl" "operator bool" false
      []
      true "" (Some (EBool true))
      (RValue "bool")
      []
      (Body [
        SReturn (Some (ECall (EName "has_value") []))]).

(** optional.h:1561-1565, TinyOptionalImpl *)
Definition f1561_op_arrow : fundef :=
  Fun "TinyOptionalImpl" "operator->" false
      []
      false "" (Some (EBool true))
      (RValue "PayloadType*")
      []
      (Body [
        SExpr (ECall (EName "assert") [EBin "&&" (ECall (EName "has_value") []) (EStr)]);
        SReturn (Some (ECall (EName "std::addressof") [ECall (EName "GetPayload") []]))]).

(** optional.h:1567-1571, TinyOptionalImpl *)
Definition f1567_op_arrow : fundef :=
  Fun "TinyOptionalImpl" "operator->" false
      []
      true "" (Some (EBool true))
      (RValue "PayloadType const*")
      []
      (Body [
        SExpr (ECall (EName "assert") [EBin "&&" (ECall (EName "has_value") []) (EStr)]);
        SReturn (Some (ECall (EName "std::addressof") [ECall (EName "GetPayload") []]))]).

(** optional.h:1574-1578, TinyOptionalImpl *)
Definition f1574_op_deref : fundef :=
  Fun "TinyOptionalImpl" "operator*" false
      []
      false "&" (Some (EBool true))
      (RRef false false "PayloadType&")
      []
      (Body [
        SExpr (ECall (EName "assert") [EBin "&&" (ECall (EName "has_value") []) (EStr)]);
        SReturn (Some (ECall (EName "GetPayload") []))]).

(** optional.h:1580-1584, TinyOptionalImpl *)
Definition f1580_op_deref : fundef :=
  Fun "TinyOptionalImpl" "operator*" false
      []
      true "&" (Some (EBool true))
      (RRef true false "PayloadType const&")
      []
      (Body [
        SExpr (ECall (EName "assert") [EBin "&&" (ECall (EName "has_value") []) (EStr)]);
        SReturn (Some (ECall (EName "GetPayload") []))]).

(** optional.h:1586-1590, TinyOptionalImpl *)
Definition f1586_op_deref : fundef :=
  Fun "TinyOptionalImpl" "operator*" false
      []
      false "&&" (Some (EBool true))
      (RRef false true "PayloadType&&")
      []
      (Body [
        SExpr (ECall (EName "assert") [EBin "&&" (ECall (EName "has_value") []) (EStr)]);
        SReturn (Some (ECall (EName "std::move") [ECall (EName "GetPayload") []]))]).

(** optional.h:1592-1596, TinyOptionalImpl *)
Definition f1592_op_deref : fundef :=
  Fun "TinyOptionalImpl" "operator*" false
      []
      true "&&" (Some (EBool true))
      (RRef true true "PayloadType const&&")
      []
      (Body [
        SExpr (ECall (EName "assert") [EBin "&&" (ECall (EName "has_value") []) (EStr)]);
        SReturn (Some (ECall (EName "std::move") [ECall (EName "GetPayload") []]))]).

(** optional.h:1599-1605, TinyOptionalImpl *)
Definition f1599_value : fundef :=
  Fun "TinyOptionalImpl" "value" false
      []
      false "&" None
      (RRef false false "PayloadType&")
      []
      (Body [
        SIf false (EUn "!" (ECall (EName "has_value") [])) [
          SExpr (EThrow (EBrace "std::bad_optional_access" []))] [];
        SReturn (Some (ECall (EName "GetPayload") []))]).

(** optional.h:1607-1613, TinyOptionalImpl *)
Definition f1607_value : fundef :=
  Fun "TinyOptionalImpl" "value" false
      []
      true "&" None
      (RRef true false "PayloadType const&")
      []
      (Body [
        SIf false (EUn "!" (ECall (EName "has_value") [])) [
          SExpr (EThrow (EBrace "std::bad_optional_access" []))] [];
        SReturn (Some (ECall (EName "GetPayload") []))]).

(** optional.h:1615-1621, TinyOptionalImpl *)
Definition f1615_value : fundef :=
  Fun "TinyOptionalImpl" "value" false
      []
      false "&&" None
      (RRef false true "PayloadType&&")
      []
      (Body [
        SIf false (EUn "!" (ECall (EName "has_value") [])) [
          SExpr (EThrow (EBrace "std::bad_optional_access" []))] [];
        SReturn (Some (ECall (EName "std::move") [ECall (EName "GetPayload") []]))]).

(** optional.h:1623-1629, TinyOptionalImpl *)
Definition f1623_value : fundef :=
  Fun "TinyOptionalImpl" "value" false
      []
      true "&&" None
      (RRef true true "PayloadType const&&")
      []
      (Body [
        SIf false (EUn "!" (ECall (EName "has_value") [])) [
          SExpr (EThrow (EBrace "std::bad_optional_access" []))] [];
        SReturn (Some (ECall (EName "std::move") [ECall (EName "GetPayload") []]))]).

(** optional.h:1633-1641, TinyOptionalImpl *)
Definition f1633_value_or : fundef :=
  Fun "TinyOptionalImpl" "value_or" false
      [Param "U&&" "defaultValue" false]
      true "&" None
      (RValue "std::remove_cv_t<PayloadType>")
      []
      (Body [
        SStaticAssert (EName "std::is_copy_constructible_v<PayloadType>");
        SStaticAssert (EName "std::is_convertible_v<U,PayloadType>");
        SReturn (Some (ECond (ECall (EName "has_value") []) (ECall (EName "GetPayload") [])
            (ECast "static_cast" "std::remove_cv_t<PayloadType>" (ECall (EName
            "std::forward<U>") [EName "defaultValue"]))))]).

(** optional.h:1644-1653, TinyOptionalImpl *)
Definition f1644_value_or : fundef :=
  Fun "TinyOptionalImpl" "value_or" false
      [Param "U&&" "defaultValue" false]
      false "&&" None
      (RValue "std::remove_cv_t<PayloadType>")
      []
      (Body [
        SStaticAssert (EName "std::is_move_constructible_v<PayloadType>");
        SStaticAssert (EName "std::is_convertible_v<U,PayloadType>");
        SReturn (Some (ECond (ECall (EName "has_value") []) (ECall (EName "std::move") [ECall
            (EName "GetPayload") []]) (ECast "static_cast" "std::remove_cv_t<PayloadType>"
            (ECall (EName "std::forward<U>") [EName "defaultValue"]))))]).

(** optional.h:1656-1678, TinyOptionalImpl *)
Definition f1656_swap : fundef :=
  Fun "TinyOptionalImpl" "swap" false
      [Param "TinyOptionalImpl&" "other" false]
      false "" (Some (EBin "&&" (EName "std::is_nothrow_move_constructible_v<PayloadType>")
          (EName "std::is_nothrow_swappable_v<PayloadType>")))
      (RValue "void")
      []
      (Body [
        SStaticAssert (EBin "&&" (EName "std::is_move_constructible_v<PayloadType>") (EName
            "std::is_swappable_v<PayloadType>"));
        SDecl "bool const" "thisHasValue" [ECall (EName "has_value") []];
        SIf false (EBin "==" (EName "thisHasValue") (ECall (EMember (EName "other") "has_value")
            [])) [
          SIf false (EName "thisHasValue") [
            SUsing "swap" "std::swap";
            SExpr (ECall (EName "swap") [ECall (EName "GetPayload") []; ECall (EMember (EName
                "other") "GetPayload") []])] []] [
          SIf false (EName "thisHasValue") [
            SExpr (ECall (EMember (EName "other") "ConstructPayload") [ECall (EName "std::move")
                [ECall (EName "GetPayload") []]]);
            SExpr (ECall (EName "reset") [])] [
            SExpr (ECall (EName "ConstructPayload") [ECall (EName "std::move") [ECall (EMember
                (EName "other") "GetPayload") []]]);
            SExpr (ECall (EMember (EName "other") "reset") [])]]]).

(** optional.h:1682-1692, TinyOptionalImpl *)
Definition f1682_and_then : fundef :=
  Fun "TinyOptionalImpl" "and_then" false
      [Param "F&&" "f" false]
      false "&" None
      (RValue "auto")
      []
      (Body [
        SUsing "ReturnTypeOfF" "my_remove_cvref_t<std::invoke_result_t<F,PayloadType&>>";
        SStaticAssert (EName "IsSomeOptional<ReturnTypeOfF>");
        SIf false (ECall (EName "has_value") []) [
          SReturn (Some (ECall (EName "std::invoke") [ECall (EName "std::forward<F>") [EName
              "f"]; EUn "*" (EUn "*" (EThis))]))] [
          SReturn (Some (ECall (EName "ReturnTypeOfF") []))]]).

(** optional.h:1695-1705, TinyOptionalImpl *)
Definition f1695_and_then : fundef :=
  Fun "TinyOptionalImpl" "and_then" false
      [Param "F&&" "f" false]
      true "&" None
      (RValue "auto")
      []
      (Body [
        SUsing "ReturnTypeOfF" "my_remove_cvref_t<std::invoke_result_t<F,PayloadType const&>>";
        SStaticAssert (EName "IsSomeOptional<ReturnTypeOfF>");
        SIf false (ECall (EName "has_value") []) [
          SReturn (Some (ECall (EName "std::invoke") [ECall (EName "std::forward<F>") [EName
              "f"]; EUn "*" (EUn "*" (EThis))]))] [
          SReturn (Some (ECall (EName "ReturnTypeOfF") []))]]).

(** optional.h:1708-1718, TinyOptionalImpl *)
Definition f1708_and_then : fundef :=
  Fun "TinyOptionalImpl" "and_then" false
      [Param "F&&" "f" false]
      false "&&" None
      (RValue "auto")
      []
      (Body [
        SUsing "ReturnTypeOfF" "my_remove_cvref_t<std::invoke_result_t<F,PayloadType>>";
        SStaticAssert (EName "IsSomeOptional<ReturnTypeOfF>");
        SIf false (ECall (EName "has_value") []) [
          SReturn (Some (ECall (EName "std::invoke") [ECall (EName "std::forward<F>") [EName
              "f"]; ECall (EName "std::move") [EUn "*" (EUn "*" (EThis))]]))] [
          SReturn (Some (ECall (EName "ReturnTypeOfF") []))]]).

(** optional.h:1721-1731, TinyOptionalImpl *)
Definition f1721_and_then : fundef :=
  Fun "TinyOptionalImpl" "and_then" false
      [Param "F&&" "f" false]
      true "&&" None
      (RValue "auto")
      []
      (Body [
        SUsing "ReturnTypeOfF" "my_remove_cvref_t<std::invoke_result_t<F,PayloadType const>>";
        SStaticAssert (EName "IsSomeOptional<ReturnTypeOfF>");
        SIf false (ECall (EName "has_value") []) [
          SReturn (Some (ECall (EName "std::invoke") [ECall (EName "std::forward<F>") [EName
              "f"]; ECall (EName "std::move") [EUn "*" (EUn "*" (EThis))]]))] [
          SReturn (Some (ECall (EName "ReturnTypeOfF") []))]]).

(** optional.h:1734-1754, TinyOptionalImpl *)
Definition f1734_transform : fundef :=
  Fun "TinyOptionalImpl" "transform" false
      [Param "F&&" "f" false]
      false "&" None
      (RValue "auto")
      []
      (Body [
        SUsing "U" "std::remove_cv_t<std::invoke_result_t<F,PayloadType&>>";
        SStaticAssert (EUn "!" (EName "std::is_same_v<U,std::nullopt_t>"));
        SStaticAssert (EUn "!" (EName "std::is_same_v<U,std::in_place_t>"));
        SStaticAssert (EBin "&&" (EName "std::is_object_v<U>") (EUn "!" (EName
            "std::is_array_v<U>")));
        SIf false (ECall (EName "has_value") []) [
          SReturn (Some (ECall (EName "::tiny::optional<U>") [EBrace
              "DirectInitializationFromFunctionTag" []; ECall (EName "std::forward<F>") [EName
              "f"]; EUn "*" (EUn "*" (EThis))]))] [
          SReturn (Some (ECall (EName "::tiny::optional<U>") []))]]).

(** optional.h:1757-1774, TinyOptionalImpl *)
Definition f1757_transform : fundef :=
  Fun "TinyOptionalImpl" "transform" false
      [Param "F&&" "f" false]
      true "&" None
      (RValue "auto")
      []
      (Body [
        SUsing "U" "std::remove_cv_t<std::invoke_result_t<F,PayloadType const&>>";
        SStaticAssert (EUn "!" (EName "std::is_same_v<U,std::nullopt_t>"));
        SStaticAssert (EUn "!" (EName "std::is_same_v<U,std::in_place_t>"));
        SStaticAssert (EBin "&&" (EName "std::is_object_v<U>") (EUn "!" (EName
            "std::is_array_v<U>")));
        SIf false (ECall (EName "has_value") []) [
          SReturn (Some (ECall (EName "::tiny::optional<U>") [EBrace
              "DirectInitializationFromFunctionTag" []; ECall (EName "std::forward<F>") [EName
              "f"]; EUn "*" (EUn "*" (EThis))]))] [
          SReturn (Some (ECall (EName "::tiny::optional<U>") []))]]).

(** optional.h:1777-1794, TinyOptionalImpl *)
Definition f1777_transform : fundef :=
  Fun "TinyOptionalImpl" "transform" false
      [Param "F&&" "f" false]
      false "&&" None
      (RValue "auto")
      []
      (Body [
        SUsing "U" "std::remove_cv_t<std::invoke_result_t<F,PayloadType>>";
        SStaticAssert (EUn "!" (EName "std::is_same_v<U,std::nullopt_t>"));
        SStaticAssert (EUn "!" (EName "std::is_same_v<U,std::in_place_t>"));
        SStaticAssert (EBin "&&" (EName "std::is_object_v<U>") (EUn "!" (EName
            "std::is_array_v<U>")));
        SIf false (ECall (EName "has_value") []) [
          SReturn (Some (ECall (EName "::tiny::optional<U>") [EBrace
              "DirectInitializationFromFunctionTag" []; ECall (EName "std::forward<F>") [EName
              "f"]; ECall (EName "std::move") [EUn "*" (EUn "*" (EThis))]]))] [
          SReturn (Some (ECall (EName "::tiny::optional<U>") []))]]).

(** optional.h:1797-1814, TinyOptionalImpl *)
Definition f1797_transform : fundef :=
  Fun "TinyOptionalImpl" "transform" false
      [Param "F&&" "f" false]
      true "&&" None
      (RValue "auto")
      []
      (Body [
        SUsing "U" "std::remove_cv_t<std::invoke_result_t<F,PayloadType const>>";
        SStaticAssert (EUn "!" (EName "std::is_same_v<U,std::nullopt_t>"));
        SStaticAssert (EUn "!" (EName "std::is_same_v<U,std::in_place_t>"));
        SStaticAssert (EBin "&&" (EName "std::is_object_v<U>") (EUn "!" (EName
            "std::is_array_v<U>")));
        SIf false (ECall (EName "has_value") []) [
          SReturn (Some (ECall (EName "::tiny::optional<U>") [EBrace
              "DirectInitializationFromFunctionTag" []; ECall (EName "std::forward<F>") [EName
              "f"]; ECall (EName "std::move") [EUn "*" (EUn "*" (EThis))]]))] [
          SReturn (Some (ECall (EName "::tiny::optional<U>") []))]]).

(** optional.h:1820-1826, TinyOptionalImpl; only if defined TINY_OPTIONAL_ENABLE_ORELSE *)
Definition f1820_or_else : fundef :=
  Fun "TinyOptionalImpl" "or_else" false
      [Param "F&&" "f" false]
      true "&" None
      (RValue "TinyOptionalImpl")
      []
      (Body [
        SStaticAssert (EName
            "std::is_same_v<my_remove_cvref_t<std::invoke_result_t<F>>,TinyOptionalImpl>");
        SReturn (Some (ECond (ECall (EName "has_value") []) (EUn "*" (EThis)) (ECall (ECall
            (EName "std::forward<F>") [EName "f"]) [])))]).

(** optional.h:1830-1836, TinyOptionalImpl; only if defined TINY_OPTIONAL_ENABLE_ORELSE *)
Definition f1830_or_else : fundef :=
  Fun "TinyOptionalImpl" "or_else" false
      [Param "F&&" "f" false]
      false "&&" None
      (RValue "TinyOptionalImpl")
      []
      (Body [
        SStaticAssert (EName
            "std::is_same_v<my_remove_cvref_t<std::invoke_result_t<F>>,TinyOptionalImpl>");
        SReturn (Some (ECond (ECall (EName "has_value") []) (ECall (EName "std::move") [EUn "*"
            (EThis)]) (ECall (ECall (EName "std::forward<F>") [EName "f"]) [])))]).

(** optional.h:1849-1855 *)
Definition f1849_swap : fundef :=
  Fun "" "swap" false
      [Param "TinyOptionalImpl<StoredTypeDecomposition,FlagManipulator>&" "lhs" false; Param
          "TinyOptionalImpl<StoredTypeDecomposition,FlagManipulator>&" "rhs" false]
      false "" (Some (ENoexcept (ECall (EMember (EName "lhs") "swap") [EName "rhs"])))
      (RValue "void")
      []
      (Body [
        SExpr (ECall (EMember (EName "lhs") "swap") [EName "rhs"])]).

(** optional.h:2211-2211, optional *)
Definition f2211_optional : fundef :=
  Fun "optional" "optional" false
      []
      false "" None
      (RNone)
      []
      (Defaulted).

(** optional.h:2212-2212, optional *)
Definition f2212_optional : fundef :=
  Fun "optional" "optional" false
      [Param "optional const&" "" false]
      false "" None
      (RNone)
      []
      (Defaulted).

(** optional.h:2213-2213, optional *)
Definition f2213_optional : fundef :=
  Fun "optional" "optional" false
      [Param "optional&&" "" false]
      false "" None
      (RNone)
      []
      (Defaulted).

(** optional.h:2214-2214, optional *)
Definition f2214_op_assign : fundef :=
  Fun "optional" "operator=" false
      [Param "optional const&" "" false]
      false "" None
      (RRef false false "optional&")
      []
      (Defaulted).

(** optional.h:2215-2215, optional *)
Definition f2215_op_assign : fundef :=
  Fun "optional" "operator=" false
      [Param "optional&&" "" false]
      false "" None
      (RRef false false "optional&")
      []
      (Defaulted).

(** optional.h:2216-2216, optional *)
Definition f2216_dtor_optional : fundef :=
  Fun "optional" "~optional" false
      []
      false "" (Some (EBool true))
      (RNone)
      []
      (Defaulted).

(** optional.h:2233-2237, optional *)
Definition f2233_op_assign : fundef :=
  Fun "optional" "operator=" false
      [Param "std::nullopt_t" "" false]
      false "" (Some (EBool true))
      (RRef false false "optional&")
      []
      (Body [
        SExpr (ECall (EName "Base::operator=") [EName "std::nullopt"]);
        SReturn (Some (EUn "*" (EThis)))]).

(** optional.h:2243-2247, optional *)
Definition f2243_op_assign : fundef :=
  Fun "optional" "operator=" false
      [Param "U&&" "v" false]
      false "" None
      (RRef false false "optional&")
      []
      (Body [
        SExpr (ECall (EName "Base::operator=") [ECall (EName "std::forward<U>") [EName "v"]]);
        SReturn (Some (EUn "*" (EThis)))]).

(** optional.h:2253-2259, optional; only if defined TINY_OPTIONAL_ENABLE_ORELSE *)
Definition f2253_or_else : fundef :=
  Fun "optional" "or_else" false
      [Param "F&&" "f" false]
      true "&" None
      (RValue "optional")
      []
      (Body [
        SStaticAssert (EName
            "std::is_same_v<impl::my_remove_cvref_t<std::invoke_result_t<F>>,optional>");
        SReturn (Some (ECond (ECall (EName "has_value") []) (EUn "*" (EThis)) (ECall (ECall
            (EName "std::forward<F>") [EName "f"]) [])))]).

(** optional.h:2263-2269, optional; only if defined TINY_OPTIONAL_ENABLE_ORELSE *)
Definition f2263_or_else : fundef :=
  Fun "optional" "or_else" false
      [Param "F&&" "f" false]
      false "&&" None
      (RValue "optional")
      []
      (Body [
        SStaticAssert (EName
            "std::is_same_v<impl::my_remove_cvref_t<std::invoke_result_t<F>>,optional>");
        SReturn (Some (ECond (ECall (EName "has_value") []) (ECall (EName "std::move") [EUn "*"
            (EThis)]) (ECall (ECall (EName "std::forward<F>") [EName "f"]) [])))]).

(** optional.h:2280-2284 *)
Definition f2280_make_optional : fundef :=
  Fun "" "make_optional" false
      [Param "PayloadType&&" "v" false]
      false "" None
      (RValue "optional<std::decay_t<PayloadType>,sentinelOrMemPtr,irrelevantOrSentinel>")
      []
      (Body [
        SReturn (Some (EBrace
            "optional<std::decay_t<PayloadType>,sentinelOrMemPtr,irrelevantOrSentinel>" [ECall
            (EName "std::forward<PayloadType>") [EName "v"]]))]).

(** optional.h:2292-2295 *)
Definition f2292_make_optional : fundef :=
  Fun "" "make_optional" false
      [Param "ArgsT&&" "args" true]
      false "" None
      (RValue "optional<PayloadType,sentinelOrMemPtr,irrelevantOrSentinel>")
      []
      (Body [
        SReturn (Some (EBrace "optional<PayloadType,sentinelOrMemPtr,irrelevantOrSentinel>"
            [EName "std::in_place"; EPack (ECall (EName "std::forward<ArgsT>") [EName
            "args"])]))]).

(** optional.h:2304-2309 *)
Definition f2304_make_optional : fundef :=
  Fun "" "make_optional" false
      [Param "std::initializer_list<U>" "il" false; Param "ArgsT&&" "args" true]
      false "" None
      (RValue "optional<PayloadType,sentinelOrMemPtr,irrelevantOrSentinel>")
      []
      (Body [
        SReturn (Some (EBrace "optional<PayloadType,sentinelOrMemPtr,irrelevantOrSentinel>"
            [EName "std::in_place"; EName "il"; EPack (ECall (EName "std::forward<ArgsT>")
            [EName "args"])]))]).

(** optional.h:2437-2440 *)
Definition f2437_op_eq : fundef :=
  Fun "" "operator==" false
      [Param "TinyOptionalImpl<D1,F1>const&" "lhs" false; Param "TinyOptionalImpl<D2,F2>const&"
          "rhs" false]
      false "" None
      (RValue "bool")
      []
      (Body [
        SDecl "bool const" "lhsHasValue" [ECall (EMember (EName "lhs") "has_value") []];
        SReturn (Some (EBin "&&" (EBin "==" (EName "lhsHasValue") (ECall (EMember (EName "rhs")
            "has_value") [])) (EBin "||" (EUn "!" (EName "lhsHasValue")) (EBin "==" (EUn "*"
            (EName "lhs")) (EUn "*" (EName "rhs"))))))]).

(** optional.h:2437-2440 *)
Definition f2437_op_eq_2 : fundef :=
  Fun "" "operator==" false
      [Param "TinyOptionalImpl<D1,F1>const&" "lhs" false; Param "std::optional<U>const&" "rhs"
          false]
      false "" None
      (RValue "bool")
      []
      (Body [
        SDecl "bool const" "lhsHasValue" [ECall (EMember (EName "lhs") "has_value") []];
        SReturn (Some (EBin "&&" (EBin "==" (EName "lhsHasValue") (ECall (EMember (EName "rhs")
            "has_value") [])) (EBin "||" (EUn "!" (EName "lhsHasValue")) (EBin "==" (EUn "*"
            (EName "lhs")) (EUn "*" (EName "rhs"))))))]).

(** optional.h:2437-2440 *)
Definition f2437_op_eq_3 : fundef :=
  Fun "" "operator==" false
      [Param "std::optional<U>const&" "lhs" false; Param "TinyOptionalImpl<D1,F1>const&" "rhs"
          false]
      false "" None
      (RValue "bool")
      []
      (Body [
        SDecl "bool const" "lhsHasValue" [ECall (EMember (EName "lhs") "has_value") []];
        SReturn (Some (EBin "&&" (EBin "==" (EName "lhsHasValue") (ECall (EMember (EName "rhs")
            "has_value") [])) (EBin "||" (EUn "!" (EName "lhsHasValue")) (EBin "==" (EUn "*"
            (EName "lhs")) (EUn "*" (EName "rhs"))))))]).

(** optional.h:2437-2440 *)
Definition f2437_op_eq_4 : fundef :=
  Fun "" "operator==" false
      [Param "optional<P,e,i>const&" "lhs" false; Param "std::optional<U>const&" "rhs" false]
      false "" None
      (RValue "bool")
      []
      (Body [
        SDecl "bool const" "lhsHasValue" [ECall (EMember (EName "lhs") "has_value") []];
        SReturn (Some (EBin "&&" (EBin "==" (EName "lhsHasValue") (ECall (EMember (EName "rhs")
            "has_value") [])) (EBin "||" (EUn "!" (EName "lhsHasValue")) (EBin "==" (EUn "*"
            (EName "lhs")) (EUn "*" (EName "rhs"))))))]).

(** optional.h:2437-2440 *)
Definition f2437_op_eq_5 : fundef :=
  Fun "" "operator==" false
      [Param "std::optional<U>const&" "lhs" false; Param "optional<P,e,i>const&" "rhs" false]
      false "" None
      (RValue "bool")
      []
      (Body [
        SDecl "bool const" "lhsHasValue" [ECall (EMember (EName "lhs") "has_value") []];
        SReturn (Some (EBin "&&" (EBin "==" (EName "lhsHasValue") (ECall (EMember (EName "rhs")
            "has_value") [])) (EBin "||" (EUn "!" (EName "lhsHasValue")) (EBin "==" (EUn "*"
            (EName "lhs")) (EUn "*" (EName "rhs"))))))]).

(** optional.h:2447-2450 *)
Definition f2447_op_eq : fundef :=
  Fun "" "operator==" false
      [Param "TinyOptionalImpl<D1,F1>const&" "lhs" false; Param "std::nullopt_t" "" false]
      false "" (Some (EBool true))
      (RValue "bool")
      []
      (Body [
        SReturn (Some (EUn "!" (ECall (EMember (EName "lhs") "has_value") [])))]).

(** optional.h:2454-2457; only if !defined(TINY_OPTIONAL_ENABLE_THREEWAY_COMPARISON) || defined(TINY_OPTIONAL_GCC_WORKAROUND_CWG2445) *)
Definition f2454_op_eq : fundef :=
  Fun "" "operator==" false
      [Param "std::nullopt_t" "" false; Param "TinyOptionalImpl<D1,F1>const&" "rhs" false]
      false "" (Some (EBool true))
      (RValue "bool")
      []
      (Body [
        SReturn (Some (EUn "!" (ECall (EMember (EName "rhs") "has_value") [])))]).

(** optional.h:2461-2466 *)
Definition f2461_op_eq : fundef :=
  Fun "" "operator==" false
      [Param "TinyOptionalImpl<D1,F1>const&" "lhs" false; Param "U const&" "rhs" false]
      false "" None
      (RValue "std::enable_if_t<!is_tiny_optional_v<U>,bool>")
      []
      (Body [
        SReturn (Some (ECond (ECall (EMember (EName "lhs") "has_value") []) (EBin "==" (EUn "*"
            (EName "lhs")) (EName "rhs")) (EBool false)))]).

(** optional.h:2469-2474 *)
Definition f2469_op_eq : fundef :=
  Fun "" "operator==" false
      [Param "U const&" "lhs" false; Param "TinyOptionalImpl<D1,F1>const&" "rhs" false]
      false "" None
      (RValue "std::enable_if_t<!is_tiny_optional_v<U>,bool>")
      []
      (Body [
        SReturn (Some (ECond (ECall (EMember (EName "rhs") "has_value") []) (EBin "==" (EName
            "lhs") (EUn "*" (EName "rhs"))) (EBool false)))]).

(** optional.h:2482-2485 *)
Definition f2482_op_ne : fundef :=
  Fun "" "operator!=" false
      [Param "TinyOptionalImpl<D1,F1>const&" "lhs" false; Param "TinyOptionalImpl<D2,F2>const&"
          "rhs" false]
      false "" None
      (RValue "bool")
      []
      (Body [
        SDecl "bool const" "lhsHasValue" [ECall (EMember (EName "lhs") "has_value") []];
        SReturn (Some (EBin "||" (EBin "!=" (EName "lhsHasValue") (ECall (EMember (EName "rhs")
            "has_value") [])) (EBin "&&" (EName "lhsHasValue") (EBin "!=" (EUn "*" (EName
            "lhs")) (EUn "*" (EName "rhs"))))))]).

(** optional.h:2482-2485 *)
Definition f2482_op_ne_2 : fundef :=
  Fun "" "operator!=" false
      [Param "TinyOptionalImpl<D1,F1>const&" "lhs" false; Param "std::optional<U>const&" "rhs"
          false]
      false "" None
      (RValue "bool")
      []
      (Body [
        SDecl "bool const" "lhsHasValue" [ECall (EMember (EName "lhs") "has_value") []];
        SReturn (Some (EBin "||" (EBin "!=" (EName "lhsHasValue") (ECall (EMember (EName "rhs")
            "has_value") [])) (EBin "&&" (EName "lhsHasValue") (EBin "!=" (EUn "*" (EName
            "lhs")) (EUn "*" (EName "rhs"))))))]).

(** optional.h:2482-2485 *)
Definition f2482_op_ne_3 : fundef :=
  Fun "" "operator!=" false
      [Param "std::optional<U>const&" "lhs" false; Param "TinyOptionalImpl<D1,F1>const&" "rhs"
          false]
      false "" None
      (RValue "bool")
      []
      (Body [
        SDecl "bool const" "lhsHasValue" [ECall (EMember (EName "lhs") "has_value") []];
        SReturn (Some (EBin "||" (EBin "!=" (EName "lhsHasValue") (ECall (EMember (EName "rhs")
            "has_value") [])) (EBin "&&" (EName "lhsHasValue") (EBin "!=" (EUn "*" (EName
            "lhs")) (EUn "*" (EName "rhs"))))))]).

(** optional.h:2482-2485 *)
Definition f2482_op_ne_4 : fundef :=
  Fun "" "operator!=" false
      [Param "optional<P,e,i>const&" "lhs" false; Param "std::optional<U>const&" "rhs" false]
      false "" None
      (RValue "bool")
      []
      (Body [
        SDecl "bool const" "lhsHasValue" [ECall (EMember (EName "lhs") "has_value") []];
        SReturn (Some (EBin "||" (EBin "!=" (EName "lhsHasValue") (ECall (EMember (EName "rhs")
            "has_value") [])) (EBin "&&" (EName "lhsHasValue") (EBin "!=" (EUn "*" (EName
            "lhs")) (EUn "*" (EName "rhs"))))))]).

(** optional.h:2482-2485 *)
Definition f2482_op_ne_5 : fundef :=
  Fun "" "operator!=" false
      [Param "std::optional<U>const&" "lhs" false; Param "optional<P,e,i>const&" "rhs" false]
      false "" None
      (RValue "bool")
      []
      (Body [
        SDecl "bool const" "lhsHasValue" [ECall (EMember (EName "lhs") "has_value") []];
        SReturn (Some (EBin "||" (EBin "!=" (EName "lhsHasValue") (ECall (EMember (EName "rhs")
            "has_value") [])) (EBin "&&" (EName "lhsHasValue") (EBin "!=" (EUn "*" (EName
            "lhs")) (EUn "*" (EName "rhs"))))))]).

(** optional.h:2493-2496; only if !defined(TINY_OPTIONAL_ENABLE_THREEWAY_COMPARISON) || defined(TINY_OPTIONAL_GCC_WORKAROUND_CWG2445) *)
Definition f2493_op_ne : fundef :=
  Fun "" "operator!=" false
      [Param "TinyOptionalImpl<D1,F1>const&" "lhs" false; Param "std::nullopt_t" "" false]
      false "" (Some (EBool true))
      (RValue "bool")
      []
      (Body [
        SReturn (Some (ECall (EMember (EName "lhs") "has_value") []))]).

(** optional.h:2499-2502; only if !defined(TINY_OPTIONAL_ENABLE_THREEWAY_COMPARISON) || defined(TINY_OPTIONAL_GCC_WORKAROUND_CWG2445) *)
Definition f2499_op_ne : fundef :=
  Fun "" "operator!=" false
      [Param "std::nullopt_t" "" false; Param "TinyOptionalImpl<D1,F1>const&" "rhs" false]
      false "" (Some (EBool true))
      (RValue "bool")
      []
      (Body [
        SReturn (Some (ECall (EMember (EName "rhs") "has_value") []))]).

(** optional.h:2506-2511 *)
Definition f2506_op_ne : fundef :=
  Fun "" "operator!=" false
      [Param "TinyOptionalImpl<D1,F1>const&" "lhs" false; Param "U const&" "rhs" false]
      false "" None
      (RValue "std::enable_if_t<!is_tiny_optional_v<U>,bool>")
      []
      (Body [
        SReturn (Some (ECond (ECall (EMember (EName "lhs") "has_value") []) (EBin "!=" (EUn "*"
            (EName "lhs")) (EName "rhs")) (EBool true)))]).

(** optional.h:2514-2519 *)
Definition f2514_op_ne : fundef :=
  Fun "" "operator!=" false
      [Param "U const&" "lhs" false; Param "TinyOptionalImpl<D1,F1>const&" "rhs" false]
      false "" None
      (RValue "std::enable_if_t<!is_tiny_optional_v<U>,bool>")
      []
      (Body [
        SReturn (Some (ECond (ECall (EMember (EName "rhs") "has_value") []) (EBin "!=" (EName
            "lhs") (EUn "*" (EName "rhs"))) (EBool true)))]).

(** optional.h:2527-2529 *)
Definition f2527_op_lt : fundef :=
  Fun "" "operator<" false
      [Param "TinyOptionalImpl<D1,F1>const&" "lhs" false; Param "TinyOptionalImpl<D2,F2>const&"
          "rhs" false]
      false "" None
      (RValue "bool")
      []
      (Body [
        SReturn (Some (EBin "&&" (ECall (EMember (EName "rhs") "has_value") []) (EBin "||" (EUn
            "!" (ECall (EMember (EName "lhs") "has_value") [])) (EBin "<" (EUn "*" (EName
            "lhs")) (EUn "*" (EName "rhs"))))))]).

(** optional.h:2527-2529 *)
Definition f2527_op_lt_2 : fundef :=
  Fun "" "operator<" false
      [Param "TinyOptionalImpl<D1,F1>const&" "lhs" false; Param "std::optional<U>const&" "rhs"
          false]
      false "" None
      (RValue "bool")
      []
      (Body [
        SReturn (Some (EBin "&&" (ECall (EMember (EName "rhs") "has_value") []) (EBin "||" (EUn
            "!" (ECall (EMember (EName "lhs") "has_value") [])) (EBin "<" (EUn "*" (EName
            "lhs")) (EUn "*" (EName "rhs"))))))]).

(** optional.h:2527-2529 *)
Definition f2527_op_lt_3 : fundef :=
  Fun "" "operator<" false
      [Param "std::optional<U>const&" "lhs" false; Param "TinyOptionalImpl<D1,F1>const&" "rhs"
          false]
      false "" None
      (RValue "bool")
      []
      (Body [
        SReturn (Some (EBin "&&" (ECall (EMember (EName "rhs") "has_value") []) (EBin "||" (EUn
            "!" (ECall (EMember (EName "lhs") "has_value") [])) (EBin "<" (EUn "*" (EName
            "lhs")) (EUn "*" (EName "rhs"))))))]).

(** optional.h:2527-2529 *)
Definition f2527_op_lt_4 : fundef :=
  Fun "" "operator<" false
      [Param "optional<P,e,i>const&" "lhs" false; Param "std::optional<U>const&" "rhs" false]
      false "" None
      (RValue "bool")
      []
      (Body [
        SReturn (Some (EBin "&&" (ECall (EMember (EName "rhs") "has_value") []) (EBin "||" (EUn
            "!" (ECall (EMember (EName "lhs") "has_value") [])) (EBin "<" (EUn "*" (EName
            "lhs")) (EUn "*" (EName "rhs"))))))]).

(** optional.h:2527-2529 *)
Definition f2527_op_lt_5 : fundef :=
  Fun "" "operator<" false
      [Param "std::optional<U>const&" "lhs" false; Param "optional<P,e,i>const&" "rhs" false]
      false "" None
      (RValue "bool")
      []
      (Body [
        SReturn (Some (EBin "&&" (ECall (EMember (EName "rhs") "has_value") []) (EBin "||" (EUn
            "!" (ECall (EMember (EName "lhs") "has_value") [])) (EBin "<" (EUn "*" (EName
            "lhs")) (EUn "*" (EName "rhs"))))))]).

(** optional.h:2537-2540; only if !defined(TINY_OPTIONAL_ENABLE_THREEWAY_COMPARISON) || defined(TINY_OPTIONAL_GCC_WORKAROUND_CWG2445) *)
Definition f2537_op_lt : fundef :=
  Fun "" "operator<" false
      [Param "TinyOptionalImpl<D1,F1>const&" "" false; Param "std::nullopt_t" "" false]
      false "" (Some (EBool true))
      (RValue "bool")
      []
      (Body [
        SReturn (Some (EBool false))]).

(** optional.h:2543-2546; only if !defined(TINY_OPTIONAL_ENABLE_THREEWAY_COMPARISON) || defined(TINY_OPTIONAL_GCC_WORKAROUND_CWG2445) *)
Definition f2543_op_lt : fundef :=
  Fun "" "operator<" false
      [Param "std::nullopt_t" "" false; Param "TinyOptionalImpl<D1,F1>const&" "rhs" false]
      false "" (Some (EBool true))
      (RValue "bool")
      []
      (Body [
        SReturn (Some (ECall (EMember (EName "rhs") "has_value") []))]).

(** optional.h:2550-2555 *)
Definition f2550_op_lt : fundef :=
  Fun "" "operator<" false
      [Param "TinyOptionalImpl<D1,F1>const&" "lhs" false; Param "U const&" "rhs" false]
      false "" None
      (RValue "std::enable_if_t<!is_tiny_optional_v<U>,bool>")
      []
      (Body [
        SReturn (Some (ECond (ECall (EMember (EName "lhs") "has_value") []) (EBin "<" (EUn "*"
            (EName "lhs")) (EName "rhs")) (EBool true)))]).

(** optional.h:2558-2563 *)
Definition f2558_op_lt : fundef :=
  Fun "" "operator<" false
      [Param "U const&" "lhs" false; Param "TinyOptionalImpl<D1,F1>const&" "rhs" false]
      false "" None
      (RValue "std::enable_if_t<!is_tiny_optional_v<U>,bool>")
      []
      (Body [
        SReturn (Some (ECond (ECall (EMember (EName "rhs") "has_value") []) (EBin "<" (EName
            "lhs") (EUn "*" (EName "rhs"))) (EBool false)))]).

(** optional.h:2571-2573 *)
Definition f2571_op_le : fundef :=
  Fun "" "operator<=" false
      [Param "TinyOptionalImpl<D1,F1>const&" "lhs" false; Param "TinyOptionalImpl<D2,F2>const&"
          "rhs" false]
      false "" None
      (RValue "bool")
      []
      (Body [
        SReturn (Some (EBin "||" (EUn "!" (ECall (EMember (EName "lhs") "has_value") [])) (EBin
            "&&" (ECall (EMember (EName "rhs") "has_value") []) (EBin "<=" (EUn "*" (EName
            "lhs")) (EUn "*" (EName "rhs"))))))]).

(** optional.h:2571-2573 *)
Definition f2571_op_le_2 : fundef :=
  Fun "" "operator<=" false
      [Param "TinyOptionalImpl<D1,F1>const&" "lhs" false; Param "std::optional<U>const&" "rhs"
          false]
      false "" None
      (RValue "bool")
      []
      (Body [
        SReturn (Some (EBin "||" (EUn "!" (ECall (EMember (EName "lhs") "has_value") [])) (EBin
            "&&" (ECall (EMember (EName "rhs") "has_value") []) (EBin "<=" (EUn "*" (EName
            "lhs")) (EUn "*" (EName "rhs"))))))]).

(** optional.h:2571-2573 *)
Definition f2571_op_le_3 : fundef :=
  Fun "" "operator<=" false
      [Param "std::optional<U>const&" "lhs" false; Param "TinyOptionalImpl<D1,F1>const&" "rhs"
          false]
      false "" None
      (RValue "bool")
      []
      (Body [
        SReturn (Some (EBin "||" (EUn "!" (ECall (EMember (EName "lhs") "has_value") [])) (EBin
            "&&" (ECall (EMember (EName "rhs") "has_value") []) (EBin "<=" (EUn "*" (EName
            "lhs")) (EUn "*" (EName "rhs"))))))]).

(** optional.h:2571-2573 *)
Definition f2571_op_le_4 : fundef :=
  Fun "" "operator<=" false
      [Param "optional<P,e,i>const&" "lhs" false; Param "std::optional<U>const&" "rhs" false]
      false "" None
      (RValue "bool")
      []
      (Body [
        SReturn (Some (EBin "||" (EUn "!" (ECall (EMember (EName "lhs") "has_value") [])) (EBin
            "&&" (ECall (EMember (EName "rhs") "has_value") []) (EBin "<=" (EUn "*" (EName
            "lhs")) (EUn "*" (EName "rhs"))))))]).

(** optional.h:2571-2573 *)
Definition f2571_op_le_5 : fundef :=
  Fun "" "operator<=" false
      [Param "std::optional<U>const&" "lhs" false; Param "optional<P,e,i>const&" "rhs" false]
      false "" None
      (RValue "bool")
      []
      (Body [
        SReturn (Some (EBin "||" (EUn "!" (ECall (EMember (EName "lhs") "has_value") [])) (EBin
            "&&" (ECall (EMember (EName "rhs") "has_value") []) (EBin "<=" (EUn "*" (EName
            "lhs")) (EUn "*" (EName "rhs"))))))]).

(** optional.h:2581-2584; only if !defined(TINY_OPTIONAL_ENABLE_THREEWAY_COMPARISON) || defined(TINY_OPTIONAL_GCC_WORKAROUND_CWG2445) *)
Definition f2581_op_le : fundef :=
  Fun "" "operator<=" false
      [Param "TinyOptionalImpl<D1,F1>const&" "lhs" false; Param "std::nullopt_t" "" false]
      false "" (Some (EBool true))
      (RValue "bool")
      []
      (Body [
        SReturn (Some (EUn "!" (ECall (EMember (EName "lhs") "has_value") [])))]).

(** optional.h:2587-2590; only if !defined(TINY_OPTIONAL_ENABLE_THREEWAY_COMPARISON) || defined(TINY_OPTIONAL_GCC_WORKAROUND_CWG2445) *)
Definition f2587_op_le : fundef :=
  Fun "" "operator<=" false
      [Param "std::nullopt_t" "" false; Param "TinyOptionalImpl<D1,F1>const&" "" false]
      false "" (Some (EBool true))
      (RValue "bool")
      []
      (Body [
        SReturn (Some (EBool true))]).

(** optional.h:2594-2599 *)
Definition f2594_op_le : fundef :=
  Fun "" "operator<=" false
      [Param "TinyOptionalImpl<D1,F1>const&" "lhs" false; Param "U const&" "rhs" false]
      false "" None
      (RValue "std::enable_if_t<!is_tiny_optional_v<U>,bool>")
      []
      (Body [
        SReturn (Some (ECond (ECall (EMember (EName "lhs") "has_value") []) (EBin "<=" (EUn "*"
            (EName "lhs")) (EName "rhs")) (EBool true)))]).

(** optional.h:2602-2607 *)
Definition f2602_op_le : fundef :=
  Fun "" "operator<=" false
      [Param "U const&" "lhs" false; Param "TinyOptionalImpl<D1,F1>const&" "rhs" false]
      false "" None
      (RValue "std::enable_if_t<!is_tiny_optional_v<U>,bool>")
      []
      (Body [
        SReturn (Some (ECond (ECall (EMember (EName "rhs") "has_value") []) (EBin "<=" (EName
            "lhs") (EUn "*" (EName "rhs"))) (EBool false)))]).

(** optional.h:2615-2617 *)
Definition f2615_op_gt : fundef :=
  Fun "" "operator>" false
      [Param "TinyOptionalImpl<D1,F1>const&" "lhs" false; Param "TinyOptionalImpl<D2,F2>const&"
          "rhs" false]
      false "" None
      (RValue "bool")
      []
      (Body [
        SReturn (Some (EBin "&&" (ECall (EMember (EName "lhs") "has_value") []) (EBin "||" (EUn
            "!" (ECall (EMember (EName "rhs") "has_value") [])) (EBin ">" (EUn "*" (EName
            "lhs")) (EUn "*" (EName "rhs"))))))]).

(** optional.h:2615-2617 *)
Definition f2615_op_gt_2 : fundef :=
  Fun "" "operator>" false
      [Param "TinyOptionalImpl<D1,F1>const&" "lhs" false; Param "std::optional<U>const&" "rhs"
          false]
      false "" None
      (RValue "bool")
      []
      (Body [
        SReturn (Some (EBin "&&" (ECall (EMember (EName "lhs") "has_value") []) (EBin "||" (EUn
            "!" (ECall (EMember (EName "rhs") "has_value") [])) (EBin ">" (EUn "*" (EName
            "lhs")) (EUn "*" (EName "rhs"))))))]).

(** optional.h:2615-2617 *)
Definition f2615_op_gt_3 : fundef :=
  Fun "" "operator>" false
      [Param "std::optional<U>const&" "lhs" false; Param "TinyOptionalImpl<D1,F1>const&" "rhs"
          false]
      false "" None
      (RValue "bool")
      []
      (Body [
        SReturn (Some (EBin "&&" (ECall (EMember (EName "lhs") "has_value") []) (EBin "||" (EUn
            "!" (ECall (EMember (EName "rhs") "has_value") [])) (EBin ">" (EUn "*" (EName
            "lhs")) (EUn "*" (EName "rhs"))))))]).

(** optional.h:2615-2617 *)
Definition f2615_op_gt_4 : fundef :=
  Fun "" "operator>" false
      [Param "optional<P,e,i>const&" "lhs" false; Param "std::optional<U>const&" "rhs" false]
      false "" None
      (RValue "bool")
      []
      (Body [
        SReturn (Some (EBin "&&" (ECall (EMember (EName "lhs") "has_value") []) (EBin "||" (EUn
            "!" (ECall (EMember (EName "rhs") "has_value") [])) (EBin ">" (EUn "*" (EName
            "lhs")) (EUn "*" (EName "rhs"))))))]).

(** optional.h:2615-2617 *)
Definition f2615_op_gt_5 : fundef :=
  Fun "" "operator>" false
      [Param "std::optional<U>const&" "lhs" false; Param "optional<P,e,i>const&" "rhs" false]
      false "" None
      (RValue "bool")
      []
      (Body [
        SReturn (Some (EBin "&&" (ECall (EMember (EName "lhs") "has_value") []) (EBin "||" (EUn
            "!" (ECall (EMember (EName "rhs") "has_value") [])) (EBin ">" (EUn "*" (EName
            "lhs")) (EUn "*" (EName "rhs"))))))]).

(** optional.h:2625-2628; only if !defined(TINY_OPTIONAL_ENABLE_THREEWAY_COMPARISON) || defined(TINY_OPTIONAL_GCC_WORKAROUND_CWG2445) *)
Definition f2625_op_gt : fundef :=
  Fun "" "operator>" false
      [Param "TinyOptionalImpl<D1,F1>const&" "lhs" false; Param "std::nullopt_t" "" false]
      false "" (Some (EBool true))
      (RValue "bool")
      []
      (Body [
        SReturn (Some (ECall (EMember (EName "lhs") "has_value") []))]).

(** optional.h:2631-2634; only if !defined(TINY_OPTIONAL_ENABLE_THREEWAY_COMPARISON) || defined(TINY_OPTIONAL_GCC_WORKAROUND_CWG2445) *)
Definition f2631_op_gt : fundef :=
  Fun "" "operator>" false
      [Param "std::nullopt_t" "" false; Param "TinyOptionalImpl<D1,F1>const&" "" false]
      false "" (Some (EBool true))
      (RValue "bool")
      []
      (Body [
        SReturn (Some (EBool false))]).

(** optional.h:2638-2643 *)
Definition f2638_op_gt : fundef :=
  Fun "" "operator>" false
      [Param "TinyOptionalImpl<D1,F1>const&" "lhs" false; Param "U const&" "rhs" false]
      false "" None
      (RValue "std::enable_if_t<!is_tiny_optional_v<U>,bool>")
      []
      (Body [
        SReturn (Some (ECond (ECall (EMember (EName "lhs") "has_value") []) (EBin ">" (EUn "*"
            (EName "lhs")) (EName "rhs")) (EBool false)))]).

(** optional.h:2646-2651 *)
Definition f2646_op_gt : fundef :=
  Fun "" "operator>" false
      [Param "U const&" "lhs" false; Param "TinyOptionalImpl<D1,F1>const&" "rhs" false]
      false "" None
      (RValue "std::enable_if_t<!is_tiny_optional_v<U>,bool>")
      []
      (Body [
        SReturn (Some (ECond (ECall (EMember (EName "rhs") "has_value") []) (EBin ">" (EName
            "lhs") (EUn "*" (EName "rhs"))) (EBool true)))]).

(** optional.h:2659-2661 *)
Definition f2659_op_ge : fundef :=
  Fun "" "operator>=" false
      [Param "TinyOptionalImpl<D1,F1>const&" "lhs" false; Param "TinyOptionalImpl<D2,F2>const&"
          "rhs" false]
      false "" None
      (RValue "bool")
      []
      (Body [
        SReturn (Some (EBin "||" (EUn "!" (ECall (EMember (EName "rhs") "has_value") [])) (EBin
            "&&" (ECall (EMember (EName "lhs") "has_value") []) (EBin ">=" (EUn "*" (EName
            "lhs")) (EUn "*" (EName "rhs"))))))]).

(** optional.h:2659-2661 *)
Definition f2659_op_ge_2 : fundef :=
  Fun "" "operator>=" false
      [Param "TinyOptionalImpl<D1,F1>const&" "lhs" false; Param "std::optional<U>const&" "rhs"
          false]
      false "" None
      (RValue "bool")
      []
      (Body [
        SReturn (Some (EBin "||" (EUn "!" (ECall (EMember (EName "rhs") "has_value") [])) (EBin
            "&&" (ECall (EMember (EName "lhs") "has_value") []) (EBin ">=" (EUn "*" (EName
            "lhs")) (EUn "*" (EName "rhs"))))))]).

(** optional.h:2659-2661 *)
Definition f2659_op_ge_3 : fundef :=
  Fun "" "operator>=" false
      [Param "std::optional<U>const&" "lhs" false; Param "TinyOptionalImpl<D1,F1>const&" "rhs"
          false]
      false "" None
      (RValue "bool")
      []
      (Body [
        SReturn (Some (EBin "||" (EUn "!" (ECall (EMember (EName "rhs") "has_value") [])) (EBin
            "&&" (ECall (EMember (EName "lhs") "has_value") []) (EBin ">=" (EUn "*" (EName
            "lhs")) (EUn "*" (EName "rhs"))))))]).

(** optional.h:2659-2661 *)
Definition f2659_op_ge_4 : fundef :=
  Fun "" "operator>=" false
      [Param "optional<P,e,i>const&" "lhs" false; Param "std::optional<U>const&" "rhs" false]
      false "" None
      (RValue "bool")
      []
      (Body [
        SReturn (Some (EBin "||" (EUn "!" (ECall (EMember (EName "rhs") "has_value") [])) (EBin
            "&&" (ECall (EMember (EName "lhs") "has_value") []) (EBin ">=" (EUn "*" (EName
            "lhs")) (EUn "*" (EName "rhs"))))))]).

(** optional.h:2659-2661 *)
Definition f2659_op_ge_5 : fundef :=
  Fun "" "operator>=" false
      [Param "std::optional<U>const&" "lhs" false; Param "optional<P,e,i>const&" "rhs" false]
      false "" None
      (RValue "bool")
      []
      (Body [
        SReturn (Some (EBin "||" (EUn "!" (ECall (EMember (EName "rhs") "has_value") [])) (EBin
            "&&" (ECall (EMember (EName "lhs") "has_value") []) (EBin ">=" (EUn "*" (EName
            "lhs")) (EUn "*" (EName "rhs"))))))]).

(** optional.h:2669-2672; only if !defined(TINY_OPTIONAL_ENABLE_THREEWAY_COMPARISON) || defined(TINY_OPTIONAL_GCC_WORKAROUND_CWG2445) *)
Definition f2669_op_ge : fundef :=
  Fun "" "operator>=" false
      [Param "TinyOptionalImpl<D1,F1>const&" "" false; Param "std::nullopt_t" "" false]
      false "" (Some (EBool true))
      (RValue "bool")
      []
      (Body [
        SReturn (Some (EBool true))]).

(** optional.h:2675-2678; only if !defined(TINY_OPTIONAL_ENABLE_THREEWAY_COMPARISON) || defined(TINY_OPTIONAL_GCC_WORKAROUND_CWG2445) *)
Definition f2675_op_ge : fundef :=
  Fun "" "operator>=" false
      [Param "std::nullopt_t" "" false; Param "TinyOptionalImpl<D1,F1>const&" "rhs" false]
      false "" (Some (EBool true))
      (RValue "bool")
      []
      (Body [
        SReturn (Some (EUn "!" (ECall (EMember (EName "rhs") "has_value") [])))]).

(** optional.h:2682-2687 *)
Definition f2682_op_ge : fundef :=
  Fun "" "operator>=" false
      [Param "TinyOptionalImpl<D1,F1>const&" "lhs" false; Param "U const&" "rhs" false]
      false "" None
      (RValue "std::enable_if_t<!is_tiny_optional_v<U>,bool>")
      []
      (Body [
        SReturn (Some (ECond (ECall (EMember (EName "lhs") "has_value") []) (EBin ">=" (EUn "*"
            (EName "lhs")) (EName "rhs")) (EBool false)))]).

(** optional.h:2690-2695 *)
Definition f2690_op_ge : fundef :=
  Fun "" "operator>=" false
      [Param "U const&" "lhs" false; Param "TinyOptionalImpl<D1,F1>const&" "rhs" false]
      false "" None
      (RValue "std::enable_if_t<!is_tiny_optional_v<U>,bool>")
      []
      (Body [
        SReturn (Some (ECond (ECall (EMember (EName "rhs") "has_value") []) (EBin ">=" (EName
            "lhs") (EUn "*" (EName "rhs"))) (EBool true)))]).

(** optional.h:2711-2717; only if defined TINY_OPTIONAL_ENABLE_THREEWAY_COMPARISON *)
Definition f2711_op_three : fundef :=
  Fun "" "operator<=>" false
      [Param "TinyOptionalImpl<D1,F1>const&" "lhs" false; Param "TinyOptionalImpl<D2,F2>const&"
          "rhs" false]
      false "" None
      (RValue
          "std::compare_three_way_result_t<typename TinyOptionalImpl<D1,F1>::value_type,typename TinyOptionalImpl<D2,F2>::value_type>")
      []
      (Body [
        SReturn (Some (ECond (EBin "&&" (EName "lhs") (EName "rhs")) (EBin "<=>" (EUn "*" (EName
            "lhs")) (EUn "*" (EName "rhs"))) (EBin "<=>" (ECall (EMember (EName "lhs")
            "has_value") []) (ECall (EMember (EName "rhs") "has_value") []))))]).

(** optional.h:2721-2726; only if defined TINY_OPTIONAL_ENABLE_THREEWAY_COMPARISON *)
Definition f2721_op_three : fundef :=
  Fun "" "operator<=>" false
      [Param "TinyOptionalImpl<D1,F1>const&" "lhs" false; Param "std::optional<U>const&" "rhs"
          false]
      false "" None
      (RValue "std::compare_three_way_result_t<typename TinyOptionalImpl<D1,F1>::value_type,U>")
      []
      (Body [
        SReturn (Some (ECond (EBin "&&" (EName "lhs") (EName "rhs")) (EBin "<=>" (EUn "*" (EName
            "lhs")) (EUn "*" (EName "rhs"))) (EBin "<=>" (ECall (EMember (EName "lhs")
            "has_value") []) (ECall (EMember (EName "rhs") "has_value") []))))]).

(** optional.h:2730-2735; only if defined TINY_OPTIONAL_ENABLE_THREEWAY_COMPARISON *)
Definition f2730_op_three : fundef :=
  Fun "" "operator<=>" false
      [Param "optional<P,e,i>const&" "lhs" false; Param "std::optional<U>const&" "rhs" false]
      false "" None
      (RValue "std::compare_three_way_result_t<P,U>")
      []
      (Body [
        SReturn (Some (ECond (EBin "&&" (EName "lhs") (EName "rhs")) (EBin "<=>" (EUn "*" (EName
            "lhs")) (EUn "*" (EName "rhs"))) (EBin "<=>" (ECall (EMember (EName "lhs")
            "has_value") []) (ECall (EMember (EName "rhs") "has_value") []))))]).

(** optional.h:2739-2744; only if defined TINY_OPTIONAL_ENABLE_THREEWAY_COMPARISON and defined TINY_OPTIONAL_GCC_WORKAROUND_CWG2445 *)
Definition f2739_op_three : fundef :=
  Fun "" "operator<=>" false
      [Param "std::optional<U>const&" "lhs" false; Param "optional<P,e,i>const&" "rhs" false]
      false "" None
      (RValue "std::compare_three_way_result_t<U,P>")
      []
      (Body [
        SReturn (Some (ECond (EBin "&&" (EName "lhs") (EName "rhs")) (EBin "<=>" (EUn "*" (EName
            "lhs")) (EUn "*" (EName "rhs"))) (EBin "<=>" (ECall (EMember (EName "lhs")
            "has_value") []) (ECall (EMember (EName "rhs") "has_value") []))))]).

(** optional.h:2750-2753; only if defined TINY_OPTIONAL_ENABLE_THREEWAY_COMPARISON *)
Definition f2750_op_three : fundef :=
  Fun "" "operator<=>" false
      [Param "TinyOptionalImpl<D1,F1>const&" "lhs" false; Param "std::nullopt_t" "" false]
      false "" (Some (EBool true))
      (RValue "std::strong_ordering")
      []
      (Body [
        SReturn (Some (EBin "<=>" (ECall (EMember (EName "lhs") "has_value") []) (EBool
            false)))]).

(** optional.h:2757-2762; only if defined TINY_OPTIONAL_ENABLE_THREEWAY_COMPARISON *)
Definition f2757_op_three : fundef :=
  Fun "" "operator<=>" false
      [Param "TinyOptionalImpl<D1,F1>const&" "lhs" false; Param "U const&" "rhs" false]
      false "" None
      (RValue "std::compare_three_way_result_t<typename TinyOptionalImpl<D1,F1>::value_type,U>")
      []
      (Body [
        SReturn (Some (ECond (ECall (EMember (EName "lhs") "has_value") []) (EBin "<=>" (EUn "*"
            (EName "lhs")) (EName "rhs")) (EName "std::strong_ordering::less")))]).

(** optional.h:2786-2789, hash *)
Definition f2786_op_call : fundef :=
  Fun "hash" "operator()" false
      [Param "tiny::impl::TinyOptionalImpl<StoredTypeDecomposition,FlagManipulator>const&" "o"
          false]
      true "" None
      (RValue "size_t")
      []
      (Body [
        SReturn (Some (ECond (ECall (EMember (EName "o") "has_value") []) (ECall (EBrace
            "hash<std::remove_const_t<typename StoredTypeDecomposition::PayloadType>>" []) [EUn
            "*" (EName "o")]) (ENum 0)))]).

(** optional.h:2801-2804, hash *)
Definition f2801_op_call : fundef :=
  Fun "hash" "operator()" false
      [Param "tiny::optional<PayloadType,sentinelOrMemPtr,irrelevantOrSentinel>const&" "o"
          false]
      true "" None
      (RValue "size_t")
      []
      (Body [
        SReturn (Some (ECond (ECall (EMember (EName "o") "has_value") []) (ECall (EBrace
            "hash<std::remove_const_t<PayloadType>>" []) [EUn "*" (EName "o")]) (ENum 0)))]).

(** All functions, in the order of the header. *)
Definition source : list fundef :=
  [f233_is_empty;
   f238_init_empty_flag;
   f243_invalidate_empty_flag;
   f578_GetIsEmptyFlag;
   f583_GetPayload;
   f599_GetIsEmptyFlag;
   f604_GetPayload;
   f637_GetIsEmptyFlag;
   f642_GetPayload;
   f682_is_empty;
   f687_init_empty_flag;
   f695_invalidate_empty_flag;
   f729_is_empty;
   f739_init_empty_flag;
   f751_invalidate_empty_flag;
   f818_is_empty;
   f832_init_empty_flag;
   f844_invalidate_empty_flag;
   f955_StorageBase;
   f962_StorageBase;
   f970_StorageBase;
   f978_dtor_StorageBase;
   f988_StorageBase;
   f989_StorageBase;
   f990_op_assign;
   f991_op_assign;
   f993_has_value;
   f998_GetIsEmptyFlag;
   f1003_GetIsEmptyFlag;
   f1008_GetPayload;
   f1013_GetPayload;
   f1018_DestroyPayload;
   f1026_InitializeIsEmptyFlagScope;
   f1031_dtor_InitializeIsEmptyFlagScope;
   f1044_ConstructPayload;
   f1084_ConstructPayloadFromFunction;
   f1118_AssignValue;
   f1136_reset;
   f1175_MoveConstructionBase;
   f1176_MoveConstructionBase;
   f1179_MoveConstructionBase;
   f1232_CopyConstructionBase;
   f1233_CopyConstructionBase;
   f1236_CopyConstructionBase;
   f1287_MoveAssignmentBase;
   f1288_MoveAssignmentBase;
   f1289_MoveAssignmentBase;
   f1290_op_assign;
   f1293_op_assign;
   f1347_CopyAssignmentBase;
   f1348_CopyAssignmentBase;
   f1349_CopyAssignmentBase;
   f1350_op_assign;
   f1353_op_assign;
   f1441_TinyOptionalImpl;
   f1442_TinyOptionalImpl;
   f1443_TinyOptionalImpl;
   f1444_op_assign;
   f1445_op_assign;
   f1446_dtor_TinyOptionalImpl;
   f1449_TinyOptionalImpl;
   f1456_TinyOptionalImpl;
   f1466_TinyOptionalImpl;
   f1474_TinyOptionalImpl;
   f1484_TinyOptionalImpl;
   f1493_TinyOptionalImpl;
   f1517_op_assign;
   f1525_op_assign;
   f1533_emplace;
   f1546_emplace;
   f1555_op_bool;
   f1561_op_arrow;
   f1567_op_arrow;
   f1574_op_deref;
   f1580_op_deref;
   f1586_op_deref;
   f1592_op_deref;
   f1599_value;
   f1607_value;
   f1615_value;
   f1623_value;
   f1633_value_or;
   f1644_value_or;
   f1656_swap;
   f1682_and_then;
   f1695_and_then;
   f1708_and_then;
   f1721_and_then;
   f1734_transform;
   f1757_transform;
   f1777_transform;
   f1797_transform;
   f1820_or_else;
   f1830_or_else;
   f1849_swap;
   f2211_optional;
   f2212_optional;
   f2213_optional;
   f2214_op_assign;
   f2215_op_assign;
   f2216_dtor_optional;
   f2233_op_assign;
   f2243_op_assign;
   f2253_or_else;
   f2263_or_else;
   f2280_make_optional;
   f2292_make_optional;
   f2304_make_optional;
   f2437_op_eq;
   f2437_op_eq_2;
   f2437_op_eq_3;
   f2437_op_eq_4;
   f2437_op_eq_5;
   f2447_op_eq;
   f2454_op_eq;
   f2461_op_eq;
   f2469_op_eq;
   f2482_op_ne;
   f2482_op_ne_2;
   f2482_op_ne_3;
   f2482_op_ne_4;
   f2482_op_ne_5;
   f2493_op_ne;
   f2499_op_ne;
   f2506_op_ne;
   f2514_op_ne;
   f2527_op_lt;
   f2527_op_lt_2;
   f2527_op_lt_3;
   f2527_op_lt_4;
   f2527_op_lt_5;
   f2537_op_lt;
   f2543_op_lt;
   f2550_op_lt;
   f2558_op_lt;
   f2571_op_le;
   f2571_op_le_2;
   f2571_op_le_3;
   f2571_op_le_4;
   f2571_op_le_5;
   f2581_op_le;
   f2587_op_le;
   f2594_op_le;
   f2602_op_le;
   f2615_op_gt;
   f2615_op_gt_2;
   f2615_op_gt_3;
   f2615_op_gt_4;
   f2615_op_gt_5;
   f2625_op_gt;
   f2631_op_gt;
   f2638_op_gt;
   f2646_op_gt;
   f2659_op_ge;
   f2659_op_ge_2;
   f2659_op_ge_3;
   f2659_op_ge_4;
   f2659_op_ge_5;
   f2669_op_ge;
   f2675_op_ge;
   f2682_op_ge;
   f2690_op_ge;
   f2711_op_three;
   f2721_op_three;
   f2730_op_three;
   f2739_op_three;
   f2750_op_three;
   f2757_op_three;
   f2786_op_call;
   f2801_op_call].

(** The classes: base class, data members with their initialisers, and whether the
    constructors of the base are inherited ([using Base::Base]). *)
Definition classes : list classdef :=
  [Class "sentinel_flag_manipulator" None [] false;
   Class "DecompositionForSeparateFlag" None [] false;
   Class "InplaceStoredTypeDecomposition" None [] false;
   Class "InplaceDecompositionViaMemPtr" None [] false;
   Class "SeparateFlagManipulator" None [] false;
   Class "MemcpyAndCmpFlagManipulator" None [] false;
   Class "AssignmentFlagManipulator" None [] false;
   Class "InitializeIsEmptyFlagScope" None [("opt", None); ("doNotInitialize", Some (EBool false))] false;
   Class "StorageBase" None [("mStorage", None)] false;
   Class "MoveConstructionBase" (Some "StorageBase") [] true;
   Class "CopyConstructionBase" (Some "MoveConstructionBase") [] true;
   Class "MoveAssignmentBase" (Some "CopyConstructionBase") [] true;
   Class "CopyAssignmentBase" (Some "MoveAssignmentBase") [] true;
   Class "TinyOptionalImpl" (Some "CopyAssignmentBase") [] false;
   Class "optional" (Some "TinyOptionalFromSelection") [] true;
   Class "hash" None [] false;
   Class "hash" None [] false].

(** The alias templates at namespace scope, without template arguments. *)
Definition aliases : list (string * string) :=
  [("my_remove_cvref_t", "std::remove_cv_t");
   ("ConditionalIdentity", "Type");
   ("EnableHashHelper", "ConditionalIdentity");
   ("TinyOptionalImplCombined", "TinyOptionalImpl");
   ("optional_sentinel_via_type", "TinyOptionalImplCombined");
   ("TinyOptionalFromSelection", "optional_sentinel_via_type");
   ("optional_inplace", "TinyOptionalImpl");
   ("optional_aip", "optional")].
