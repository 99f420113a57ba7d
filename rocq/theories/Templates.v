(** * Templates: the templates that choose the storage strategy, as syntax trees

    Written by tools/cpp2coq.py --templates from /repo/include/tiny/optional.h and
    optional_flag_manipulator_fwd.h (default argument of optional_flag_manipulator); not
    edited by hand.  The types are those of [TemplateSyntax.v].  In classes only the
    types, the constants declared with auto and the static_asserts. *)

From Coq Require Import String List.
From Verif Require Import TemplateSyntax.
Import ListNotations.
Local Open Scope string_scope.

(** optional.h:177-179 *)
Definition t177_NoCustomInplaceFlagManipulator : tdef :=
  Template "NoCustomInplaceFlagManipulator" TClass []
    []
    None
    []
    [].

(** optional.h:218-220 *)
Definition t218_optional_flag_manipulator : tdef :=
  Template "optional_flag_manipulator" TClass []
    [("PayloadType", false, None); ("Enable", false, Some (TxName "void"))]
    None
    [([], TxName "NoCustomInplaceFlagManipulator")]
    [].

(** optional.h:287-287 *)
Definition t287_always_false : tdef :=
  Template "always_false" TVariable []
    [("T", true, None)]
    None
    [([], TxBool false)]
    [].

(** optional.h:298-301 *)
Definition t298_value_conditional : tdef :=
  Template "value_conditional" TClass []
    [("B", false, None); ("val1", false, None); ("val2", false, None)]
    None
    []
    [([], IConst "value" (TxName "val1"))].

(** optional.h:304-307 *)
Definition t304_value_conditional : tdef :=
  Template "value_conditional" TClass []
    [("val1", false, None); ("val2", false, None)]
    (Some [TxBool false; TxName "val1"; TxName "val2"])
    []
    [([], IConst "value" (TxName "val2"))].

(** optional.h:573-587 *)
Definition t573_DecompositionForSeparateFlag : tdef :=
  Template "DecompositionForSeparateFlag" TClass []
    [("PayloadType_", false, None)]
    None
    []
    [([], IUsing "PayloadType" (TxName "PayloadType_"));
     ([], IUsing "StoredType" (TxApp "SeparateFlagStorage" [TxName "PayloadType"]))].

(** optional.h:594-608 *)
Definition t594_InplaceStoredTypeDecomposition : tdef :=
  Template "InplaceStoredTypeDecomposition" TClass []
    [("PayloadType_", false, None)]
    None
    []
    [([], IUsing "StoredType" (TxApp "InplaceStorage" [TxName "PayloadType_"]));
     ([], IUsing "PayloadType" (TxName "PayloadType_"))].

(** optional.h:624-646 *)
Definition t624_InplaceDecompositionViaMemPtr : tdef :=
  Template "InplaceDecompositionViaMemPtr" TClass
      ["!defined TINY_OPTIONAL_USE_SEPARATE_BOOL_INSTEAD_OF_MEMBER"]
    [("PayloadType_", false, None); ("memPtrToIsEmptyFlag", false, None)]
    None
    []
    [(["!defined TINY_OPTIONAL_USE_SEPARATE_BOOL_INSTEAD_OF_MEMBER"], IAssert (TxApp
        "std::is_member_object_pointer_v" [TxDecltype (TxName "memPtrToIsEmptyFlag")]));
     (["!defined TINY_OPTIONAL_USE_SEPARATE_BOOL_INSTEAD_OF_MEMBER"], IAssert (TxNe (TxName
         "memPtrToIsEmptyFlag") (TxName "nullptr")));
     (["!defined TINY_OPTIONAL_USE_SEPARATE_BOOL_INSTEAD_OF_MEMBER"], IUsing "StoredType" (TxApp
         "InplaceStorage" [TxName "PayloadType_"]));
     (["!defined TINY_OPTIONAL_USE_SEPARATE_BOOL_INSTEAD_OF_MEMBER"], IUsing "PayloadType"
         (TxName "PayloadType_"))].

(** optional.h:865-872 *)
Definition t865_SentinelForExploitingUnusedBitsIsKnown : tdef :=
  Template "SentinelForExploitingUnusedBitsIsKnown" TVariable []
    [("PayloadType", false, None)]
    None
    [(["!defined TINY_OPTIONAL_USE_SEPARATE_BOOL_INSTEAD_OF_UNUSED_BITS"], TxOr (TxOr (TxAnd
        (TxApp "std::is_floating_point_v" [TxName "PayloadType"]) (TxNot (TxApp "std::is_same_v"
        [TxApp "std::remove_cv_t" [TxName "PayloadType"]; TxName "long double"]))) (TxApp
        "std::is_same_v" [TxApp "std::remove_cv_t" [TxName "PayloadType"]; TxName "bool"]))
        (TxApp "std::is_pointer_v" [TxName "PayloadType"]));
        (["else of !defined TINY_OPTIONAL_USE_SEPARATE_BOOL_INSTEAD_OF_UNUSED_BITS"], TxBool
        false)]
    [].

(** optional.h:884-889 *)
Definition t884_optional_flag_manipulator : tdef :=
  Template "optional_flag_manipulator" TClass []
    [("PayloadType", false, None)]
    (Some [TxName "PayloadType"; TxApp "std::enable_if_t" [TxApp
        "SentinelForExploitingUnusedBitsIsKnown" [TxName "PayloadType"]]])
    [([], TxApp "MemcpyAndCmpFlagManipulator" [TxName "PayloadType"; TxApp
        "SentinelForExploitingUnusedBits" [TxApp "std::remove_cv_t" [TxName "PayloadType"]]])]
    [].

(** optional.h:897-898 *)
Definition t897_HasCustomInplaceFlagManipulator : tdef :=
  Template "HasCustomInplaceFlagManipulator" TVariable []
    [("PayloadType", false, None)]
    None
    [([], TxNot (TxApp "std::is_base_of_v" [TxName "NoCustomInplaceFlagManipulator"; TxApp
        "optional_flag_manipulator" [TxName "PayloadType"]]))]
    [].

(** optional.h:916-1148 *)
Definition t916_StorageBase : tdef :=
  Template "StorageBase" TClass []
    [("StoredTypeDecomposition", false, None); ("FlagManipulator", false, None)]
    None
    []
    [([], IUsing "StoredType" (TxMem (TxName "StoredTypeDecomposition") "StoredType"));
     ([], IUsing "PayloadType" (TxMem (TxName "StoredTypeDecomposition") "PayloadType"));
     ([], IUsing "FlagType" (TxText
         "std::remove_reference_t<decltype(StoredTypeDecomposition::GetIsEmptyFlag(std::declval<StoredType&>()))>"));
     ([], IAssert (TxText
         "noexcept(StoredTypeDecomposition::GetIsEmptyFlag(std::declval<StoredType&>()))"));
     ([], IAssert (TxText
         "noexcept(StoredTypeDecomposition::GetPayload(std::declval<StoredType&>()))"));
     ([], IAssert (TxText
         "noexcept(FlagManipulator::is_empty(std::declval<FlagType const&>()))"));
     ([], IAssert (TxText
         "noexcept(FlagManipulator::init_empty_flag(std::declval<FlagType&>()))"));
     ([], IAssert (TxText
         "noexcept(FlagManipulator::invalidate_empty_flag(std::declval<FlagType&>()))"));
     ([], IAssert (TxNot (TxApp "std::is_same_v" [TxApp "std::remove_cv_t" [TxName
         "PayloadType"]; TxName "std::nullopt_t"])));
     ([], IAssert (TxNot (TxApp "std::is_same_v" [TxApp "std::remove_cv_t" [TxName
         "PayloadType"]; TxName "std::in_place_t"])));
     ([], IAssert (TxAnd (TxAnd (TxApp "std::is_object_v" [TxName "PayloadType"]) (TxApp
         "std::is_destructible_v" [TxName "PayloadType"])) (TxNot (TxApp "std::is_array_v"
         [TxName "PayloadType"]))))].

(** optional.h:1168-1195 *)
Definition t1168_MoveConstructionBase : tdef :=
  Template "MoveConstructionBase" TClass []
    [("StoredTypeDecomposition", false, None); ("FlagManipulator", false, None); ("", false,
        Some (TxApp "std::is_move_constructible_v" [TxMem (TxName "StoredTypeDecomposition")
        "PayloadType"]))]
    None
    [([], TxApp "StorageBase" [TxName "StoredTypeDecomposition"; TxName "FlagManipulator"])]
    [([], IUsing "Base" (TxApp "StorageBase" [TxName "StoredTypeDecomposition"; TxName
        "FlagManipulator"]));
     ([], IUsing "PayloadType" (TxMem (TxName "Base") "PayloadType"))].

(** optional.h:1200-1209 *)
Definition t1200_MoveConstructionBase : tdef :=
  Template "MoveConstructionBase" TClass []
    [("StoredTypeDecomposition", false, None); ("FlagManipulator", false, None)]
    (Some [TxName "StoredTypeDecomposition"; TxName "FlagManipulator"; TxBool false])
    [([], TxApp "StorageBase" [TxName "StoredTypeDecomposition"; TxName "FlagManipulator"])]
    [([], IUsing "Base" (TxApp "StorageBase" [TxName "StoredTypeDecomposition"; TxName
        "FlagManipulator"]))].

(** optional.h:1225-1249 *)
Definition t1225_CopyConstructionBase : tdef :=
  Template "CopyConstructionBase" TClass []
    [("StoredTypeDecomposition", false, None); ("FlagManipulator", false, None); ("", false,
        Some (TxApp "std::is_copy_constructible_v" [TxMem (TxName "StoredTypeDecomposition")
        "PayloadType"]))]
    None
    [([], TxApp "MoveConstructionBase" [TxName "StoredTypeDecomposition"; TxName
        "FlagManipulator"])]
    [([], IUsing "Base" (TxApp "MoveConstructionBase" [TxName "StoredTypeDecomposition"; TxName
        "FlagManipulator"]));
     ([], IUsing "PayloadType" (TxMem (TxName "Base") "PayloadType"))].

(** optional.h:1254-1263 *)
Definition t1254_CopyConstructionBase : tdef :=
  Template "CopyConstructionBase" TClass []
    [("StoredTypeDecomposition", false, None); ("FlagManipulator", false, None)]
    (Some [TxName "StoredTypeDecomposition"; TxName "FlagManipulator"; TxBool false])
    [([], TxApp "MoveConstructionBase" [TxName "StoredTypeDecomposition"; TxName
        "FlagManipulator"])]
    [([], IUsing "Base" (TxApp "MoveConstructionBase" [TxName "StoredTypeDecomposition"; TxName
        "FlagManipulator"]))].

(** optional.h:1280-1309 *)
Definition t1280_MoveAssignmentBase : tdef :=
  Template "MoveAssignmentBase" TClass []
    [("StoredTypeDecomposition", false, None); ("FlagManipulator", false, None); ("", false,
        Some (TxAnd (TxApp "std::is_move_constructible_v" [TxMem (TxName
        "StoredTypeDecomposition") "PayloadType"]) (TxApp "std::is_move_assignable_v" [TxMem
        (TxName "StoredTypeDecomposition") "PayloadType"])))]
    None
    [([], TxApp "CopyConstructionBase" [TxName "StoredTypeDecomposition"; TxName
        "FlagManipulator"])]
    [([], IUsing "Base" (TxApp "CopyConstructionBase" [TxName "StoredTypeDecomposition"; TxName
        "FlagManipulator"]));
     ([], IUsing "PayloadType" (TxMem (TxName "Base") "PayloadType"))].

(** optional.h:1314-1325 *)
Definition t1314_MoveAssignmentBase : tdef :=
  Template "MoveAssignmentBase" TClass []
    [("StoredTypeDecomposition", false, None); ("FlagManipulator", false, None)]
    (Some [TxName "StoredTypeDecomposition"; TxName "FlagManipulator"; TxBool false])
    [([], TxApp "CopyConstructionBase" [TxName "StoredTypeDecomposition"; TxName
        "FlagManipulator"])]
    [([], IUsing "Base" (TxApp "CopyConstructionBase" [TxName "StoredTypeDecomposition"; TxName
        "FlagManipulator"]))].

(** optional.h:1342-1365 *)
Definition t1342_CopyAssignmentBase : tdef :=
  Template "CopyAssignmentBase" TClass []
    [("StoredTypeDecomposition", false, None); ("FlagManipulator", false, None); ("", false,
        Some (TxAnd (TxApp "std::is_copy_constructible_v" [TxMem (TxName
        "StoredTypeDecomposition") "PayloadType"]) (TxApp "std::is_copy_assignable_v" [TxMem
        (TxName "StoredTypeDecomposition") "PayloadType"])))]
    None
    [([], TxApp "MoveAssignmentBase" [TxName "StoredTypeDecomposition"; TxName
        "FlagManipulator"])]
    [([], IUsing "Base" (TxApp "MoveAssignmentBase" [TxName "StoredTypeDecomposition"; TxName
        "FlagManipulator"]))].

(** optional.h:1370-1382 *)
Definition t1370_CopyAssignmentBase : tdef :=
  Template "CopyAssignmentBase" TClass []
    [("StoredTypeDecomposition", false, None); ("FlagManipulator", false, None)]
    (Some [TxName "StoredTypeDecomposition"; TxName "FlagManipulator"; TxBool false])
    [([], TxApp "MoveAssignmentBase" [TxName "StoredTypeDecomposition"; TxName
        "FlagManipulator"])]
    [([], IUsing "Base" (TxApp "MoveAssignmentBase" [TxName "StoredTypeDecomposition"; TxName
        "FlagManipulator"]))].

(** optional.h:1391-1838 *)
Definition t1391_TinyOptionalImpl : tdef :=
  Template "TinyOptionalImpl" TClass []
    [("StoredTypeDecomposition", false, None); ("FlagManipulator", false, None)]
    None
    [([], TxApp "CopyAssignmentBase" [TxName "StoredTypeDecomposition"; TxName
        "FlagManipulator"])]
    [([], IUsing "Base" (TxApp "CopyAssignmentBase" [TxName "StoredTypeDecomposition"; TxName
        "FlagManipulator"]));
     ([], IUsing "PayloadType" (TxMem (TxName "Base") "PayloadType"));
     ([], IUsing "value_type" (TxName "PayloadType"))].

(** optional.h:1898-1903 *)
Definition t1898_SelectDecomposition : tdef :=
  Template "SelectDecomposition" TClass []
    [("PayloadType", false, None); ("SentinelValue", false, None); ("memPtrToFlag", false,
        None); ("", false, Some (TxName "void"))]
    None
    []
    [([], IAssert (TxApp "always_false" [TxName "PayloadType"]))].

(** optional.h:1907-1917 *)
Definition t1907_SelectDecomposition : tdef :=
  Template "SelectDecomposition" TClass []
    [("PayloadType", false, None)]
    (Some [TxName "PayloadType"; TxName "UseDefaultType"; TxName "UseDefaultValue"; TxApp
        "std::enable_if_t" [TxNot (TxApp "HasCustomInplaceFlagManipulator" [TxName
        "PayloadType"])]])
    []
    [([], IConst "test" (TxMem (TxName "SelectedDecompositionTest")
        "NoArgsAndBehavesAsStdOptional"));
     ([], IUsing "StoredTypeDecomposition" (TxApp "DecompositionForSeparateFlag" [TxName
         "PayloadType"]));
     ([], IUsing "FlagManipulator" (TxName "SeparateFlagManipulator"))].

(** optional.h:1921-1931 *)
Definition t1921_SelectDecomposition : tdef :=
  Template "SelectDecomposition" TClass []
    [("PayloadType", false, None)]
    (Some [TxName "PayloadType"; TxName "UseDefaultType"; TxName "UseDefaultValue"; TxApp
        "std::enable_if_t" [TxApp "HasCustomInplaceFlagManipulator" [TxName "PayloadType"]]])
    []
    [([], IConst "test" (TxMem (TxName "SelectedDecompositionTest")
        "NoArgsAndHasCustomFlagManipulator"));
     ([], IUsing "StoredTypeDecomposition" (TxApp "InplaceStoredTypeDecomposition" [TxName
         "PayloadType"]));
     ([], IUsing "FlagManipulator" (TxApp "optional_flag_manipulator" [TxName "PayloadType"]))].

(** optional.h:1935-1952 *)
Definition t1935_SelectDecomposition : tdef :=
  Template "SelectDecomposition" TClass []
    [("PayloadType", false, None); ("SentinelValue", false, None)]
    (Some [TxName "PayloadType"; TxName "SentinelValue"; TxName "UseDefaultValue"; TxApp
        "std::enable_if_t" [TxAnd (TxApp "HasCustomInplaceFlagManipulator" [TxName
        "PayloadType"]) (TxNot (TxApp "std::is_same_v" [TxName "SentinelValue"; TxName
        "UseDefaultType"]))]])
    []
    [([], IConst "test" (TxMem (TxName "SelectedDecompositionTest")
        "SentinelValueSpecifiedForInplaceSwallowingForTypeWithCustomFlagManipulator"));
     ([], IUsing "StoredTypeDecomposition" (TxApp "InplaceStoredTypeDecomposition" [TxName
         "PayloadType"]));
     ([], IUsing "FlagManipulator" (TxApp "AssignmentFlagManipulator" [TxName "PayloadType";
         TxName "SentinelValue"]))].

(** optional.h:1956-1966 *)
Definition t1956_SelectDecomposition : tdef :=
  Template "SelectDecomposition" TClass []
    [("PayloadType", false, None); ("SentinelValue", false, None)]
    (Some [TxName "PayloadType"; TxName "SentinelValue"; TxName "UseDefaultValue"; TxApp
        "std::enable_if_t" [TxAnd (TxNot (TxApp "HasCustomInplaceFlagManipulator" [TxName
        "PayloadType"])) (TxNot (TxApp "std::is_same_v" [TxName "SentinelValue"; TxName
        "UseDefaultType"]))]])
    []
    [([], IConst "test" (TxMem (TxName "SelectedDecompositionTest")
        "SentinelValueSpecifiedForInplaceSwallowing"));
     ([], IUsing "StoredTypeDecomposition" (TxApp "InplaceStoredTypeDecomposition" [TxName
         "PayloadType"]));
     ([], IUsing "FlagManipulator" (TxApp "AssignmentFlagManipulator" [TxName "PayloadType";
         TxName "SentinelValue"]))].

(** optional.h:1971-1994 *)
Definition t1971_SelectDecomposition : tdef :=
  Template "SelectDecomposition" TClass []
    [("PayloadType", false, None); ("memPtrToFlag", false, None)]
    (Some [TxName "PayloadType"; TxName "UseDefaultType"; TxName "memPtrToFlag"; TxApp
        "std::enable_if_t" [TxAnd (TxApp "std::is_member_object_pointer_v" [TxDecltype (TxName
        "memPtrToFlag")]) (TxApp "HasCustomInplaceFlagManipulator" [TxMem (TxApp
        "MemberPointerFragments" [TxName "memPtrToFlag"]) "VariableType"])]])
    []
    [([], IConst "test" (TxMem (TxName "SelectedDecompositionTest")
        "MemPtrSpecifiedToVariableWithCustomFlagManipulator"));
     ([], IAssert (TxApp "std::is_same_v" [TxName "PayloadType"; TxMem (TxApp
         "MemberPointerFragments" [TxName "memPtrToFlag"]) "ClassType"]));
     ([], IUsing "MemVarType" (TxMem (TxApp "MemberPointerFragments" [TxName "memPtrToFlag"])
         "VariableType"));
     (["!defined TINY_OPTIONAL_USE_SEPARATE_BOOL_INSTEAD_OF_MEMBER"], IUsing
         "StoredTypeDecomposition" (TxApp "InplaceDecompositionViaMemPtr" [TxName "PayloadType";
         TxName "memPtrToFlag"]));
     (["!defined TINY_OPTIONAL_USE_SEPARATE_BOOL_INSTEAD_OF_MEMBER"], IUsing "FlagManipulator"
         (TxApp "optional_flag_manipulator" [TxName "MemVarType"]));
     (["else of !defined TINY_OPTIONAL_USE_SEPARATE_BOOL_INSTEAD_OF_MEMBER"], IUsing
         "StoredTypeDecomposition" (TxApp "DecompositionForSeparateFlag" [TxName
         "PayloadType"]));
     (["else of !defined TINY_OPTIONAL_USE_SEPARATE_BOOL_INSTEAD_OF_MEMBER"], IUsing
         "FlagManipulator" (TxName "SeparateFlagManipulator"))].

(** optional.h:1999-2023 *)
Definition t1999_SelectDecomposition : tdef :=
  Template "SelectDecomposition" TClass []
    [("PayloadType", false, None); ("memPtrToFlag", false, None)]
    (Some [TxName "PayloadType"; TxName "UseDefaultType"; TxName "memPtrToFlag"; TxApp
        "std::enable_if_t" [TxAnd (TxApp "std::is_member_object_pointer_v" [TxDecltype (TxName
        "memPtrToFlag")]) (TxNot (TxApp "HasCustomInplaceFlagManipulator" [TxMem (TxApp
        "MemberPointerFragments" [TxName "memPtrToFlag"]) "VariableType"]))]])
    []
    [(["!defined TINY_OPTIONAL_USE_SEPARATE_BOOL_INSTEAD_OF_MEMBER"], IAssert (TxApp
        "always_false" [TxName "PayloadType"]));
     (["else of !defined TINY_OPTIONAL_USE_SEPARATE_BOOL_INSTEAD_OF_MEMBER"], IConst "test"
         (TxMem (TxName "SelectedDecompositionTest")
         "MemPtrSpecifiedToVariableWithoutCustomFlagManipulator"));
     (["else of !defined TINY_OPTIONAL_USE_SEPARATE_BOOL_INSTEAD_OF_MEMBER"], IAssert (TxApp
         "std::is_same_v" [TxName "PayloadType"; TxMem (TxApp "MemberPointerFragments" [TxName
         "memPtrToFlag"]) "ClassType"]));
     (["else of !defined TINY_OPTIONAL_USE_SEPARATE_BOOL_INSTEAD_OF_MEMBER"], IUsing
         "StoredTypeDecomposition" (TxApp "DecompositionForSeparateFlag" [TxName
         "PayloadType"]));
     (["else of !defined TINY_OPTIONAL_USE_SEPARATE_BOOL_INSTEAD_OF_MEMBER"], IUsing
         "FlagManipulator" (TxName "SeparateFlagManipulator"))].

(** optional.h:2028-2059 *)
Definition t2028_SelectDecomposition : tdef :=
  Template "SelectDecomposition" TClass []
    [("PayloadType", false, None); ("SentinelValue", false, None); ("memPtrToFlag", false,
        None)]
    (Some [TxName "PayloadType"; TxName "SentinelValue"; TxName "memPtrToFlag"; TxApp
        "std::enable_if_t" [TxAnd (TxAnd (TxNot (TxApp "std::is_same_v" [TxName "SentinelValue";
        TxName "UseDefaultType"])) (TxApp "std::is_member_object_pointer_v" [TxDecltype (TxName
        "memPtrToFlag")])) (TxApp "HasCustomInplaceFlagManipulator" [TxMem (TxApp
        "MemberPointerFragments" [TxName "memPtrToFlag"]) "VariableType"])]])
    []
    [([], IConst "test" (TxMem (TxName "SelectedDecompositionTest")
        "SentinelValueAndMemPtrSpecifiedForInplaceSwallowingForTypeWithCustomFlagManipulator"));
     ([], IAssert (TxApp "std::is_same_v" [TxName "PayloadType"; TxMem (TxApp
         "MemberPointerFragments" [TxName "memPtrToFlag"]) "ClassType"]));
     ([], IUsing "MemVarType" (TxMem (TxApp "MemberPointerFragments" [TxName "memPtrToFlag"])
         "VariableType"));
     (["!defined TINY_OPTIONAL_USE_SEPARATE_BOOL_INSTEAD_OF_MEMBER"], IUsing
         "StoredTypeDecomposition" (TxApp "InplaceDecompositionViaMemPtr" [TxName "PayloadType";
         TxName "memPtrToFlag"]));
     (["!defined TINY_OPTIONAL_USE_SEPARATE_BOOL_INSTEAD_OF_MEMBER"], IUsing "FlagManipulator"
         (TxApp "AssignmentFlagManipulator" [TxName "MemVarType"; TxName "SentinelValue"]));
     (["else of !defined TINY_OPTIONAL_USE_SEPARATE_BOOL_INSTEAD_OF_MEMBER"], IUsing
         "StoredTypeDecomposition" (TxApp "DecompositionForSeparateFlag" [TxName
         "PayloadType"]));
     (["else of !defined TINY_OPTIONAL_USE_SEPARATE_BOOL_INSTEAD_OF_MEMBER"], IUsing
         "FlagManipulator" (TxName "SeparateFlagManipulator"))].

(** optional.h:2064-2088 *)
Definition t2064_SelectDecomposition : tdef :=
  Template "SelectDecomposition" TClass []
    [("PayloadType", false, None); ("SentinelValue", false, None); ("memPtrToFlag", false,
        None)]
    (Some [TxName "PayloadType"; TxName "SentinelValue"; TxName "memPtrToFlag"; TxApp
        "std::enable_if_t" [TxAnd (TxAnd (TxNot (TxApp "std::is_same_v" [TxName "SentinelValue";
        TxName "UseDefaultType"])) (TxApp "std::is_member_object_pointer_v" [TxDecltype (TxName
        "memPtrToFlag")])) (TxNot (TxApp "HasCustomInplaceFlagManipulator" [TxMem (TxApp
        "MemberPointerFragments" [TxName "memPtrToFlag"]) "VariableType"]))]])
    []
    [([], IConst "test" (TxMem (TxName "SelectedDecompositionTest")
        "SentinelValueAndMemPtrSpecifiedForInplaceSwallowing"));
     ([], IAssert (TxApp "std::is_same_v" [TxName "PayloadType"; TxMem (TxApp
         "MemberPointerFragments" [TxName "memPtrToFlag"]) "ClassType"]));
     ([], IUsing "MemVarType" (TxMem (TxApp "MemberPointerFragments" [TxName "memPtrToFlag"])
         "VariableType"));
     (["!defined TINY_OPTIONAL_USE_SEPARATE_BOOL_INSTEAD_OF_MEMBER"], IUsing
         "StoredTypeDecomposition" (TxApp "InplaceDecompositionViaMemPtr" [TxName "PayloadType";
         TxName "memPtrToFlag"]));
     (["!defined TINY_OPTIONAL_USE_SEPARATE_BOOL_INSTEAD_OF_MEMBER"], IUsing "FlagManipulator"
         (TxApp "AssignmentFlagManipulator" [TxName "MemVarType"; TxName "SentinelValue"]));
     (["else of !defined TINY_OPTIONAL_USE_SEPARATE_BOOL_INSTEAD_OF_MEMBER"], IUsing
         "StoredTypeDecomposition" (TxApp "DecompositionForSeparateFlag" [TxName
         "PayloadType"]));
     (["else of !defined TINY_OPTIONAL_USE_SEPARATE_BOOL_INSTEAD_OF_MEMBER"], IUsing
         "FlagManipulator" (TxName "SeparateFlagManipulator"))].

(** optional.h:2100-2131 *)
Definition t2100_SelectSentinelValueAndMemPtrFromConstants : tdef :=
  Template "SelectSentinelValueAndMemPtrFromConstants" TClass []
    [("PayloadType_", false, None); ("sentinelOrMemPtr", false, None); ("irrelevantOrSentinel",
        false, None)]
    None
    []
    [([], IUsing "PayloadType" (TxName "PayloadType_"));
     ([], IUsing "sentinelOrMemPtrType" (TxDecltype (TxName "sentinelOrMemPtr")));
     ([], IUsing "irrelevantOrSentinelType" (TxDecltype (TxName "irrelevantOrSentinel")));
     ([], IUsing "SentinelValue" (TxApp "std::conditional_t" [TxApp
         "std::is_member_object_pointer_v" [TxName "sentinelOrMemPtrType"]; TxApp
         "std::conditional_t" [TxApp "std::is_same_v" [TxName "irrelevantOrSentinelType"; TxName
         "UseDefaultType"]; TxName "UseDefaultType"; TxApp "std::integral_constant" [TxName
         "irrelevantOrSentinelType"; TxName "irrelevantOrSentinel"]]; TxApp "std::conditional_t"
         [TxApp "std::is_same_v" [TxName "sentinelOrMemPtrType"; TxName "UseDefaultType"];
         TxName "UseDefaultType"; TxApp "std::integral_constant" [TxName "sentinelOrMemPtrType";
         TxName "sentinelOrMemPtr"]]]));
     ([], IConst "memPtr" (TxMem (TxApp "value_conditional" [TxApp
         "std::is_member_object_pointer_v" [TxName "sentinelOrMemPtrType"]; TxName
         "sentinelOrMemPtr"; TxName "UseDefaultValue"]) "value"))].

(** optional.h:2147-2148 *)
Definition t2147_TinyOptionalImplCombined : tdef :=
  Template "TinyOptionalImplCombined" TAlias []
    [("Options", false, None)]
    None
    [([], TxApp "TinyOptionalImpl" [TxMem (TxName "Options") "StoredTypeDecomposition"; TxMem
        (TxName "Options") "FlagManipulator"])]
    [].

(** optional.h:2155-2156 *)
Definition t2155_optional_sentinel_via_type : tdef :=
  Template "optional_sentinel_via_type" TAlias []
    [("PayloadType", false, None); ("SentinelValue", false, None); ("memPtr", false, Some
        (TxName "UseDefaultValue"))]
    None
    [([], TxApp "TinyOptionalImplCombined" [TxApp "SelectDecomposition" [TxName "PayloadType";
        TxName "SentinelValue"; TxName "memPtr"]])]
    [].

(** optional.h:2170-2173 *)
Definition t2170_TinyOptionalFromSelection : tdef :=
  Template "TinyOptionalFromSelection" TAlias []
    [("Selection", false, None)]
    None
    [([], TxApp "optional_sentinel_via_type" [TxMem (TxName "Selection") "PayloadType"; TxMem
        (TxName "Selection") "SentinelValue"; TxMem (TxName "Selection") "memPtr"])]
    [].

(** optional.h:2199-2271 *)
Definition t2199_optional : tdef :=
  Template "optional" TClass []
    [("PayloadType_", false, None); ("sentinelOrMemPtr", false, Some (TxName
        "UseDefaultValue")); ("irrelevantOrSentinel", false, Some (TxName "UseDefaultValue"))]
    None
    [([], TxApp "TinyOptionalFromSelection" [TxApp "SelectSentinelValueAndMemPtrFromConstants"
        [TxName "PayloadType_"; TxName "sentinelOrMemPtr"; TxName "irrelevantOrSentinel"]])]
    [([], IUsing "Base" (TxApp "TinyOptionalFromSelection" [TxApp
        "SelectSentinelValueAndMemPtrFromConstants" [TxName "PayloadType_"; TxName
        "sentinelOrMemPtr"; TxName "irrelevantOrSentinel"]]));
     ([], IUsing "value_type" (TxMem (TxName "Base") "value_type"));
     ([], IAssert (TxApp "std::is_same_v" [TxName "PayloadType_"; TxName "value_type"]))].

(** optional.h:2319-2319 *)
Definition t2319_optional_inplace : tdef :=
  Template "optional_inplace" TAlias []
    [("PayloadType", false, None); ("FlagManipulator", false, None)]
    None
    [([], TxApp "TinyOptionalImpl" [TxApp "InplaceStoredTypeDecomposition" [TxName
        "PayloadType"]; TxName "FlagManipulator"])]
    [].

(** optional.h:2329-2335 *)
Definition t2329_MissingSentinel : tdef :=
  Template "MissingSentinel" TClass []
    [("PayloadType", false, None)]
    None
    []
    [([], IAssert (TxApp "always_false" [TxName "PayloadType"]))].

(** optional.h:2345-2345 *)
Definition t2345_SwallowingDefaultSentinel : tdef :=
  Template "SwallowingDefaultSentinel" TVariable []
    [("PayloadType", false, None)]
    None
    [([], TxMem (TxApp "MissingSentinel" [TxName "PayloadType"]) "value")]
    [].

(** optional.h:2348-2348 *)
Definition t2348_SwallowingDefaultSentinel : tdef :=
  Template "SwallowingDefaultSentinel" TVariable []
    []
    (Some [TxName "unsigned short"])
    [([], TxName "USHRT_MAX")]
    [].

(** optional.h:2350-2350 *)
Definition t2350_SwallowingDefaultSentinel : tdef :=
  Template "SwallowingDefaultSentinel" TVariable []
    []
    (Some [TxName "unsigned int"])
    [([], TxName "UINT_MAX")]
    [].

(** optional.h:2352-2352 *)
Definition t2352_SwallowingDefaultSentinel : tdef :=
  Template "SwallowingDefaultSentinel" TVariable []
    []
    (Some [TxName "unsigned long"])
    [([], TxName "ULONG_MAX")]
    [].

(** optional.h:2354-2354 *)
Definition t2354_SwallowingDefaultSentinel : tdef :=
  Template "SwallowingDefaultSentinel" TVariable []
    []
    (Some [TxName "unsigned long long"])
    [([], TxName "ULLONG_MAX")]
    [].

(** optional.h:2357-2357 *)
Definition t2357_SwallowingDefaultSentinel : tdef :=
  Template "SwallowingDefaultSentinel" TVariable []
    []
    (Some [TxName "short"])
    [([], TxName "SHRT_MIN")]
    [].

(** optional.h:2359-2359 *)
Definition t2359_SwallowingDefaultSentinel : tdef :=
  Template "SwallowingDefaultSentinel" TVariable []
    []
    (Some [TxName "int"])
    [([], TxName "INT_MIN")]
    [].

(** optional.h:2361-2361 *)
Definition t2361_SwallowingDefaultSentinel : tdef :=
  Template "SwallowingDefaultSentinel" TVariable []
    []
    (Some [TxName "long"])
    [([], TxName "LONG_MIN")]
    [].

(** optional.h:2363-2363 *)
Definition t2363_SwallowingDefaultSentinel : tdef :=
  Template "SwallowingDefaultSentinel" TVariable []
    []
    (Some [TxName "long long"])
    [([], TxName "LLONG_MIN")]
    [].

(** optional.h:2369-2369 *)
Definition t2369_SelectSentinelValueWithSwallowing : tdef :=
  Template "SelectSentinelValueWithSwallowing" TVariable []
    [("PayloadType", false, None); ("hasFlagManip", false, Some (TxApp
        "HasCustomInplaceFlagManipulator" [TxName "PayloadType"]))]
    None
    [([], TxName "UseDefaultValue")]
    [].

(** optional.h:2373-2374 *)
Definition t2373_SelectSentinelValueWithSwallowing : tdef :=
  Template "SelectSentinelValueWithSwallowing" TVariable []
    [("PayloadType", false, None)]
    (Some [TxName "PayloadType"; TxBool false])
    [([], TxApp "SwallowingDefaultSentinel" [TxApp "std::remove_cv_t" [TxName "PayloadType"]])]
    [].

(** optional.h:2385-2385 *)
Definition t2385_optional_aip : tdef :=
  Template "optional_aip" TAlias []
    [("PayloadType", false, None); ("sentinelValue", false, Some (TxApp
        "SelectSentinelValueWithSwallowing" [TxName "PayloadType"]))]
    None
    [([], TxApp "optional" [TxName "PayloadType"; TxName "sentinelValue"])]
    [].

(** All of them, in the order of the header. *)
Definition templates : list tdef :=
  [t177_NoCustomInplaceFlagManipulator;
   t218_optional_flag_manipulator;
   t287_always_false;
   t298_value_conditional;
   t304_value_conditional;
   t573_DecompositionForSeparateFlag;
   t594_InplaceStoredTypeDecomposition;
   t624_InplaceDecompositionViaMemPtr;
   t865_SentinelForExploitingUnusedBitsIsKnown;
   t884_optional_flag_manipulator;
   t897_HasCustomInplaceFlagManipulator;
   t916_StorageBase;
   t1168_MoveConstructionBase;
   t1200_MoveConstructionBase;
   t1225_CopyConstructionBase;
   t1254_CopyConstructionBase;
   t1280_MoveAssignmentBase;
   t1314_MoveAssignmentBase;
   t1342_CopyAssignmentBase;
   t1370_CopyAssignmentBase;
   t1391_TinyOptionalImpl;
   t1898_SelectDecomposition;
   t1907_SelectDecomposition;
   t1921_SelectDecomposition;
   t1935_SelectDecomposition;
   t1956_SelectDecomposition;
   t1971_SelectDecomposition;
   t1999_SelectDecomposition;
   t2028_SelectDecomposition;
   t2064_SelectDecomposition;
   t2100_SelectSentinelValueAndMemPtrFromConstants;
   t2147_TinyOptionalImplCombined;
   t2155_optional_sentinel_via_type;
   t2170_TinyOptionalFromSelection;
   t2199_optional;
   t2319_optional_inplace;
   t2329_MissingSentinel;
   t2345_SwallowingDefaultSentinel;
   t2348_SwallowingDefaultSentinel;
   t2350_SwallowingDefaultSentinel;
   t2352_SwallowingDefaultSentinel;
   t2354_SwallowingDefaultSentinel;
   t2357_SwallowingDefaultSentinel;
   t2359_SwallowingDefaultSentinel;
   t2361_SwallowingDefaultSentinel;
   t2363_SwallowingDefaultSentinel;
   t2369_SelectSentinelValueWithSwallowing;
   t2373_SelectSentinelValueWithSwallowing;
   t2385_optional_aip].
