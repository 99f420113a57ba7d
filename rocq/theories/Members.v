(** * Members: what the classes of optional.h declare, with the access

    Written by tools/cpp2coq.py --members from /repo/include/tiny/optional.h; not edited by
    hand.  Types and base classes without their template arguments. *)

From Coq Require Import String List.
Import ListNotations.
Local Open Scope string_scope.

(** Declarations in a class: a function, a variable (and its type), a type (and what it is
    an alias of), a using-declaration for a member of the base class, a friend, anything
    else.  [DUsing "Base"]: the constructors of the base class are inherited. *)
Inductive declared : Type :=
| DFun (x : string)
| DData (x t : string)
| DType (x t : string)
| DUsing (x : string)
| DFriend
| DOther.

(** Access, declaration, #if conditions. *)
Record member : Type := Member {
  m_access : string;
  m_declared : declared;
  m_guard : list string
}.

(** A class: name, a partial specialisation?, template parameters, base classes with the
    access, the base classes with their template arguments, what the class calls [Base],
    members. *)
Record klass : Type := Klass {
  k_name : string;
  k_special : bool;
  k_params : list string;
  k_bases : list (string * string);
  k_base_texts : list string;
  k_base_alias : option string;
  k_members : list member
}.

(** optional.h:231-247 *)
Definition k231_sentinel_flag_manipulator : klass :=
  Klass "sentinel_flag_manipulator" false ["PayloadType"; "SentinelValue"] []
    [] None
    [Member "public" (DFun "is_empty") [];
     Member "public" (DFun "init_empty_flag") [];
     Member "public" (DFun "invalidate_empty_flag") []].

(** optional.h:517-528 *)
Definition k517_SeparateFlagStorage : klass :=
  Klass "SeparateFlagStorage" false ["PayloadType"] []
    [] None
    [Member "public" (DData "payload" "std::remove_const_t") [];
     Member "public" (DData "isEmptyFlag" "bool") [];
     Member "public" (DFun "SeparateFlagStorage") [];
     Member "public" (DFun "~SeparateFlagStorage") []].

(** optional.h:533-544 *)
Definition k533_InplaceStorage : klass :=
  Klass "InplaceStorage" false ["PayloadType"] []
    [] None
    [Member "public" (DData "storage" "std::remove_const_t") [];
     Member "public" (DFun "InplaceStorage") [];
     Member "public" (DFun "~InplaceStorage") []].

(** optional.h:573-587 *)
Definition k573_DecompositionForSeparateFlag : klass :=
  Klass "DecompositionForSeparateFlag" false ["PayloadType_"] []
    [] None
    [Member "public" (DType "PayloadType" "PayloadType_") [];
     Member "public" (DType "StoredType" "SeparateFlagStorage") [];
     Member "public" (DFun "GetIsEmptyFlag") [];
     Member "public" (DFun "GetPayload") []].

(** optional.h:594-608 *)
Definition k594_InplaceStoredTypeDecomposition : klass :=
  Klass "InplaceStoredTypeDecomposition" false ["PayloadType_"] []
    [] None
    [Member "public" (DType "StoredType" "InplaceStorage") [];
     Member "public" (DType "PayloadType" "PayloadType_") [];
     Member "public" (DFun "GetIsEmptyFlag") [];
     Member "public" (DFun "GetPayload") []].

(** optional.h:624-646 *)
Definition k624_InplaceDecompositionViaMemPtr : klass :=
  Klass "InplaceDecompositionViaMemPtr" false ["PayloadType_"; "memPtrToIsEmptyFlag"] []
    [] None
    [Member "public" (DType "StoredType" "InplaceStorage") ["!defined TINY_OPTIONAL_USE_SEPARATE_BOOL_INSTEAD_OF_MEMBER"];
     Member "public" (DType "PayloadType" "PayloadType_") ["!defined TINY_OPTIONAL_USE_SEPARATE_BOOL_INSTEAD_OF_MEMBER"];
     Member "public" (DFun "GetIsEmptyFlag") ["!defined TINY_OPTIONAL_USE_SEPARATE_BOOL_INSTEAD_OF_MEMBER"];
     Member "public" (DFun "GetPayload") ["!defined TINY_OPTIONAL_USE_SEPARATE_BOOL_INSTEAD_OF_MEMBER"]].

(** optional.h:680-701 *)
Definition k680_SeparateFlagManipulator : klass :=
  Klass "SeparateFlagManipulator" false [] []
    [] None
    [Member "public" (DFun "is_empty") [];
     Member "public" (DFun "init_empty_flag") [];
     Member "public" (DFun "invalidate_empty_flag") []].

(** optional.h:710-759 *)
Definition k710_MemcpyAndCmpFlagManipulator : klass :=
  Klass "MemcpyAndCmpFlagManipulator" false ["FlagType"; "SentinelValue"] []
    [] None
    [Member "private" (DData "valueToIndicateEmpty" "auto") [];
     Member "public" (DFun "is_empty") [];
     Member "public" (DFun "init_empty_flag") [];
     Member "public" (DFun "invalidate_empty_flag") []].

(** optional.h:766-850 *)
Definition k766_AssignmentFlagManipulator : klass :=
  Klass "AssignmentFlagManipulator" false ["FlagType"; "SentinelValue"] []
    [] None
    [Member "private" (DFun "ConvertSentinelToFlagType") [];
     Member "private" (DData "valueToIndicateEmpty" "FlagType") [];
     Member "public" (DFun "is_empty") [];
     Member "public" (DFun "init_empty_flag") [];
     Member "public" (DFun "invalidate_empty_flag") []].

(** optional.h:916-1148 *)
Definition k916_StorageBase : klass :=
  Klass "StorageBase" false ["StoredTypeDecomposition"; "FlagManipulator"] []
    [] None
    [Member "public" (DType "StoredType" "StoredTypeDecomposition::StoredType") [];
     Member "public" (DType "PayloadType" "StoredTypeDecomposition::PayloadType") [];
     Member "public" (DType "FlagType" "std::remove_reference_t") [];
     Member "public" (DData "is_compressed" "bool") [];
     Member "public" (DFun "StorageBase") [];
     Member "public" (DFun "StorageBase") [];
     Member "public" (DFun "StorageBase") [];
     Member "public" (DFun "~StorageBase") [];
     Member "public" (DFun "StorageBase") [];
     Member "public" (DFun "StorageBase") [];
     Member "public" (DFun "operator=") [];
     Member "public" (DFun "operator=") [];
     Member "public" (DFun "has_value") [];
     Member "public" (DFun "GetIsEmptyFlag") [];
     Member "public" (DFun "GetIsEmptyFlag") [];
     Member "public" (DFun "GetPayload") [];
     Member "public" (DFun "GetPayload") [];
     Member "public" (DFun "DestroyPayload") [];
     Member "public" (DType "InitializeIsEmptyFlagScope" "") [];
     Member "public" (DFun "ConstructPayload") [];
     Member "public" (DFun "ConstructPayloadFromFunction") [];
     Member "public" (DFun "AssignValue") [];
     Member "public" (DFun "reset") [];
     Member "private" (DData "mStorage" "std::remove_const_t") []].

(** optional.h:1024-1040 *)
Definition k1024_InitializeIsEmptyFlagScope : klass :=
  Klass "InitializeIsEmptyFlagScope" false [] []
    [] None
    [Member "public" (DFun "InitializeIsEmptyFlagScope") [];
     Member "public" (DFun "~InitializeIsEmptyFlagScope") [];
     Member "public" (DData "opt" "StorageBase&") [];
     Member "public" (DData "doNotInitialize" "bool") []].

(** optional.h:1168-1195 *)
Definition k1168_MoveConstructionBase : klass :=
  Klass "MoveConstructionBase" false ["StoredTypeDecomposition"; "FlagManipulator"] [("public", "StorageBase")]
    ["StorageBase<StoredTypeDecomposition,FlagManipulator>"] (Some
        "StorageBase<StoredTypeDecomposition,FlagManipulator>")
    [Member "public" (DType "Base" "StorageBase") [];
     Member "public" (DUsing "Base") [];
     Member "public" (DType "PayloadType" "Base::PayloadType") [];
     Member "public" (DFun "MoveConstructionBase") [];
     Member "public" (DFun "MoveConstructionBase") [];
     Member "public" (DFun "MoveConstructionBase") []].

(** optional.h:1200-1209 *)
Definition k1200_MoveConstructionBase : klass :=
  Klass "MoveConstructionBase" true ["StoredTypeDecomposition"; "FlagManipulator"] [("public", "StorageBase")]
    ["StorageBase<StoredTypeDecomposition,FlagManipulator>"] (Some
        "StorageBase<StoredTypeDecomposition,FlagManipulator>")
    [Member "public" (DType "Base" "StorageBase") [];
     Member "public" (DUsing "Base") [];
     Member "public" (DFun "MoveConstructionBase") [];
     Member "public" (DFun "MoveConstructionBase") [];
     Member "public" (DFun "MoveConstructionBase") []].

(** optional.h:1225-1249 *)
Definition k1225_CopyConstructionBase : klass :=
  Klass "CopyConstructionBase" false ["StoredTypeDecomposition"; "FlagManipulator"] [("public", "MoveConstructionBase")]
    ["MoveConstructionBase<StoredTypeDecomposition,FlagManipulator>"] (Some
        "MoveConstructionBase<StoredTypeDecomposition,FlagManipulator>")
    [Member "public" (DType "Base" "MoveConstructionBase") [];
     Member "public" (DType "PayloadType" "Base::PayloadType") [];
     Member "public" (DUsing "Base") [];
     Member "public" (DFun "CopyConstructionBase") [];
     Member "public" (DFun "CopyConstructionBase") [];
     Member "public" (DFun "CopyConstructionBase") []].

(** optional.h:1254-1263 *)
Definition k1254_CopyConstructionBase : klass :=
  Klass "CopyConstructionBase" true ["StoredTypeDecomposition"; "FlagManipulator"] [("public", "MoveConstructionBase")]
    ["MoveConstructionBase<StoredTypeDecomposition,FlagManipulator>"] (Some
        "MoveConstructionBase<StoredTypeDecomposition,FlagManipulator>")
    [Member "public" (DType "Base" "MoveConstructionBase") [];
     Member "public" (DUsing "Base") [];
     Member "public" (DFun "CopyConstructionBase") [];
     Member "public" (DFun "CopyConstructionBase") [];
     Member "public" (DFun "CopyConstructionBase") []].

(** optional.h:1280-1309 *)
Definition k1280_MoveAssignmentBase : klass :=
  Klass "MoveAssignmentBase" false ["StoredTypeDecomposition"; "FlagManipulator"] [("public", "CopyConstructionBase")]
    ["CopyConstructionBase<StoredTypeDecomposition,FlagManipulator>"] (Some
        "CopyConstructionBase<StoredTypeDecomposition,FlagManipulator>")
    [Member "public" (DType "Base" "CopyConstructionBase") [];
     Member "public" (DUsing "Base") [];
     Member "public" (DType "PayloadType" "Base::PayloadType") [];
     Member "public" (DFun "MoveAssignmentBase") [];
     Member "public" (DFun "MoveAssignmentBase") [];
     Member "public" (DFun "MoveAssignmentBase") [];
     Member "public" (DFun "operator=") [];
     Member "public" (DFun "operator=") []].

(** optional.h:1314-1325 *)
Definition k1314_MoveAssignmentBase : klass :=
  Klass "MoveAssignmentBase" true ["StoredTypeDecomposition"; "FlagManipulator"] [("public", "CopyConstructionBase")]
    ["CopyConstructionBase<StoredTypeDecomposition,FlagManipulator>"] (Some
        "CopyConstructionBase<StoredTypeDecomposition,FlagManipulator>")
    [Member "public" (DType "Base" "CopyConstructionBase") [];
     Member "public" (DUsing "Base") [];
     Member "public" (DFun "MoveAssignmentBase") [];
     Member "public" (DFun "MoveAssignmentBase") [];
     Member "public" (DFun "MoveAssignmentBase") [];
     Member "public" (DFun "operator=") [];
     Member "public" (DFun "operator=") []].

(** optional.h:1342-1365 *)
Definition k1342_CopyAssignmentBase : klass :=
  Klass "CopyAssignmentBase" false ["StoredTypeDecomposition"; "FlagManipulator"] [("public", "MoveAssignmentBase")]
    ["MoveAssignmentBase<StoredTypeDecomposition,FlagManipulator>"] (Some
        "MoveAssignmentBase<StoredTypeDecomposition,FlagManipulator>")
    [Member "public" (DType "Base" "MoveAssignmentBase") [];
     Member "public" (DUsing "Base") [];
     Member "public" (DFun "CopyAssignmentBase") [];
     Member "public" (DFun "CopyAssignmentBase") [];
     Member "public" (DFun "CopyAssignmentBase") [];
     Member "public" (DFun "operator=") [];
     Member "public" (DFun "operator=") []].

(** optional.h:1370-1382 *)
Definition k1370_CopyAssignmentBase : klass :=
  Klass "CopyAssignmentBase" true ["StoredTypeDecomposition"; "FlagManipulator"] [("public", "MoveAssignmentBase")]
    ["MoveAssignmentBase<StoredTypeDecomposition,FlagManipulator>"] (Some
        "MoveAssignmentBase<StoredTypeDecomposition,FlagManipulator>")
    [Member "public" (DType "Base" "MoveAssignmentBase") [];
     Member "public" (DUsing "Base") [];
     Member "public" (DFun "CopyAssignmentBase") [];
     Member "public" (DFun "CopyAssignmentBase") [];
     Member "public" (DFun "CopyAssignmentBase") [];
     Member "public" (DFun "operator=") [];
     Member "public" (DFun "operator=") []].

(** optional.h:1391-1838 *)
Definition k1391_TinyOptionalImpl : klass :=
  Klass "TinyOptionalImpl" false ["StoredTypeDecomposition"; "FlagManipulator"] [("private", "CopyAssignmentBase")]
    ["CopyAssignmentBase<StoredTypeDecomposition,FlagManipulator>"] (Some
        "CopyAssignmentBase<StoredTypeDecomposition,FlagManipulator>")
    [Member "private" (DType "Base" "CopyAssignmentBase") [];
     Member "private" (DType "PayloadType" "Base::PayloadType") [];
     Member "private" (DUsing "ConstructPayload") [];
     Member "private" (DUsing "GetIsEmptyFlag") [];
     Member "private" (DUsing "GetPayload") [];
     Member "private" (DType "EnableConvertingConstructor" "std::bool_constant") [];
     Member "protected" (DType "EnableConvertingAssignment" "std::bool_constant") [];
     Member "public" (DType "value_type" "PayloadType") [];
     Member "public" (DUsing "has_value") [];
     Member "public" (DUsing "reset") [];
     Member "public" (DData "is_tiny_optional" "bool") [];
     Member "public" (DUsing "is_compressed") [];
     Member "public" (DFun "TinyOptionalImpl") [];
     Member "public" (DFun "TinyOptionalImpl") [];
     Member "public" (DFun "TinyOptionalImpl") [];
     Member "public" (DFun "operator=") [];
     Member "public" (DFun "operator=") [];
     Member "public" (DFun "~TinyOptionalImpl") [];
     Member "public" (DFun "TinyOptionalImpl") [];
     Member "public" (DFun "TinyOptionalImpl") [];
     Member "public" (DFun "TinyOptionalImpl") [];
     Member "public" (DFun "TinyOptionalImpl") [];
     Member "public" (DFun "TinyOptionalImpl") [];
     Member "public" (DFun "TinyOptionalImpl") [];
     Member "public" (DFun "operator=") [];
     Member "public" (DFun "operator=") [];
     Member "public" (DFun "emplace") [];
     Member "public" (DFun "emplace") [];
     Member "public" (DFun "operator bool") [];
     Member "public" (DFun "operator->") [];
     Member "public" (DFun "operator->") [];
     Member "public" (DFun "operator*") [];
     Member "public" (DFun "operator*") [];
     Member "public" (DFun "operator*") [];
     Member "public" (DFun "operator*") [];
     Member "public" (DFun "value") [];
     Member "public" (DFun "value") [];
     Member "public" (DFun "value") [];
     Member "public" (DFun "value") [];
     Member "public" (DFun "value_or") [];
     Member "public" (DFun "value_or") [];
     Member "public" (DFun "swap") [];
     Member "public" (DFun "and_then") [];
     Member "public" (DFun "and_then") [];
     Member "public" (DFun "and_then") [];
     Member "public" (DFun "and_then") [];
     Member "public" (DFun "transform") [];
     Member "public" (DFun "transform") [];
     Member "public" (DFun "transform") [];
     Member "public" (DFun "transform") [];
     Member "public" (DFun "or_else") ["defined TINY_OPTIONAL_ENABLE_ORELSE"];
     Member "public" (DFun "or_else") ["defined TINY_OPTIONAL_ENABLE_ORELSE"]].

(** optional.h:2199-2271 *)
Definition k2199_optional : klass :=
  Klass "optional" false ["PayloadType_"; "sentinelOrMemPtr"; "irrelevantOrSentinel"] [("public", "TinyOptionalFromSelection")]
["TinyOptionalFromSelection<SelectSentinelValueAndMemPtrFromConstants<PayloadType_,sentinelOrMemPtr,irrelevantOrSentinel>>"]
        (Some
        "TinyOptionalFromSelection<SelectSentinelValueAndMemPtrFromConstants<PayloadType_,sentinelOrMemPtr,irrelevantOrSentinel>>")
    [Member "private" (DType "Base" "TinyOptionalFromSelection") [];
     Member "public" (DUsing "value_type") [];
     Member "public" (DFun "optional") [];
     Member "public" (DFun "optional") [];
     Member "public" (DFun "optional") [];
     Member "public" (DFun "operator=") [];
     Member "public" (DFun "operator=") [];
     Member "public" (DFun "~optional") [];
     Member "public" (DUsing "Base") [];
     Member "public" (DUsing "operator->") [];
     Member "public" (DUsing "operator*") [];
     Member "public" (DUsing "operator bool") [];
     Member "public" (DUsing "and_then") [];
     Member "public" (DUsing "emplace") [];
     Member "public" (DUsing "has_value") [];
     Member "public" (DUsing "reset") [];
     Member "public" (DUsing "swap") [];
     Member "public" (DUsing "transform") [];
     Member "public" (DUsing "value") [];
     Member "public" (DUsing "value_or") [];
     Member "public" (DFun "operator=") [];
     Member "public" (DFun "operator=") [];
     Member "public" (DFun "or_else") ["defined TINY_OPTIONAL_ENABLE_ORELSE"];
     Member "public" (DFun "or_else") ["defined TINY_OPTIONAL_ENABLE_ORELSE"]].

(** optional.h:177-179 *)
Definition k177_NoCustomInplaceFlagManipulator : klass :=
  Klass "NoCustomInplaceFlagManipulator" false [] []
    [] None
    [].

(** optional.h:218-220 *)
Definition k218_optional_flag_manipulator : klass :=
  Klass "optional_flag_manipulator" false ["PayloadType"; "Enable"] [("public", "NoCustomInplaceFlagManipulator")]
    ["NoCustomInplaceFlagManipulator"] None
    [].

(** optional.h:298-301 *)
Definition k298_value_conditional : klass :=
  Klass "value_conditional" false ["B"; "val1"; "val2"] []
    [] None
    [Member "public" (DData "value" "auto") []].

(** optional.h:304-307 *)
Definition k304_value_conditional : klass :=
  Klass "value_conditional" true ["val1"; "val2"] []
    [] None
    [Member "public" (DData "value" "auto") []].

(** optional.h:344-348 *)
Definition k344_MemberPointerFragments : klass :=
  Klass "MemberPointerFragments" true ["ClassType_"; "VariableType_"; "memberPointer"] []
    [] None
    [Member "public" (DType "ClassType" "ClassType_") [];
     Member "public" (DType "VariableType" "VariableType_") []].

(** optional.h:386-388 *)
Definition k386_DirectInitializationFromFunctionTag : klass :=
  Klass "DirectInitializationFromFunctionTag" false [] []
    [] None
    [].

(** optional.h:401-408 *)
Definition k401_SentinelForExploitingUnusedBits : klass :=
  Klass "SentinelForExploitingUnusedBits" false ["T"] []
    [] None
    [].

(** optional.h:420-428 *)
Definition k420_SentinelForExploitingUnusedBits : klass :=
  Klass "SentinelForExploitingUnusedBits" true [] []
    [] None
    [Member "public" (DData "value" "std::uint8_t") ["!defined TINY_OPTIONAL_USE_SEPARATE_BOOL_INSTEAD_OF_UNUSED_BITS"]].

(** optional.h:432-440 *)
Definition k432_SentinelForExploitingUnusedBits : klass :=
  Klass "SentinelForExploitingUnusedBits" true [] []
    [] None
    [Member "public" (DData "value" "std::uint64_t") ["!defined TINY_OPTIONAL_USE_SEPARATE_BOOL_INSTEAD_OF_UNUSED_BITS"]].

(** optional.h:444-454 *)
Definition k444_SentinelForExploitingUnusedBits : klass :=
  Klass "SentinelForExploitingUnusedBits" true [] []
    [] None
    [Member "public" (DData "value" "std::uint32_t") ["!defined TINY_OPTIONAL_USE_SEPARATE_BOOL_INSTEAD_OF_UNUSED_BITS"]].

(** optional.h:460-506 *)
Definition k460_SentinelForExploitingUnusedBits : klass :=
  Klass "SentinelForExploitingUnusedBits" true ["T"] []
    [] None
    [Member "public" (DData "value" "std::uintptr_t") ["!defined TINY_OPTIONAL_USE_SEPARATE_BOOL_INSTEAD_OF_UNUSED_BITS"; "defined TINY_OPTIONAL_x64"];
     Member "public" (DData "value" "std::uintptr_t") ["!defined TINY_OPTIONAL_USE_SEPARATE_BOOL_INSTEAD_OF_UNUSED_BITS"; "elif of defined TINY_OPTIONAL_x64"]].

(** optional.h:884-889 *)
Definition k884_optional_flag_manipulator : klass :=
  Klass "optional_flag_manipulator" true ["PayloadType"] [("public", "MemcpyAndCmpFlagManipulator")]
["MemcpyAndCmpFlagManipulator<PayloadType,SentinelForExploitingUnusedBits<std::remove_cv_t<PayloadType>>>"]
        None
    [].

(** optional.h:1898-1903 *)
Definition k1898_SelectDecomposition : klass :=
  Klass "SelectDecomposition" false ["PayloadType"; "SentinelValue"; "memPtrToFlag"] []
    [] None
    [].

(** optional.h:1907-1917 *)
Definition k1907_SelectDecomposition : klass :=
  Klass "SelectDecomposition" true ["PayloadType"] []
    [] None
    [Member "public" (DData "test" "auto") [];
     Member "public" (DType "StoredTypeDecomposition" "DecompositionForSeparateFlag") [];
     Member "public" (DType "FlagManipulator" "SeparateFlagManipulator") []].

(** optional.h:1921-1931 *)
Definition k1921_SelectDecomposition : klass :=
  Klass "SelectDecomposition" true ["PayloadType"] []
    [] None
    [Member "public" (DData "test" "auto") [];
     Member "public" (DType "StoredTypeDecomposition" "InplaceStoredTypeDecomposition") [];
     Member "public" (DType "FlagManipulator" "optional_flag_manipulator") []].

(** optional.h:1935-1952 *)
Definition k1935_SelectDecomposition : klass :=
  Klass "SelectDecomposition" true ["PayloadType"; "SentinelValue"] []
    [] None
    [Member "public" (DData "test" "auto") [];
     Member "public" (DType "StoredTypeDecomposition" "InplaceStoredTypeDecomposition") [];
     Member "public" (DType "FlagManipulator" "AssignmentFlagManipulator") []].

(** optional.h:1956-1966 *)
Definition k1956_SelectDecomposition : klass :=
  Klass "SelectDecomposition" true ["PayloadType"; "SentinelValue"] []
    [] None
    [Member "public" (DData "test" "auto") [];
     Member "public" (DType "StoredTypeDecomposition" "InplaceStoredTypeDecomposition") [];
     Member "public" (DType "FlagManipulator" "AssignmentFlagManipulator") []].

(** optional.h:1971-1994 *)
Definition k1971_SelectDecomposition : klass :=
  Klass "SelectDecomposition" true ["PayloadType"; "memPtrToFlag"] []
    [] None
    [Member "public" (DData "test" "auto") [];
     Member "public" (DType "MemVarType" "MemberPointerFragments::VariableType") [];
     Member "public" (DType "StoredTypeDecomposition" "InplaceDecompositionViaMemPtr") ["!defined TINY_OPTIONAL_USE_SEPARATE_BOOL_INSTEAD_OF_MEMBER"];
     Member "public" (DType "FlagManipulator" "optional_flag_manipulator") ["!defined TINY_OPTIONAL_USE_SEPARATE_BOOL_INSTEAD_OF_MEMBER"];
     Member "public" (DType "StoredTypeDecomposition" "DecompositionForSeparateFlag") ["else of !defined TINY_OPTIONAL_USE_SEPARATE_BOOL_INSTEAD_OF_MEMBER"];
     Member "public" (DType "FlagManipulator" "SeparateFlagManipulator") ["else of !defined TINY_OPTIONAL_USE_SEPARATE_BOOL_INSTEAD_OF_MEMBER"]].

(** optional.h:1999-2023 *)
Definition k1999_SelectDecomposition : klass :=
  Klass "SelectDecomposition" true ["PayloadType"; "memPtrToFlag"] []
    [] None
    [Member "public" (DData "test" "auto") ["else of !defined TINY_OPTIONAL_USE_SEPARATE_BOOL_INSTEAD_OF_MEMBER"];
     Member "public" (DType "StoredTypeDecomposition" "DecompositionForSeparateFlag") ["else of !defined TINY_OPTIONAL_USE_SEPARATE_BOOL_INSTEAD_OF_MEMBER"];
     Member "public" (DType "FlagManipulator" "SeparateFlagManipulator") ["else of !defined TINY_OPTIONAL_USE_SEPARATE_BOOL_INSTEAD_OF_MEMBER"]].

(** optional.h:2028-2059 *)
Definition k2028_SelectDecomposition : klass :=
  Klass "SelectDecomposition" true ["PayloadType"; "SentinelValue"; "memPtrToFlag"] []
    [] None
    [Member "public" (DData "test" "auto") [];
     Member "public" (DType "MemVarType" "MemberPointerFragments::VariableType") [];
     Member "public" (DType "StoredTypeDecomposition" "InplaceDecompositionViaMemPtr") ["!defined TINY_OPTIONAL_USE_SEPARATE_BOOL_INSTEAD_OF_MEMBER"];
     Member "public" (DType "FlagManipulator" "AssignmentFlagManipulator") ["!defined TINY_OPTIONAL_USE_SEPARATE_BOOL_INSTEAD_OF_MEMBER"];
     Member "public" (DType "StoredTypeDecomposition" "DecompositionForSeparateFlag") ["else of !defined TINY_OPTIONAL_USE_SEPARATE_BOOL_INSTEAD_OF_MEMBER"];
     Member "public" (DType "FlagManipulator" "SeparateFlagManipulator") ["else of !defined TINY_OPTIONAL_USE_SEPARATE_BOOL_INSTEAD_OF_MEMBER"]].

(** optional.h:2064-2088 *)
Definition k2064_SelectDecomposition : klass :=
  Klass "SelectDecomposition" true ["PayloadType"; "SentinelValue"; "memPtrToFlag"] []
    [] None
    [Member "public" (DData "test" "auto") [];
     Member "public" (DType "MemVarType" "MemberPointerFragments::VariableType") [];
     Member "public" (DType "StoredTypeDecomposition" "InplaceDecompositionViaMemPtr") ["!defined TINY_OPTIONAL_USE_SEPARATE_BOOL_INSTEAD_OF_MEMBER"];
     Member "public" (DType "FlagManipulator" "AssignmentFlagManipulator") ["!defined TINY_OPTIONAL_USE_SEPARATE_BOOL_INSTEAD_OF_MEMBER"];
     Member "public" (DType "StoredTypeDecomposition" "DecompositionForSeparateFlag") ["else of !defined TINY_OPTIONAL_USE_SEPARATE_BOOL_INSTEAD_OF_MEMBER"];
     Member "public" (DType "FlagManipulator" "SeparateFlagManipulator") ["else of !defined TINY_OPTIONAL_USE_SEPARATE_BOOL_INSTEAD_OF_MEMBER"]].

(** optional.h:2100-2131 *)
Definition k2100_SelectSentinelValueAndMemPtrFromConstants : klass :=
  Klass "SelectSentinelValueAndMemPtrFromConstants" false ["PayloadType_"; "sentinelOrMemPtr"; "irrelevantOrSentinel"] []
    [] None
    [Member "public" (DType "PayloadType" "PayloadType_") [];
     Member "public" (DType "sentinelOrMemPtrType" "decltype(sentinelOrMemPtr)") [];
     Member "public" (DType "irrelevantOrSentinelType" "decltype(irrelevantOrSentinel)") [];
     Member "public" (DType "SentinelValue" "std::conditional_t") [];
     Member "public" (DData "memPtr" "auto") []].

(** optional.h:2329-2335 *)
Definition k2329_MissingSentinel : klass :=
  Klass "MissingSentinel" false ["PayloadType"] []
    [] None
    [].

(** optional.h:2779-2790 *)
Definition k2779_hash : klass :=
  Klass "hash" true ["StoredTypeDecomposition"; "FlagManipulator"] []
    [] None
    [Member "public" (DFun "operator()") []].

(** optional.h:2794-2805 *)
Definition k2794_hash : klass :=
  Klass "hash" true ["PayloadType"; "sentinelOrMemPtr"; "irrelevantOrSentinel"] []
    [] None
    [Member "public" (DFun "operator()") []].

(** Those that have functions or storage. *)
Definition klasses : list klass :=
  [k231_sentinel_flag_manipulator;
   k517_SeparateFlagStorage;
   k533_InplaceStorage;
   k573_DecompositionForSeparateFlag;
   k594_InplaceStoredTypeDecomposition;
   k624_InplaceDecompositionViaMemPtr;
   k680_SeparateFlagManipulator;
   k710_MemcpyAndCmpFlagManipulator;
   k766_AssignmentFlagManipulator;
   k916_StorageBase;
   k1024_InitializeIsEmptyFlagScope;
   k1168_MoveConstructionBase;
   k1200_MoveConstructionBase;
   k1225_CopyConstructionBase;
   k1254_CopyConstructionBase;
   k1280_MoveAssignmentBase;
   k1314_MoveAssignmentBase;
   k1342_CopyAssignmentBase;
   k1370_CopyAssignmentBase;
   k1391_TinyOptionalImpl;
   k2199_optional].

(** The other classes: traits, default flag manipulators, std::hash. *)
Definition other_klasses : list klass :=
  [k177_NoCustomInplaceFlagManipulator;
   k218_optional_flag_manipulator;
   k298_value_conditional;
   k304_value_conditional;
   k344_MemberPointerFragments;
   k386_DirectInitializationFromFunctionTag;
   k401_SentinelForExploitingUnusedBits;
   k420_SentinelForExploitingUnusedBits;
   k432_SentinelForExploitingUnusedBits;
   k444_SentinelForExploitingUnusedBits;
   k460_SentinelForExploitingUnusedBits;
   k884_optional_flag_manipulator;
   k1898_SelectDecomposition;
   k1907_SelectDecomposition;
   k1921_SelectDecomposition;
   k1935_SelectDecomposition;
   k1956_SelectDecomposition;
   k1971_SelectDecomposition;
   k1999_SelectDecomposition;
   k2028_SelectDecomposition;
   k2064_SelectDecomposition;
   k2100_SelectSentinelValueAndMemPtrFromConstants;
   k2329_MissingSentinel;
   k2779_hash;
   k2794_hash].

(** What is declared at namespace scope. *)
Definition namespace_names : list string :=
  ["optional_flag_manipulator"; "UseDefaultType"; "UseDefaultValue"; "optional";
      "NoCustomInplaceFlagManipulator"; "sentinel_flag_manipulator"; "IsTinyOptionalHelper";
      "is_tiny_optional_v"; "always_false"; "my_remove_cvref_t"; "value_conditional";
      "ConditionalIdentity"; "EnableHashHelper"; "IsStdOptional"; "IsSomeOptional";
      "MemberPointerFragments"; "IsIntegralInRange"; "DirectInitializationFromFunctionTag";
      "SentinelForExploitingUnusedBits"; "SeparateFlagStorage"; "InplaceStorage";
      "DecompositionForSeparateFlag"; "InplaceStoredTypeDecomposition";
      "InplaceDecompositionViaMemPtr"; "SeparateFlagManipulator"; "MemcpyAndCmpFlagManipulator";
      "AssignmentFlagManipulator"; "SentinelForExploitingUnusedBitsIsKnown";
      "HasCustomInplaceFlagManipulator"; "StorageBase"; "MoveConstructionBase";
      "CopyConstructionBase"; "MoveAssignmentBase"; "CopyAssignmentBase"; "TinyOptionalImpl";
      "swap"; "SelectedDecompositionTest"; "NoArgsAndBehavesAsStdOptional";
      "NoArgsAndHasCustomFlagManipulator";
      "SentinelValueSpecifiedForInplaceSwallowingForTypeWithCustomFlagManipulator";
      "SentinelValueSpecifiedForInplaceSwallowing";
      "MemPtrSpecifiedToVariableWithCustomFlagManipulator";
      "MemPtrSpecifiedToVariableWithoutCustomFlagManipulator";
      "SentinelValueAndMemPtrSpecifiedForInplaceSwallowing";
      "SentinelValueAndMemPtrSpecifiedForInplaceSwallowingForTypeWithCustomFlagManipulator";
      "SelectDecomposition"; "SelectSentinelValueAndMemPtrFromConstants";
      "TinyOptionalImplCombined"; "optional_sentinel_via_type"; "TinyOptionalFromSelection";
      "make_optional"; "optional_inplace"; "MissingSentinel"; "SwallowingDefaultSentinel";
      "SelectSentinelValueWithSwallowing"; "optional_aip"; "operator=="; "operator!=";
      "operator<"; "operator<="; "operator>"; "operator>="; "operator<=>"; "hash"].
