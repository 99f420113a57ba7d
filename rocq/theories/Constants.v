(** * Constants: the text of what the compiler executes

    Written by tools/cpp2coq.py --constants from /repo/include/tiny/optional.h; not edited
    by hand.  The functions as in [Source.v]; the sentinel constants with their types. *)

From Coq Require Import String List NArith.
From Verif Require Import Syntax.
Import ListNotations.
Local Open Scope string_scope.

(** optional.h:355-380 *)
Definition f355_IsIntegralInRange : fundef :=
  Fun "" "IsIntegralInRange" true
      [Param "SourceT" "value" false]
      false "" (Some (EBool true))
      (RValue "bool")
      []
      (Body [
        SStaticAssert (EName "std::is_integral_v<TargetT>");
        SStaticAssert (EName "std::is_integral_v<SourceT>");
        SIf true (EBin "==" (EName "std::is_signed_v<TargetT>") (EName
            "std::is_signed_v<SourceT>")) [
          SUsing "CommonT" "std::common_type_t<TargetT,SourceT>";
          SReturn (Some (EBin "&&" (EBin "<=" (ECast "static_cast" "CommonT" (ECall (EName
              "std::numeric_limits<TargetT>::lowest") [])) (ECast "static_cast" "CommonT" (EName
              "value"))) (EBin "<=" (ECast "static_cast" "CommonT" (EName "value")) (ECast
              "static_cast" "CommonT" (ECall (EName "std::numeric_limits<TargetT>::max")
              [])))))] [SIf true (EName "std::is_signed_v<SourceT>") [
          SReturn (Some (EBin "&&" (EBin ">=" (EName "value") (ENum 0)) (ECall (EName
              "IsIntegralInRange<TargetT>") [ECast "static_cast" "std::make_unsigned_t<SourceT>"
              (EName "value")])))] [
          SDecl "TargetT" "targetMax" [ECall (EName "std::numeric_limits<TargetT>::max") []];
          SStaticAssert (EName "std::is_signed_v<TargetT>");
          SStaticAssert (EBin ">" (EName "targetMax") (ENum 0));
          SUsing "TargetUnsignedT" "std::make_unsigned_t<TargetT>";
          SUsing "CommonUnsignedT" "std::common_type_t<SourceT,TargetUnsignedT>";
          SReturn (Some (EBin "<=" (ECast "static_cast" "CommonUnsignedT" (EName "value"))
              (ECast "static_cast" "CommonUnsignedT" (EName "targetMax"))))]]]).

(** optional.h:775-812, AssignmentFlagManipulator *)
Definition f775_ConvertSentinelToFlagType : fundef :=
  Fun "AssignmentFlagManipulator" "ConvertSentinelToFlagType" true
      []
      false "" (Some (EBool true))
      (RValue "std::remove_cv_t<FlagType>")
      []
      (Body [
        SUsing "ValueType" "std::remove_cv_t<decltype(SentinelValue::value)>";
        SUsing "FlagTypeNoCV" "std::remove_cv_t<FlagType>";
        SIf true (EBin "||" (EName "std::is_same_v<FlagTypeNoCV,bool>") (EName
            "std::is_same_v<ValueType,bool>")) [
          SStaticAssert (EName "std::is_same_v<FlagTypeNoCV,ValueType>");
          SReturn (Some (EName "SentinelValue::value"))] [SIf true (EBin "&&" (EName
              "std::is_integral_v<FlagTypeNoCV>") (EName "std::is_integral_v<ValueType>")) [
          SStaticAssert (ECall (EName "IsIntegralInRange<FlagTypeNoCV>") [EName
              "SentinelValue::value"]);
          SReturn (Some (ECast "static_cast" "FlagTypeNoCV" (EName "SentinelValue::value")))]
              [SIf true (EBin "||" (EName "std::is_floating_point_v<FlagTypeNoCV>") (EName
              "std::is_floating_point_v<ValueType>")) [
          SStaticAssert (EName "std::is_same_v<FlagTypeNoCV,ValueType>");
          SReturn (Some (EName "SentinelValue::value"))] [
          SReturn (Some (EName "SentinelValue::value"))]]]]).

(** Literals and differences of them. *)
Inductive cexpr : Type :=
| CNum (n : N)
| CSub (a b : cexpr).

(** Specialisation, condition, type and value of the constant [value] (optional.h:426, 437, 451, 492, 497). *)
Definition sentinels : list (string * (string * (string * cexpr))) :=
  [("SentinelForExploitingUnusedBits<bool>", ("", ("std::uint8_t", CNum 254)));
   ("SentinelForExploitingUnusedBits<double>", ("", ("std::uint64_t", CNum 9221400461017904724)));
   ("SentinelForExploitingUnusedBits<float>", ("", ("std::uint32_t", CNum 2146290601)));
   ("SentinelForExploitingUnusedBits<T*>", ("defined TINY_OPTIONAL_x64", ("std::uintptr_t", CSub (CNum 18446603336221196288) (CNum 1))));
   ("SentinelForExploitingUnusedBits<T*>", ("elif of defined TINY_OPTIONAL_x64", ("std::uintptr_t", CSub (CNum 4294967295) (CNum 8))))]%N.
