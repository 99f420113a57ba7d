(** * Constexpr: the functions that optional.h declares constexpr

    Written by tools/cpp2coq.py --constexpr from /repo/include/tiny/optional.h; not edited
    by hand.  The functions are those of [Source.v], [Constants.v] and [Library.v]. *)

From Coq Require Import List.
From Verif Require Import Syntax Source Constants.
From Verif Require Library.
Import ListNotations.

Definition constexpr_functions : list fundef :=
  [f355_IsIntegralInRange;
   f578_GetIsEmptyFlag;
   f583_GetPayload;
   f599_GetIsEmptyFlag;
   f604_GetPayload;
   f637_GetIsEmptyFlag;
   f642_GetPayload;
   f775_ConvertSentinelToFlagType;
   f1682_and_then;
   f1695_and_then;
   f1708_and_then;
   f1721_and_then;
   f1734_transform;
   f1757_transform;
   f1777_transform;
   f1797_transform;
   f1820_or_else;
   f1830_or_else;
   f2253_or_else;
   f2263_or_else].

Definition constexpr_declared : list Library.fdecl :=
  [Library.l253_IsTinyOptionalHelper;
   Library.l259_IsTinyOptionalHelper].
