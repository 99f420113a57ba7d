(** * Specials: the partial specialisations of the base classes of the optionals

    Written by tools/cpp2coq.py --specials from /repo/include/tiny/optional.h; not edited
    by hand.  The member functions as in [Source.v].  When a specialisation is used is
    part of [Templates.v]. *)

From Coq Require Import String List.
From Verif Require Import Syntax.
Import ListNotations.
Local Open Scope string_scope.

(** optional.h:1206-1206, MoveConstructionBase *)
Definition f1206_MoveConstructionBase : fundef :=
  Fun "MoveConstructionBase" "MoveConstructionBase" false
      []
      false "" None
      (RNone)
      []
      (Defaulted).

(** optional.h:1207-1207, MoveConstructionBase *)
Definition f1207_MoveConstructionBase : fundef :=
  Fun "MoveConstructionBase" "MoveConstructionBase" false
      [Param "MoveConstructionBase const&" "" false]
      false "" None
      (RNone)
      []
      (Defaulted).

(** optional.h:1208-1208, MoveConstructionBase *)
Definition f1208_MoveConstructionBase : fundef :=
  Fun "MoveConstructionBase" "MoveConstructionBase" false
      [Param "MoveConstructionBase&&" "" false]
      false "" None
      (RNone)
      []
      (Deleted).

(** optional.h:1260-1260, CopyConstructionBase *)
Definition f1260_CopyConstructionBase : fundef :=
  Fun "CopyConstructionBase" "CopyConstructionBase" false
      []
      false "" None
      (RNone)
      []
      (Defaulted).

(** optional.h:1261-1261, CopyConstructionBase *)
Definition f1261_CopyConstructionBase : fundef :=
  Fun "CopyConstructionBase" "CopyConstructionBase" false
      [Param "CopyConstructionBase const&" "" false]
      false "" None
      (RNone)
      []
      (Deleted).

(** optional.h:1262-1262, CopyConstructionBase *)
Definition f1262_CopyConstructionBase : fundef :=
  Fun "CopyConstructionBase" "CopyConstructionBase" false
      [Param "CopyConstructionBase&&" "" false]
      false "" None
      (RNone)
      []
      (Defaulted).

(** optional.h:1320-1320, MoveAssignmentBase *)
Definition f1320_MoveAssignmentBase : fundef :=
  Fun "MoveAssignmentBase" "MoveAssignmentBase" false
      []
      false "" None
      (RNone)
      []
      (Defaulted).

(** optional.h:1321-1321, MoveAssignmentBase *)
Definition f1321_MoveAssignmentBase : fundef :=
  Fun "MoveAssignmentBase" "MoveAssignmentBase" false
      [Param "MoveAssignmentBase const&" "" false]
      false "" None
      (RNone)
      []
      (Defaulted).

(** optional.h:1322-1322, MoveAssignmentBase *)
Definition f1322_MoveAssignmentBase : fundef :=
  Fun "MoveAssignmentBase" "MoveAssignmentBase" false
      [Param "MoveAssignmentBase&&" "" false]
      false "" None
      (RNone)
      []
      (Defaulted).

(** optional.h:1323-1323, MoveAssignmentBase *)
Definition f1323_op_assign : fundef :=
  Fun "MoveAssignmentBase" "operator=" false
      [Param "MoveAssignmentBase const&" "" false]
      false "" None
      (RRef false false "MoveAssignmentBase&")
      []
      (Defaulted).

(** optional.h:1324-1324, MoveAssignmentBase *)
Definition f1324_op_assign : fundef :=
  Fun "MoveAssignmentBase" "operator=" false
      [Param "MoveAssignmentBase&&" "" false]
      false "" None
      (RRef false false "MoveAssignmentBase&")
      []
      (Deleted).

(** optional.h:1376-1376, CopyAssignmentBase *)
Definition f1376_CopyAssignmentBase : fundef :=
  Fun "CopyAssignmentBase" "CopyAssignmentBase" false
      []
      false "" None
      (RNone)
      []
      (Defaulted).

(** optional.h:1377-1377, CopyAssignmentBase *)
Definition f1377_CopyAssignmentBase : fundef :=
  Fun "CopyAssignmentBase" "CopyAssignmentBase" false
      [Param "CopyAssignmentBase&&" "" false]
      false "" None
      (RNone)
      []
      (Defaulted).

(** optional.h:1378-1378, CopyAssignmentBase *)
Definition f1378_CopyAssignmentBase : fundef :=
  Fun "CopyAssignmentBase" "CopyAssignmentBase" false
      [Param "CopyAssignmentBase const&" "" false]
      false "" None
      (RNone)
      []
      (Defaulted).

(** optional.h:1379-1379, CopyAssignmentBase *)
Definition f1379_op_assign : fundef :=
  Fun "CopyAssignmentBase" "operator=" false
      [Param "CopyAssignmentBase&&" "" false]
      false "" None
      (RRef false false "CopyAssignmentBase&")
      []
      (Defaulted).

(** optional.h:1381-1381, CopyAssignmentBase *)
Definition f1381_op_assign : fundef :=
  Fun "CopyAssignmentBase" "operator=" false
      [Param "CopyAssignmentBase const&" "rhs" false]
      false "" None
      (RRef false false "CopyAssignmentBase&")
      []
      (Deleted).

(** All of them. *)
Definition specials : list fundef :=
  [f1206_MoveConstructionBase;
   f1207_MoveConstructionBase;
   f1208_MoveConstructionBase;
   f1260_CopyConstructionBase;
   f1261_CopyConstructionBase;
   f1262_CopyConstructionBase;
   f1320_MoveAssignmentBase;
   f1321_MoveAssignmentBase;
   f1322_MoveAssignmentBase;
   f1323_op_assign;
   f1324_op_assign;
   f1376_CopyAssignmentBase;
   f1377_CopyAssignmentBase;
   f1378_CopyAssignmentBase;
   f1379_op_assign;
   f1381_op_assign].
