(** * Heads: template heads and constraints of the functions of optional.h

    Written by tools/cpp2coq.py --heads from /repo/include/tiny/optional.h; not edited by
    hand.  What [Source.v] leaves out of the functions. *)

From Coq Require Import String List.
From Verif Require Import Syntax Source.
Import ListNotations.
Local Open Scope string_scope.

(** The function, the #if conditions around it, the template parameters (name, pack?,
    default argument, concept), the conditions of std::enable_if_t among them, the
    requires clauses. *)
Record head : Type := Head {
  h_fun : fundef;
  h_guard : list string;
  h_params : list (string * bool * option string * option string);
  h_enable : list expr;
  h_requires : list expr
}.

(** optional.h:233-236 *)
Definition h233_is_empty : head :=
  Head f233_is_empty []
      []
      []
      [].

(** optional.h:238-241 *)
Definition h238_init_empty_flag : head :=
  Head f238_init_empty_flag []
      []
      []
      [].

(** optional.h:243-246 *)
Definition h243_invalidate_empty_flag : head :=
  Head f243_invalidate_empty_flag []
      []
      []
      [].

(** optional.h:578-581 *)
Definition h578_GetIsEmptyFlag : head :=
  Head f578_GetIsEmptyFlag []
      []
      []
      [].

(** optional.h:583-586 *)
Definition h583_GetPayload : head :=
  Head f583_GetPayload []
      []
      []
      [].

(** optional.h:599-602 *)
Definition h599_GetIsEmptyFlag : head :=
  Head f599_GetIsEmptyFlag []
      []
      []
      [].

(** optional.h:604-607 *)
Definition h604_GetPayload : head :=
  Head f604_GetPayload []
      []
      []
      [].

(** optional.h:637-640 *)
Definition h637_GetIsEmptyFlag : head :=
  Head f637_GetIsEmptyFlag ["!defined TINY_OPTIONAL_USE_SEPARATE_BOOL_INSTEAD_OF_MEMBER"]
      []
      []
      [].

(** optional.h:642-645 *)
Definition h642_GetPayload : head :=
  Head f642_GetPayload ["!defined TINY_OPTIONAL_USE_SEPARATE_BOOL_INSTEAD_OF_MEMBER"]
      []
      []
      [].

(** optional.h:682-685 *)
Definition h682_is_empty : head :=
  Head f682_is_empty []
      []
      []
      [].

(** optional.h:687-693 *)
Definition h687_init_empty_flag : head :=
  Head f687_init_empty_flag []
      []
      []
      [].

(** optional.h:695-700 *)
Definition h695_invalidate_empty_flag : head :=
  Head f695_invalidate_empty_flag []
      []
      []
      [].

(** optional.h:729-737 *)
Definition h729_is_empty : head :=
  Head f729_is_empty []
      []
      []
      [].

(** optional.h:739-749 *)
Definition h739_init_empty_flag : head :=
  Head f739_init_empty_flag []
      []
      []
      [].

(** optional.h:751-758 *)
Definition h751_invalidate_empty_flag : head :=
  Head f751_invalidate_empty_flag []
      []
      []
      [].

(** optional.h:818-830 *)
Definition h818_is_empty : head :=
  Head f818_is_empty []
      []
      []
      [].

(** optional.h:832-842 *)
Definition h832_init_empty_flag : head :=
  Head f832_init_empty_flag []
      []
      []
      [].

(** optional.h:844-849 *)
Definition h844_invalidate_empty_flag : head :=
  Head f844_invalidate_empty_flag []
      []
      []
      [].

(** optional.h:955-959 *)
Definition h955_StorageBase : head :=
  Head f955_StorageBase []
      []
      []
      [].

(** optional.h:961-967 *)
Definition h962_StorageBase : head :=
  Head f962_StorageBase []
      [("ArgsT", true, None, None)]
      []
      [].

(** optional.h:969-975 *)
Definition h970_StorageBase : head :=
  Head f970_StorageBase []
      [("FuncT", false, None, None); ("ArgT", false, None, None)]
      []
      [].

(** optional.h:978-983 *)
Definition h978_dtor_StorageBase : head :=
  Head f978_dtor_StorageBase []
      []
      []
      [].

(** optional.h:988-988 *)
Definition h988_StorageBase : head :=
  Head f988_StorageBase []
      []
      []
      [].

(** optional.h:989-989 *)
Definition h989_StorageBase : head :=
  Head f989_StorageBase []
      []
      []
      [].

(** optional.h:990-990 *)
Definition h990_op_assign : head :=
  Head f990_op_assign []
      []
      []
      [].

(** optional.h:991-991 *)
Definition h991_op_assign : head :=
  Head f991_op_assign []
      []
      []
      [].

(** optional.h:993-996 *)
Definition h993_has_value : head :=
  Head f993_has_value []
      []
      []
      [].

(** optional.h:998-1001 *)
Definition h998_GetIsEmptyFlag : head :=
  Head f998_GetIsEmptyFlag []
      []
      []
      [].

(** optional.h:1003-1006 *)
Definition h1003_GetIsEmptyFlag : head :=
  Head f1003_GetIsEmptyFlag []
      []
      []
      [].

(** optional.h:1008-1011 *)
Definition h1008_GetPayload : head :=
  Head f1008_GetPayload []
      []
      []
      [].

(** optional.h:1013-1016 *)
Definition h1013_GetPayload : head :=
  Head f1013_GetPayload []
      []
      []
      [].

(** optional.h:1018-1021 *)
Definition h1018_DestroyPayload : head :=
  Head f1018_DestroyPayload []
      []
      []
      [].

(** optional.h:1026-1029 *)
Definition h1026_InitializeIsEmptyFlagScope : head :=
  Head f1026_InitializeIsEmptyFlagScope []
      []
      []
      [].

(** optional.h:1031-1036 *)
Definition h1031_dtor_InitializeIsEmptyFlagScope : head :=
  Head f1031_dtor_InitializeIsEmptyFlagScope []
      []
      []
      [].

(** optional.h:1043-1080 *)
Definition h1044_ConstructPayload : head :=
  Head f1044_ConstructPayload []
      [("ArgsT", true, None, None)]
      []
      [].

(** optional.h:1083-1114 *)
Definition h1084_ConstructPayloadFromFunction : head :=
  Head f1084_ConstructPayloadFromFunction []
      [("FuncT", false, None, None); ("ArgT", false, None, None)]
      []
      [].

(** optional.h:1117-1133 *)
Definition h1118_AssignValue : head :=
  Head f1118_AssignValue []
      [("T", false, None, None)]
      []
      [].

(** optional.h:1136-1143 *)
Definition h1136_reset : head :=
  Head f1136_reset []
      []
      []
      [].

(** optional.h:1175-1175 *)
Definition h1175_MoveConstructionBase : head :=
  Head f1175_MoveConstructionBase []
      []
      []
      [].

(** optional.h:1176-1176 *)
Definition h1176_MoveConstructionBase : head :=
  Head f1176_MoveConstructionBase []
      []
      []
      [].

(** optional.h:1179-1194 *)
Definition h1179_MoveConstructionBase : head :=
  Head f1179_MoveConstructionBase []
      []
      []
      [].

(** optional.h:1232-1232 *)
Definition h1232_CopyConstructionBase : head :=
  Head f1232_CopyConstructionBase []
      []
      []
      [].

(** optional.h:1233-1233 *)
Definition h1233_CopyConstructionBase : head :=
  Head f1233_CopyConstructionBase []
      []
      []
      [].

(** optional.h:1236-1248 *)
Definition h1236_CopyConstructionBase : head :=
  Head f1236_CopyConstructionBase []
      []
      []
      [].

(** optional.h:1287-1287 *)
Definition h1287_MoveAssignmentBase : head :=
  Head f1287_MoveAssignmentBase []
      []
      []
      [].

(** optional.h:1288-1288 *)
Definition h1288_MoveAssignmentBase : head :=
  Head f1288_MoveAssignmentBase []
      []
      []
      [].

(** optional.h:1289-1289 *)
Definition h1289_MoveAssignmentBase : head :=
  Head f1289_MoveAssignmentBase []
      []
      []
      [].

(** optional.h:1290-1290 *)
Definition h1290_op_assign : head :=
  Head f1290_op_assign []
      []
      []
      [].

(** optional.h:1293-1308 *)
Definition h1293_op_assign : head :=
  Head f1293_op_assign []
      []
      []
      [].

(** optional.h:1347-1347 *)
Definition h1347_CopyAssignmentBase : head :=
  Head f1347_CopyAssignmentBase []
      []
      []
      [].

(** optional.h:1348-1348 *)
Definition h1348_CopyAssignmentBase : head :=
  Head f1348_CopyAssignmentBase []
      []
      []
      [].

(** optional.h:1349-1349 *)
Definition h1349_CopyAssignmentBase : head :=
  Head f1349_CopyAssignmentBase []
      []
      []
      [].

(** optional.h:1350-1350 *)
Definition h1350_op_assign : head :=
  Head f1350_op_assign []
      []
      []
      [].

(** optional.h:1353-1364 *)
Definition h1353_op_assign : head :=
  Head f1353_op_assign []
      []
      []
      [].

(** optional.h:1441-1441 *)
Definition h1441_TinyOptionalImpl : head :=
  Head f1441_TinyOptionalImpl []
      []
      []
      [].

(** optional.h:1442-1442 *)
Definition h1442_TinyOptionalImpl : head :=
  Head f1442_TinyOptionalImpl []
      []
      []
      [].

(** optional.h:1443-1443 *)
Definition h1443_TinyOptionalImpl : head :=
  Head f1443_TinyOptionalImpl []
      []
      []
      [].

(** optional.h:1444-1444 *)
Definition h1444_op_assign : head :=
  Head f1444_op_assign []
      []
      []
      [].

(** optional.h:1445-1445 *)
Definition h1445_op_assign : head :=
  Head f1445_op_assign []
      []
      []
      [].

(** optional.h:1446-1446 *)
Definition h1446_dtor_TinyOptionalImpl : head :=
  Head f1446_dtor_TinyOptionalImpl []
      []
      []
      [].

(** optional.h:1449-1452 *)
Definition h1449_TinyOptionalImpl : head :=
  Head f1449_TinyOptionalImpl []
      []
      []
      [].

(** optional.h:1455-1459 *)
Definition h1456_TinyOptionalImpl : head :=
  Head f1456_TinyOptionalImpl []
      [("ArgsT", true, None, None)]
      [EName "std::is_constructible_v<PayloadType,ArgsT...>"]
      [].

(** optional.h:1462-1469 *)
Definition h1466_TinyOptionalImpl : head :=
  Head f1466_TinyOptionalImpl []
      [("U", false, None, None); ("ArgsT", true, None, None)]
      [EName "std::is_constructible_v<PayloadType,std::initializer_list<U>&,ArgsT...>"]
      [].

(** optional.h:1473-1477 *)
Definition h1474_TinyOptionalImpl : head :=
  Head f1474_TinyOptionalImpl []
      [("FuncT", false, None, None); ("ArgT", false, None, None)]
      []
      [].

(** optional.h:1481-1487 *)
Definition h1484_TinyOptionalImpl : head :=
  Head f1484_TinyOptionalImpl []
      [("U", false, Some "PayloadType", None)]
      [EBin "&&" (EName "EnableConvertingConstructor<U>::value") (EName
          "std::is_convertible_v<U,PayloadType>")]
      [].

(** optional.h:1490-1496 *)
Definition h1493_TinyOptionalImpl : head :=
  Head f1493_TinyOptionalImpl []
      [("U", false, Some "PayloadType", None)]
      [EBin "&&" (EName "EnableConvertingConstructor<U>::value") (EUn "!" (EName
          "std::is_convertible_v<U,PayloadType>"))]
      [].

(** optional.h:1517-1521 *)
Definition h1517_op_assign : head :=
  Head f1517_op_assign []
      []
      []
      [].

(** optional.h:1524-1529 *)
Definition h1525_op_assign : head :=
  Head f1525_op_assign []
      [("U", false, Some "PayloadType", None)]
      [EName "EnableConvertingAssignment<TinyOptionalImpl,U>::value"]
      [].

(** optional.h:1532-1539 *)
Definition h1533_emplace : head :=
  Head f1533_emplace []
      [("ArgsT", true, None, None)]
      []
      [].

(** optional.h:1542-1552 *)
Definition h1546_emplace : head :=
  Head f1546_emplace []
      [("U", false, None, None); ("ArgsT", true, None, None)]
      [EName "std::is_constructible_v<PayloadType,std::initializer_list<U>&,ArgsT...>"]
      [].

(** optional.h:1555-1558 *)
Definition h1555_op_bool : head :=
  Head f1555_op_bool []
      []
      []
      [].

(** optional.h:1561-1565 *)
Definition h1561_op_arrow : head :=
  Head f1561_op_arrow []
      []
      []
      [].

(** optional.h:1567-1571 *)
Definition h1567_op_arrow : head :=
  Head f1567_op_arrow []
      []
      []
      [].

(** optional.h:1574-1578 *)
Definition h1574_op_deref : head :=
  Head f1574_op_deref []
      []
      []
      [].

(** optional.h:1580-1584 *)
Definition h1580_op_deref : head :=
  Head f1580_op_deref []
      []
      []
      [].

(** optional.h:1586-1590 *)
Definition h1586_op_deref : head :=
  Head f1586_op_deref []
      []
      []
      [].

(** optional.h:1592-1596 *)
Definition h1592_op_deref : head :=
  Head f1592_op_deref []
      []
      []
      [].

(** optional.h:1599-1605 *)
Definition h1599_value : head :=
  Head f1599_value []
      []
      []
      [].

(** optional.h:1607-1613 *)
Definition h1607_value : head :=
  Head f1607_value []
      []
      []
      [].

(** optional.h:1615-1621 *)
Definition h1615_value : head :=
  Head f1615_value []
      []
      []
      [].

(** optional.h:1623-1629 *)
Definition h1623_value : head :=
  Head f1623_value []
      []
      []
      [].

(** optional.h:1632-1641 *)
Definition h1633_value_or : head :=
  Head f1633_value_or []
      [("U", false, None, None)]
      []
      [].

(** optional.h:1643-1653 *)
Definition h1644_value_or : head :=
  Head f1644_value_or []
      [("U", false, None, None)]
      []
      [].

(** optional.h:1656-1678 *)
Definition h1656_swap : head :=
  Head f1656_swap []
      []
      []
      [].

(** optional.h:1681-1692 *)
Definition h1682_and_then : head :=
  Head f1682_and_then []
      [("F", false, None, None)]
      []
      [].

(** optional.h:1694-1705 *)
Definition h1695_and_then : head :=
  Head f1695_and_then []
      [("F", false, None, None)]
      []
      [].

(** optional.h:1707-1718 *)
Definition h1708_and_then : head :=
  Head f1708_and_then []
      [("F", false, None, None)]
      []
      [].

(** optional.h:1720-1731 *)
Definition h1721_and_then : head :=
  Head f1721_and_then []
      [("F", false, None, None)]
      []
      [].

(** optional.h:1733-1754 *)
Definition h1734_transform : head :=
  Head f1734_transform []
      [("F", false, None, None)]
      []
      [].

(** optional.h:1756-1774 *)
Definition h1757_transform : head :=
  Head f1757_transform []
      [("F", false, None, None)]
      []
      [].

(** optional.h:1776-1794 *)
Definition h1777_transform : head :=
  Head f1777_transform []
      [("F", false, None, None)]
      []
      [].

(** optional.h:1796-1814 *)
Definition h1797_transform : head :=
  Head f1797_transform []
      [("F", false, None, None)]
      []
      [].

(** optional.h:1818-1826 *)
Definition h1820_or_else : head :=
  Head f1820_or_else ["defined TINY_OPTIONAL_ENABLE_ORELSE"]
      [("F", false, None, None)]
      []
      [EBin "&&" (EName "std::invocable<F>") (EName "std::copy_constructible<value_type>")].

(** optional.h:1828-1836 *)
Definition h1830_or_else : head :=
  Head f1830_or_else ["defined TINY_OPTIONAL_ENABLE_ORELSE"]
      [("F", false, None, None)]
      []
      [EBin "&&" (EName "std::invocable<F>") (EName "std::move_constructible<value_type>")].

(** optional.h:1842-1855 *)
Definition h1849_swap : head :=
  Head f1849_swap []
      [("StoredTypeDecomposition", false, None, None); ("FlagManipulator", false, None, None)]
      [EBin "&&" (EName
          "std::is_move_constructible_v<typename StoredTypeDecomposition::PayloadType>") (EName
          "std::is_swappable_v<typename StoredTypeDecomposition::PayloadType>")]
      [].

(** optional.h:2211-2211 *)
Definition h2211_optional : head :=
  Head f2211_optional []
      []
      []
      [].

(** optional.h:2212-2212 *)
Definition h2212_optional : head :=
  Head f2212_optional []
      []
      []
      [].

(** optional.h:2213-2213 *)
Definition h2213_optional : head :=
  Head f2213_optional []
      []
      []
      [].

(** optional.h:2214-2214 *)
Definition h2214_op_assign : head :=
  Head f2214_op_assign []
      []
      []
      [].

(** optional.h:2215-2215 *)
Definition h2215_op_assign : head :=
  Head f2215_op_assign []
      []
      []
      [].

(** optional.h:2216-2216 *)
Definition h2216_dtor_optional : head :=
  Head f2216_dtor_optional []
      []
      []
      [].

(** optional.h:2233-2237 *)
Definition h2233_op_assign : head :=
  Head f2233_op_assign []
      []
      []
      [].

(** optional.h:2240-2247 *)
Definition h2243_op_assign : head :=
  Head f2243_op_assign []
      [("U", false, Some "PayloadType_", None)]
      [EName "Base::template EnableConvertingAssignment<optional,U>::value"]
      [].

(** optional.h:2251-2259 *)
Definition h2253_or_else : head :=
  Head f2253_or_else ["defined TINY_OPTIONAL_ENABLE_ORELSE"]
      [("F", false, None, None)]
      []
      [EBin "&&" (EName "std::invocable<F>") (EName "std::copy_constructible<value_type>")].

(** optional.h:2261-2269 *)
Definition h2263_or_else : head :=
  Head f2263_or_else ["defined TINY_OPTIONAL_ENABLE_ORELSE"]
      [("F", false, None, None)]
      []
      [EBin "&&" (EName "std::invocable<F>") (EName "std::move_constructible<value_type>")].

(** optional.h:2279-2284 *)
Definition h2280_make_optional : head :=
  Head f2280_make_optional []
      [("PayloadType", false, None, None); ("sentinelOrMemPtr", false, Some "UseDefaultValue",
          None); ("irrelevantOrSentinel", false, Some "UseDefaultValue", None)]
      []
      [].

(** optional.h:2287-2295 *)
Definition h2292_make_optional : head :=
  Head f2292_make_optional []
      [("PayloadType", false, None, None); ("sentinelOrMemPtr", false, Some "UseDefaultValue",
          None); ("irrelevantOrSentinel", false, Some "UseDefaultValue", None); ("ArgsT", true,
          None, None)]
      []
      [].

(** optional.h:2298-2309 *)
Definition h2304_make_optional : head :=
  Head f2304_make_optional []
      [("PayloadType", false, None, None); ("sentinelOrMemPtr", false, Some "UseDefaultValue",
          None); ("irrelevantOrSentinel", false, Some "UseDefaultValue", None); ("U", false,
          None, None); ("ArgsT", true, None, None)]
      []
      [].

(** optional.h:2437-2440 *)
Definition h2437_op_eq : head :=
  Head f2437_op_eq []
      [("D1", false, None, None); ("F1", false, None, None); ("D2", false, None, None); ("F2",
          false, None, None)]
      []
      [].

(** optional.h:2437-2440 *)
Definition h2437_op_eq_2 : head :=
  Head f2437_op_eq_2 []
      [("D1", false, None, None); ("F1", false, None, None); ("U", false, None, None)]
      []
      [].

(** optional.h:2437-2440 *)
Definition h2437_op_eq_3 : head :=
  Head f2437_op_eq_3 []
      [("U", false, None, None); ("D1", false, None, None); ("F1", false, None, None)]
      []
      [].

(** optional.h:2437-2440 *)
Definition h2437_op_eq_4 : head :=
  Head f2437_op_eq_4 []
      [("P", false, None, None); ("e", false, None, None); ("i", false, None, None); ("U",
          false, None, None)]
      []
      [].

(** optional.h:2437-2440 *)
Definition h2437_op_eq_5 : head :=
  Head f2437_op_eq_5 []
      [("U", false, None, None); ("P", false, None, None); ("e", false, None, None); ("i",
          false, None, None)]
      []
      [].

(** optional.h:2446-2450 *)
Definition h2447_op_eq : head :=
  Head f2447_op_eq []
      [("D1", false, None, None); ("F1", false, None, None)]
      []
      [].

(** optional.h:2453-2457 *)
Definition h2454_op_eq : head :=
  Head f2454_op_eq
      ["!defined(TINY_OPTIONAL_ENABLE_THREEWAY_COMPARISON) || defined(TINY_OPTIONAL_GCC_WORKAROUND_CWG2445)"]
      [("D1", false, None, None); ("F1", false, None, None)]
      []
      [].

(** optional.h:2460-2466 *)
Definition h2461_op_eq : head :=
  Head f2461_op_eq []
      [("D1", false, None, None); ("F1", false, None, None); ("U", false, None, None)]
      []
      [].

(** optional.h:2468-2474 *)
Definition h2469_op_eq : head :=
  Head f2469_op_eq []
      [("U", false, None, None); ("D1", false, None, None); ("F1", false, None, None)]
      []
      [].

(** optional.h:2482-2485 *)
Definition h2482_op_ne : head :=
  Head f2482_op_ne []
      [("D1", false, None, None); ("F1", false, None, None); ("D2", false, None, None); ("F2",
          false, None, None)]
      []
      [].

(** optional.h:2482-2485 *)
Definition h2482_op_ne_2 : head :=
  Head f2482_op_ne_2 []
      [("D1", false, None, None); ("F1", false, None, None); ("U", false, None, None)]
      []
      [].

(** optional.h:2482-2485 *)
Definition h2482_op_ne_3 : head :=
  Head f2482_op_ne_3 []
      [("U", false, None, None); ("D1", false, None, None); ("F1", false, None, None)]
      []
      [].

(** optional.h:2482-2485 *)
Definition h2482_op_ne_4 : head :=
  Head f2482_op_ne_4 []
      [("P", false, None, None); ("e", false, None, None); ("i", false, None, None); ("U",
          false, None, None)]
      []
      [].

(** optional.h:2482-2485 *)
Definition h2482_op_ne_5 : head :=
  Head f2482_op_ne_5 []
      [("U", false, None, None); ("P", false, None, None); ("e", false, None, None); ("i",
          false, None, None)]
      []
      [].

(** optional.h:2492-2496 *)
Definition h2493_op_ne : head :=
  Head f2493_op_ne
      ["!defined(TINY_OPTIONAL_ENABLE_THREEWAY_COMPARISON) || defined(TINY_OPTIONAL_GCC_WORKAROUND_CWG2445)"]
      [("D1", false, None, None); ("F1", false, None, None)]
      []
      [].

(** optional.h:2498-2502 *)
Definition h2499_op_ne : head :=
  Head f2499_op_ne
      ["!defined(TINY_OPTIONAL_ENABLE_THREEWAY_COMPARISON) || defined(TINY_OPTIONAL_GCC_WORKAROUND_CWG2445)"]
      [("D1", false, None, None); ("F1", false, None, None)]
      []
      [].

(** optional.h:2505-2511 *)
Definition h2506_op_ne : head :=
  Head f2506_op_ne []
      [("D1", false, None, None); ("F1", false, None, None); ("U", false, None, None)]
      []
      [].

(** optional.h:2513-2519 *)
Definition h2514_op_ne : head :=
  Head f2514_op_ne []
      [("U", false, None, None); ("D1", false, None, None); ("F1", false, None, None)]
      []
      [].

(** optional.h:2527-2529 *)
Definition h2527_op_lt : head :=
  Head f2527_op_lt []
      [("D1", false, None, None); ("F1", false, None, None); ("D2", false, None, None); ("F2",
          false, None, None)]
      []
      [].

(** optional.h:2527-2529 *)
Definition h2527_op_lt_2 : head :=
  Head f2527_op_lt_2 []
      [("D1", false, None, None); ("F1", false, None, None); ("U", false, None, None)]
      []
      [].

(** optional.h:2527-2529 *)
Definition h2527_op_lt_3 : head :=
  Head f2527_op_lt_3 []
      [("U", false, None, None); ("D1", false, None, None); ("F1", false, None, None)]
      []
      [].

(** optional.h:2527-2529 *)
Definition h2527_op_lt_4 : head :=
  Head f2527_op_lt_4 []
      [("P", false, None, None); ("e", false, None, None); ("i", false, None, None); ("U",
          false, None, None)]
      []
      [].

(** optional.h:2527-2529 *)
Definition h2527_op_lt_5 : head :=
  Head f2527_op_lt_5 []
      [("U", false, None, None); ("P", false, None, None); ("e", false, None, None); ("i",
          false, None, None)]
      []
      [].

(** optional.h:2536-2540 *)
Definition h2537_op_lt : head :=
  Head f2537_op_lt
      ["!defined(TINY_OPTIONAL_ENABLE_THREEWAY_COMPARISON) || defined(TINY_OPTIONAL_GCC_WORKAROUND_CWG2445)"]
      [("D1", false, None, None); ("F1", false, None, None)]
      []
      [].

(** optional.h:2542-2546 *)
Definition h2543_op_lt : head :=
  Head f2543_op_lt
      ["!defined(TINY_OPTIONAL_ENABLE_THREEWAY_COMPARISON) || defined(TINY_OPTIONAL_GCC_WORKAROUND_CWG2445)"]
      [("D1", false, None, None); ("F1", false, None, None)]
      []
      [].

(** optional.h:2549-2555 *)
Definition h2550_op_lt : head :=
  Head f2550_op_lt []
      [("D1", false, None, None); ("F1", false, None, None); ("U", false, None, None)]
      []
      [].

(** optional.h:2557-2563 *)
Definition h2558_op_lt : head :=
  Head f2558_op_lt []
      [("U", false, None, None); ("D1", false, None, None); ("F1", false, None, None)]
      []
      [].

(** optional.h:2571-2573 *)
Definition h2571_op_le : head :=
  Head f2571_op_le []
      [("D1", false, None, None); ("F1", false, None, None); ("D2", false, None, None); ("F2",
          false, None, None)]
      []
      [].

(** optional.h:2571-2573 *)
Definition h2571_op_le_2 : head :=
  Head f2571_op_le_2 []
      [("D1", false, None, None); ("F1", false, None, None); ("U", false, None, None)]
      []
      [].

(** optional.h:2571-2573 *)
Definition h2571_op_le_3 : head :=
  Head f2571_op_le_3 []
      [("U", false, None, None); ("D1", false, None, None); ("F1", false, None, None)]
      []
      [].

(** optional.h:2571-2573 *)
Definition h2571_op_le_4 : head :=
  Head f2571_op_le_4 []
      [("P", false, None, None); ("e", false, None, None); ("i", false, None, None); ("U",
          false, None, None)]
      []
      [].

(** optional.h:2571-2573 *)
Definition h2571_op_le_5 : head :=
  Head f2571_op_le_5 []
      [("U", false, None, None); ("P", false, None, None); ("e", false, None, None); ("i",
          false, None, None)]
      []
      [].

(** optional.h:2580-2584 *)
Definition h2581_op_le : head :=
  Head f2581_op_le
      ["!defined(TINY_OPTIONAL_ENABLE_THREEWAY_COMPARISON) || defined(TINY_OPTIONAL_GCC_WORKAROUND_CWG2445)"]
      [("D1", false, None, None); ("F1", false, None, None)]
      []
      [].

(** optional.h:2586-2590 *)
Definition h2587_op_le : head :=
  Head f2587_op_le
      ["!defined(TINY_OPTIONAL_ENABLE_THREEWAY_COMPARISON) || defined(TINY_OPTIONAL_GCC_WORKAROUND_CWG2445)"]
      [("D1", false, None, None); ("F1", false, None, None)]
      []
      [].

(** optional.h:2593-2599 *)
Definition h2594_op_le : head :=
  Head f2594_op_le []
      [("D1", false, None, None); ("F1", false, None, None); ("U", false, None, None)]
      []
      [].

(** optional.h:2601-2607 *)
Definition h2602_op_le : head :=
  Head f2602_op_le []
      [("U", false, None, None); ("D1", false, None, None); ("F1", false, None, None)]
      []
      [].

(** optional.h:2615-2617 *)
Definition h2615_op_gt : head :=
  Head f2615_op_gt []
      [("D1", false, None, None); ("F1", false, None, None); ("D2", false, None, None); ("F2",
          false, None, None)]
      []
      [].

(** optional.h:2615-2617 *)
Definition h2615_op_gt_2 : head :=
  Head f2615_op_gt_2 []
      [("D1", false, None, None); ("F1", false, None, None); ("U", false, None, None)]
      []
      [].

(** optional.h:2615-2617 *)
Definition h2615_op_gt_3 : head :=
  Head f2615_op_gt_3 []
      [("U", false, None, None); ("D1", false, None, None); ("F1", false, None, None)]
      []
      [].

(** optional.h:2615-2617 *)
Definition h2615_op_gt_4 : head :=
  Head f2615_op_gt_4 []
      [("P", false, None, None); ("e", false, None, None); ("i", false, None, None); ("U",
          false, None, None)]
      []
      [].

(** optional.h:2615-2617 *)
Definition h2615_op_gt_5 : head :=
  Head f2615_op_gt_5 []
      [("U", false, None, None); ("P", false, None, None); ("e", false, None, None); ("i",
          false, None, None)]
      []
      [].

(** optional.h:2624-2628 *)
Definition h2625_op_gt : head :=
  Head f2625_op_gt
      ["!defined(TINY_OPTIONAL_ENABLE_THREEWAY_COMPARISON) || defined(TINY_OPTIONAL_GCC_WORKAROUND_CWG2445)"]
      [("D1", false, None, None); ("F1", false, None, None)]
      []
      [].

(** optional.h:2630-2634 *)
Definition h2631_op_gt : head :=
  Head f2631_op_gt
      ["!defined(TINY_OPTIONAL_ENABLE_THREEWAY_COMPARISON) || defined(TINY_OPTIONAL_GCC_WORKAROUND_CWG2445)"]
      [("D1", false, None, None); ("F1", false, None, None)]
      []
      [].

(** optional.h:2637-2643 *)
Definition h2638_op_gt : head :=
  Head f2638_op_gt []
      [("D1", false, None, None); ("F1", false, None, None); ("U", false, None, None)]
      []
      [].

(** optional.h:2645-2651 *)
Definition h2646_op_gt : head :=
  Head f2646_op_gt []
      [("U", false, None, None); ("D1", false, None, None); ("F1", false, None, None)]
      []
      [].

(** optional.h:2659-2661 *)
Definition h2659_op_ge : head :=
  Head f2659_op_ge []
      [("D1", false, None, None); ("F1", false, None, None); ("D2", false, None, None); ("F2",
          false, None, None)]
      []
      [].

(** optional.h:2659-2661 *)
Definition h2659_op_ge_2 : head :=
  Head f2659_op_ge_2 []
      [("D1", false, None, None); ("F1", false, None, None); ("U", false, None, None)]
      []
      [].

(** optional.h:2659-2661 *)
Definition h2659_op_ge_3 : head :=
  Head f2659_op_ge_3 []
      [("U", false, None, None); ("D1", false, None, None); ("F1", false, None, None)]
      []
      [].

(** optional.h:2659-2661 *)
Definition h2659_op_ge_4 : head :=
  Head f2659_op_ge_4 []
      [("P", false, None, None); ("e", false, None, None); ("i", false, None, None); ("U",
          false, None, None)]
      []
      [].

(** optional.h:2659-2661 *)
Definition h2659_op_ge_5 : head :=
  Head f2659_op_ge_5 []
      [("U", false, None, None); ("P", false, None, None); ("e", false, None, None); ("i",
          false, None, None)]
      []
      [].

(** optional.h:2668-2672 *)
Definition h2669_op_ge : head :=
  Head f2669_op_ge
      ["!defined(TINY_OPTIONAL_ENABLE_THREEWAY_COMPARISON) || defined(TINY_OPTIONAL_GCC_WORKAROUND_CWG2445)"]
      [("D1", false, None, None); ("F1", false, None, None)]
      []
      [].

(** optional.h:2674-2678 *)
Definition h2675_op_ge : head :=
  Head f2675_op_ge
      ["!defined(TINY_OPTIONAL_ENABLE_THREEWAY_COMPARISON) || defined(TINY_OPTIONAL_GCC_WORKAROUND_CWG2445)"]
      [("D1", false, None, None); ("F1", false, None, None)]
      []
      [].

(** optional.h:2681-2687 *)
Definition h2682_op_ge : head :=
  Head f2682_op_ge []
      [("D1", false, None, None); ("F1", false, None, None); ("U", false, None, None)]
      []
      [].

(** optional.h:2689-2695 *)
Definition h2690_op_ge : head :=
  Head f2690_op_ge []
      [("U", false, None, None); ("D1", false, None, None); ("F1", false, None, None)]
      []
      [].

(** optional.h:2707-2717 *)
Definition h2711_op_three : head :=
  Head f2711_op_three ["defined TINY_OPTIONAL_ENABLE_THREEWAY_COMPARISON"]
      [("D1", false, None, None); ("F1", false, None, None); ("D2", false, None, None); ("F2",
          false, None, None)]
      []
      [EName
          "std::three_way_comparable_with<typename TinyOptionalImpl<D1,F1>::value_type,typename TinyOptionalImpl<D2,F2>::value_type>"].

(** optional.h:2719-2726 *)
Definition h2721_op_three : head :=
  Head f2721_op_three ["defined TINY_OPTIONAL_ENABLE_THREEWAY_COMPARISON"]
      [("D1", false, None, None); ("F1", false, None, None); ("U", false, None, None)]
      []
      [EName "std::three_way_comparable_with<typename TinyOptionalImpl<D1,F1>::value_type,U>"].

(** optional.h:2729-2735 *)
Definition h2730_op_three : head :=
  Head f2730_op_three ["defined TINY_OPTIONAL_ENABLE_THREEWAY_COMPARISON"]
      [("P", false, None, None); ("e", false, None, None); ("i", false, None, None); ("U",
          false, None, Some "std::three_way_comparable_with<P>")]
      []
      [].

(** optional.h:2738-2744 *)
Definition h2739_op_three : head :=
  Head f2739_op_three ["defined TINY_OPTIONAL_ENABLE_THREEWAY_COMPARISON";
      "defined TINY_OPTIONAL_GCC_WORKAROUND_CWG2445"]
      [("U", false, None, None); ("P", false, None, Some "std::three_way_comparable_with<U>");
          ("e", false, None, None); ("i", false, None, None)]
      []
      [].

(** optional.h:2749-2753 *)
Definition h2750_op_three : head :=
  Head f2750_op_three ["defined TINY_OPTIONAL_ENABLE_THREEWAY_COMPARISON"]
      [("D1", false, None, None); ("F1", false, None, None)]
      []
      [].

(** optional.h:2755-2762 *)
Definition h2757_op_three : head :=
  Head f2757_op_three ["defined TINY_OPTIONAL_ENABLE_THREEWAY_COMPARISON"]
      [("D1", false, None, None); ("F1", false, None, None); ("U", false, None, None)]
      []
      [EBin "&&" (EUn "!" (EName "is_tiny_optional_v<U>")) (EName
          "std::three_way_comparable_with<typename TinyOptionalImpl<D1,F1>::value_type,U>")].

(** optional.h:2786-2789 *)
Definition h2786_op_call : head :=
  Head f2786_op_call []
      []
      []
      [].

(** optional.h:2801-2804 *)
Definition h2801_op_call : head :=
  Head f2801_op_call []
      []
      []
      [].

Definition heads : list head :=
  [h233_is_empty;
   h238_init_empty_flag;
   h243_invalidate_empty_flag;
   h578_GetIsEmptyFlag;
   h583_GetPayload;
   h599_GetIsEmptyFlag;
   h604_GetPayload;
   h637_GetIsEmptyFlag;
   h642_GetPayload;
   h682_is_empty;
   h687_init_empty_flag;
   h695_invalidate_empty_flag;
   h729_is_empty;
   h739_init_empty_flag;
   h751_invalidate_empty_flag;
   h818_is_empty;
   h832_init_empty_flag;
   h844_invalidate_empty_flag;
   h955_StorageBase;
   h962_StorageBase;
   h970_StorageBase;
   h978_dtor_StorageBase;
   h988_StorageBase;
   h989_StorageBase;
   h990_op_assign;
   h991_op_assign;
   h993_has_value;
   h998_GetIsEmptyFlag;
   h1003_GetIsEmptyFlag;
   h1008_GetPayload;
   h1013_GetPayload;
   h1018_DestroyPayload;
   h1026_InitializeIsEmptyFlagScope;
   h1031_dtor_InitializeIsEmptyFlagScope;
   h1044_ConstructPayload;
   h1084_ConstructPayloadFromFunction;
   h1118_AssignValue;
   h1136_reset;
   h1175_MoveConstructionBase;
   h1176_MoveConstructionBase;
   h1179_MoveConstructionBase;
   h1232_CopyConstructionBase;
   h1233_CopyConstructionBase;
   h1236_CopyConstructionBase;
   h1287_MoveAssignmentBase;
   h1288_MoveAssignmentBase;
   h1289_MoveAssignmentBase;
   h1290_op_assign;
   h1293_op_assign;
   h1347_CopyAssignmentBase;
   h1348_CopyAssignmentBase;
   h1349_CopyAssignmentBase;
   h1350_op_assign;
   h1353_op_assign;
   h1441_TinyOptionalImpl;
   h1442_TinyOptionalImpl;
   h1443_TinyOptionalImpl;
   h1444_op_assign;
   h1445_op_assign;
   h1446_dtor_TinyOptionalImpl;
   h1449_TinyOptionalImpl;
   h1456_TinyOptionalImpl;
   h1466_TinyOptionalImpl;
   h1474_TinyOptionalImpl;
   h1484_TinyOptionalImpl;
   h1493_TinyOptionalImpl;
   h1517_op_assign;
   h1525_op_assign;
   h1533_emplace;
   h1546_emplace;
   h1555_op_bool;
   h1561_op_arrow;
   h1567_op_arrow;
   h1574_op_deref;
   h1580_op_deref;
   h1586_op_deref;
   h1592_op_deref;
   h1599_value;
   h1607_value;
   h1615_value;
   h1623_value;
   h1633_value_or;
   h1644_value_or;
   h1656_swap;
   h1682_and_then;
   h1695_and_then;
   h1708_and_then;
   h1721_and_then;
   h1734_transform;
   h1757_transform;
   h1777_transform;
   h1797_transform;
   h1820_or_else;
   h1830_or_else;
   h1849_swap;
   h2211_optional;
   h2212_optional;
   h2213_optional;
   h2214_op_assign;
   h2215_op_assign;
   h2216_dtor_optional;
   h2233_op_assign;
   h2243_op_assign;
   h2253_or_else;
   h2263_or_else;
   h2280_make_optional;
   h2292_make_optional;
   h2304_make_optional;
   h2437_op_eq;
   h2437_op_eq_2;
   h2437_op_eq_3;
   h2437_op_eq_4;
   h2437_op_eq_5;
   h2447_op_eq;
   h2454_op_eq;
   h2461_op_eq;
   h2469_op_eq;
   h2482_op_ne;
   h2482_op_ne_2;
   h2482_op_ne_3;
   h2482_op_ne_4;
   h2482_op_ne_5;
   h2493_op_ne;
   h2499_op_ne;
   h2506_op_ne;
   h2514_op_ne;
   h2527_op_lt;
   h2527_op_lt_2;
   h2527_op_lt_3;
   h2527_op_lt_4;
   h2527_op_lt_5;
   h2537_op_lt;
   h2543_op_lt;
   h2550_op_lt;
   h2558_op_lt;
   h2571_op_le;
   h2571_op_le_2;
   h2571_op_le_3;
   h2571_op_le_4;
   h2571_op_le_5;
   h2581_op_le;
   h2587_op_le;
   h2594_op_le;
   h2602_op_le;
   h2615_op_gt;
   h2615_op_gt_2;
   h2615_op_gt_3;
   h2615_op_gt_4;
   h2615_op_gt_5;
   h2625_op_gt;
   h2631_op_gt;
   h2638_op_gt;
   h2646_op_gt;
   h2659_op_ge;
   h2659_op_ge_2;
   h2659_op_ge_3;
   h2659_op_ge_4;
   h2659_op_ge_5;
   h2669_op_ge;
   h2675_op_ge;
   h2682_op_ge;
   h2690_op_ge;
   h2711_op_three;
   h2721_op_three;
   h2730_op_three;
   h2739_op_three;
   h2750_op_three;
   h2757_op_three;
   h2786_op_call;
   h2801_op_call].

(** The conditions with names (optional.h:1405, 1419): name, template parameters, condition. *)
Definition conditions : list (string * (list string * expr)) :=
  [("EnableConvertingConstructor", (["U"], EBin "&&" (EBin "&&" (EBin "&&" (EName
    "std::is_constructible_v<PayloadType,U>") (EUn "!" (EName
    "std::is_same_v<my_remove_cvref_t<U>,std::in_place_t>"))) (EUn "!" (EName
    "std::is_same_v<my_remove_cvref_t<U>,TinyOptionalImpl>"))) (EUn "!" (EName
    "std::is_base_of_v<TinyOptionalImpl,my_remove_cvref_t<U>>"))));
   ("EnableConvertingAssignment", (["TinyOptionalType"; "U"], EBin "&&" (EBin "&&" (EBin "&&" (EUn
    "!" (EName "std::is_same_v<my_remove_cvref_t<U>,TinyOptionalType>")) (EName
    "std::is_constructible_v<PayloadType,U>")) (EName "std::is_assignable_v<PayloadType&,U>"))
    (EBin "||" (EUn "!" (EName "std::is_scalar_v<PayloadType>")) (EUn "!" (EName
    "std::is_same_v<std::decay_t<U>,PayloadType>")))))].
