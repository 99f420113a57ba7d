(** * Select: from template arguments to a storage strategy

    The compile time part of the library that decides how an optional type stores
    its 'IsEmpty'-flag: SelectSentinelValueAndMemPtrFromConstants,
    SelectDecomposition, ConvertSentinelToFlagType, optional_aip. *)

From Coq Require Import List NArith ZArith Bool Arith Lia.
From Verif Require Import Cells CellsFacts Machine Laws Bits Manip IntRange.
Import ListNotations.

(** ** Types and constants of C++ *)

(** Integral types other than bool. *)
Inductive ikind : Type :=
| KChar | KSChar | KUChar | KWChar | KChar8 | KChar16 | KChar32
| KShort | KUShort | KInt | KUInt | KLong | KULong | KLLong | KULLong.

(** Types without cv qualifiers.  The numbers name pointees, enumerations and
    classes.  [UOther]: everything else (member pointers, nullptr_t, ...). *)
Inductive uty : Type :=
| UBool | UInt (k : ikind) | UFloat | UDouble | ULongDouble
| UPtr (n : nat) | UEnum (n : nat) | UClass (n : nat) | UOther (n : nat)
| UNullopt | UInPlace | UArray (n : nat).

Record cvty : Type := MkTy { cv_const : bool; cv_volatile : bool; base : uty }.

(** A constant: a non-type template argument, or the [value] of a sentinel type. *)
Inductive const : Type :=
| VBool (b : bool)
| VInt (k : ikind) (z : Z)
| VFloat (x : N)                                    (* bit pattern *)
| VDouble (x : N)
| VLongDouble (r : rep)
| VNullptr
| VPtr (n : nat) (a : N)                            (* address *)
| VEnum (n : nat) (z : Z)
| VObj (n : nat) (r : rep)                          (* of class or other type n *)
| VMemObj (cls : uty) (var : cvty) (off : option nat) (* T C::*, [None]: null pointer *)
| VMemFun (n : nat).

(** The second and third template argument of [optional] (optional.h:171-175). *)
Inductive targ : Type := ADefault | AVal (v : const).

(** What the library knows about the program's types.  [u_x64]: x64, else x86. *)
Record universe : Type := MkUniverse {
  u_x64 : bool;
  u_int : ikind -> ity;
  u_enum : nat -> ity;                 (* underlying type *)
  u_scoped : nat -> bool;              (* enum class *)
  u_ldouble : nat;                     (* sizeof(long double) *)
  u_size : uty -> nat;                 (* of classes, arrays and others *)
  u_align : uty -> nat;
  u_destructible : uty -> bool;
  (* The user's specializations of optional_flag_manipulator (README 399-472). *)
  u_spec : cvty -> option manip;
  (* operator== of long double and of class types with a constant; implicit
     conversion of a constant to a class or other type ([None]: does not compile). *)
  u_ld_eq : rep -> rep -> option bool;
  u_conv : uty -> const -> option (rep * (rep -> option bool))
}.

(** Configuration macros (optional.h:77-86):
    TINY_OPTIONAL_USE_SEPARATE_BOOL_INSTEAD_OF_UNUSED_BITS is not defined;
    TINY_OPTIONAL_USE_SEPARATE_BOOL_INSTEAD_OF_MEMBER is not defined. *)
Record config : Type := MkConfig { cf_bit : bool; cf_mem : bool }.
Definition default_config : config := MkConfig true true.
(** TINY_OPTIONAL_USE_SEPARATE_BOOL_INSTEAD_OF_UB_TRICKS defines both (77-86). *)
Definition no_ub_tricks : config := MkConfig false false.

Definition ikind_eqb (a b : ikind) : bool :=
  match a, b with
  | KChar, KChar | KSChar, KSChar | KUChar, KUChar | KWChar, KWChar | KChar8, KChar8
  | KChar16, KChar16 | KChar32, KChar32 | KShort, KShort | KUShort, KUShort | KInt, KInt
  | KUInt, KUInt | KLong, KLong | KULong, KULong | KLLong, KLLong | KULLong, KULLong => true
  | _, _ => false
  end.
Definition uty_eqb (a b : uty) : bool :=
  match a, b with
  | UBool, UBool | UFloat, UFloat | UDouble, UDouble | ULongDouble, ULongDouble
  | UNullopt, UNullopt | UInPlace, UInPlace => true
  | UInt k, UInt l => ikind_eqb k l
  | UPtr n, UPtr m | UEnum n, UEnum m | UClass n, UClass m | UOther n, UOther m
  | UArray n, UArray m => Nat.eqb n m
  | _, _ => false
  end.
(** std::is_same_v *)
Definition cvty_eqb (a b : cvty) : bool :=
  Bool.eqb (cv_const a) (cv_const b) && Bool.eqb (cv_volatile a) (cv_volatile b) &&
  uty_eqb (base a) (base b).
Definition plain (t : uty) : cvty := MkTy false false t.

(** Type traits (they ignore cv qualifiers). *)
Definition is_integral (t : uty) : bool := match t with UBool | UInt _ => true | _ => false end.
Definition is_floating (t : uty) : bool :=
  match t with UFloat | UDouble | ULongDouble => true | _ => false end.
Definition is_bool (t : uty) : bool := match t with UBool => true | _ => false end.
Definition is_pointer (t : uty) : bool := match t with UPtr _ => true | _ => false end.

(** [decltype] of a constant, as far as the library distinguishes. *)
Definition type_of (v : const) : uty :=
  match v with
  | VBool _ => UBool
  | VInt k _ => UInt k
  | VFloat _ => UFloat
  | VDouble _ => UDouble
  | VLongDouble _ => ULongDouble
  | VNullptr => UOther 0
  | VPtr n _ => UPtr n
  | VEnum n _ => UEnum n
  | VObj n _ => UClass n
  | VMemObj _ _ _ => UOther 1
  | VMemFun _ => UOther 2
  end.
(** [std::is_member_object_pointer_v<decltype(v)>] *)
Definition is_member_object_pointer (a : targ) : bool :=
  match a with AVal (VMemObj _ _ _) => true | _ => false end.

(** [MemberPointerFragments<v>::ClassType] and [VariableType] (optional.h:339-348);
    undefined for anything else, which makes a partial specialization that
    mentions it not match (SFINAE). *)
Definition mem_class (a : targ) : option uty :=
  match a with AVal (VMemObj c _ _) => Some c | _ => None end.
Definition mem_var (a : targ) : option cvty :=
  match a with AVal (VMemObj _ v _) => Some v | _ => None end.

Section Select.
  Variable U : universe.
  Variable cf : config.

  (** sizeof *)
  Definition size_of (t : uty) : nat :=
    match t with
    | UBool => 1
    | UInt k => it_bytes (u_int U k)
    | UEnum n => it_bytes (u_enum U n)
    | UFloat => 4
    | UDouble => 8
    | ULongDouble => u_ldouble U
    | UPtr _ => if u_x64 U then 8 else 4
    | _ => u_size U t
    end.

  (** ** Flag manipulators of types *)

  (** SentinelForExploitingUnusedBitsIsKnown (optional.h:863-873). *)
  Definition sentinel_known (t : cvty) : bool :=
    if cf_bit cf
    then (is_floating (base t) && negb (uty_eqb (base t) ULongDouble))
         || is_bool (base t) || is_pointer (base t)
    else false.
  (** The library's specialization of optional_flag_manipulator (optional.h:883-889)
      with SentinelForExploitingUnusedBits<remove_cv_t<t>> (optional.h:419-507). *)
  Definition unused_bits_manip (t : uty) : manip :=
    match t with
    | UBool => man_bool
    | UDouble => man_double
    | UFloat => man_float_bits
    | _ => if u_x64 U then man_ptr64 else man_ptr32
    end.
  (** optional_flag_manipulator<t>: an (explicit) specialization by the user is more
      specialized than the library's; [None]: the primary template
      (optional.h:217-220).  Simplification: partial specializations by users that
      overlap with the library's (an ambiguity error) are not modelled. *)
  Definition flag_manipulator (t : cvty) : option manip :=
    match u_spec U t with
    | Some m => Some m
    | None => if sentinel_known t then Some (unused_bits_manip (base t)) else None
    end.
  (** HasCustomInplaceFlagManipulator (optional.h:895-898). *)
  Definition has_custom (t : cvty) : bool :=
    match flag_manipulator t with Some _ => true | None => false end.

  (** ** Conversion of the sentinel *)

  (** [a == b] of pointers / comparison of the bytes. *)
  Definition bytes_eqv (n : nat) (x : N) (c : rep) : option bool :=
    match unword c with Some y => Some (N.eqb x y) | None => None end.
  Definition man_ptr_sentinel (x : N) : manip :=
    let n := if u_x64 U then 8 else 4 in man_assign (word n x) (bytes_eqv n x).

  (** The last branch of ConvertSentinelToFlagType (optional.h:807-811):
      [return SentinelValue::value;] with an implicit conversion.  An enumerator of
      an unscoped enumeration converts to an integral type, modulo its range. *)
  Definition implicit_convert (flag : uty) (v : const) : option manip :=
    match flag, v with
    | UPtr _, VNullptr => Some (man_ptr_sentinel 0)
    | UPtr n, VPtr m a => if Nat.eqb n m then Some (man_ptr_sentinel a) else None
    | UEnum n, VEnum m z => if Nat.eqb n m then Some (man_int (u_enum U n) z) else None
    | UInt k, VEnum n z =>
        if u_scoped U n then None else Some (man_int (u_int U k) (conv (u_int U k) z))
    | UClass _, _ | UOther _, _ =>
        match u_conv U flag v with
        | Some (enc, eqv) => Some (man_assign enc eqv)
        | None => None
        end
    | _, _ => None
    end.

  (** AssignmentFlagManipulator<flag, v> (optional.h:765-850) with
      ConvertSentinelToFlagType (optional.h:775-812); [None]: a static_assert or the
      conversion fails. *)
  Definition assignment_manip (flag : uty) (v : const) : option manip :=
    if is_bool flag || is_bool (type_of v)
    then match flag, v with                                      (* 780-786 *)
         | UBool, VBool b => Some (man_bool_sentinel b)
         | _, _ => None
         end
    else if is_integral flag && is_integral (type_of v)
    then match flag, v with                                      (* 787-796 *)
         | UInt k, VInt l z =>
             if is_integral_in_range (u_int U k) (u_int U l) z
             then Some (man_int (u_int U k) (conv (u_int U k) z)) else None
         | _, _ => None
         end
    else if is_floating flag || is_floating (type_of v)
    then match flag, v with                                      (* 797-806 *)
         | UFloat, VFloat x => Some (man_float binary32 x)
         | UDouble, VDouble x => Some (man_float binary64 x)
         | ULongDouble, VLongDouble r => Some (man_assign r (fun c => u_ld_eq U c r))
         | _, _ => None
         end
    else implicit_convert flag v.                                (* 807-811 *)

  (** ** SelectDecomposition *)

  (** Why a combination does not compile. *)
  Inductive reason : Type :=
  | NoSpecialization     (* optional.h:1897-1903 *)
  | Ambiguous            (* several partial specializations match *)
  | NotAMember           (* 1988-1990, 2023-2025, 2049-2051, 2078-2080 *)
  | MissingSentinel      (* 2016-2019 *)
  | BadSentinel          (* 775-812 *)
  | NullMemberPointer    (* 631 *)
  | BadPayload           (* 945-953 *)
  | NoDefaultSentinel.   (* 2325-2332 *)

  (** Either a compile time error, or the StoredTypeDecomposition and the
      FlagManipulator of the optional. *)
  Inductive outcome : Type :=
  | Rejected (r : reason)
  | Chosen (d : decomp) (m : manip).

  (** The partial specializations, named as in SelectedDecompositionTest
      (optional.h:1872-1882). *)
  Inductive spec : Type :=
  | NoArgsAndBehavesAsStdOptional
  | NoArgsAndHasCustomFlagManipulator
  | SentinelForTypeWithCustomFlagManipulator
  | SentinelSpecified
  | MemPtrToVariableWithCustomFlagManipulator
  | MemPtrToVariableWithoutCustomFlagManipulator
  | SentinelAndMemPtrForTypeWithCustomFlagManipulator
  | SentinelAndMemPtr.
  Definition specs : list spec :=
    [NoArgsAndBehavesAsStdOptional; NoArgsAndHasCustomFlagManipulator;
     SentinelForTypeWithCustomFlagManipulator; SentinelSpecified;
     MemPtrToVariableWithCustomFlagManipulator; MemPtrToVariableWithoutCustomFlagManipulator;
     SentinelAndMemPtrForTypeWithCustomFlagManipulator; SentinelAndMemPtr].

  Definition is_default (a : targ) : bool := match a with ADefault => true | _ => false end.

  (** Does this partial specialization match <P, S, m>?  [S = ADefault] is
      UseDefaultType, [m = ADefault] is UseDefaultValue. *)
  Definition matches (P : cvty) (S m : targ) (s : spec) : bool :=
    match s with
    | NoArgsAndBehavesAsStdOptional =>                           (* 1906-1918 *)
        is_default S && is_default m && negb (has_custom P)
    | NoArgsAndHasCustomFlagManipulator =>                       (* 1921-1932 *)
        is_default S && is_default m && has_custom P
    | SentinelForTypeWithCustomFlagManipulator =>                (* 1935-1953 *)
        is_default m && (has_custom P && negb (is_default S))
    | SentinelSpecified =>                                       (* 1956-1967 *)
        is_default m && (negb (has_custom P) && negb (is_default S))
    | MemPtrToVariableWithCustomFlagManipulator =>               (* 1970-1999 *)
        is_default S &&
        match mem_var m with
        | Some v => is_member_object_pointer m && has_custom v
        | None => false
        end
    | MemPtrToVariableWithoutCustomFlagManipulator =>            (* 2002-2031 *)
        is_default S &&
        match mem_var m with
        | Some v => is_member_object_pointer m && negb (has_custom v)
        | None => false
        end
    | SentinelAndMemPtrForTypeWithCustomFlagManipulator =>       (* 2034-2066 *)
        match mem_var m with
        | Some v => negb (is_default S) && is_member_object_pointer m && has_custom v
        | None => false
        end
    | SentinelAndMemPtr =>                                       (* 2069-2096 *)
        match mem_var m with
        | Some v => negb (is_default S) && is_member_object_pointer m && negb (has_custom v)
        | None => false
        end
    end.

  (** The decompositions of a payload type (see Manip.v). *)
  Definition separate (P : cvty) : decomp := dec_separate (size_of (base P)) (u_align U (base P)).
  Definition inplace (P : cvty) : decomp := dec_inplace (size_of (base P)).

  Definition with_sentinel (d : decomp) (flag : cvty) (S : targ) : outcome :=
    match S with
    | AVal v => match assignment_manip (base flag) v with
                | Some m => Chosen d m
                | None => Rejected BadSentinel
                end
    | ADefault => Rejected BadSentinel
    end.
  (** InplaceDecompositionViaMemPtr<P, m> (optional.h:623-646). *)
  Definition via_mem_ptr (P : cvty) (m : targ) (k : decomp -> cvty -> outcome) : outcome :=
    match m with
    | AVal (VMemObj _ v (Some off)) =>
        k (dec_member (size_of (base P)) off (size_of (base v))) v
    | _ => Rejected NullMemberPointer
    end.
  (** [static_assert(is_same_v<PayloadType, MemberPointerFragments<m>::ClassType>)] *)
  Definition if_member (P : cvty) (m : targ) (o : outcome) : outcome :=
    match mem_class m with
    | Some c => if cvty_eqb P (plain c) then o else Rejected NotAMember
    | None => Rejected NotAMember
    end.
  Definition use_manipulator (d : decomp) (t : cvty) : outcome :=
    match flag_manipulator t with
    | Some m => Chosen d m
    | None => Rejected NoSpecialization
    end.

  (** The bodies of the specializations. *)
  Definition body (P : cvty) (S m : targ) (s : spec) : outcome :=
    match s with
    | NoArgsAndBehavesAsStdOptional => Chosen (separate P) man_separate
    | NoArgsAndHasCustomFlagManipulator => use_manipulator (inplace P) P
    | SentinelForTypeWithCustomFlagManipulator | SentinelSpecified =>
        with_sentinel (inplace P) P S
    | MemPtrToVariableWithCustomFlagManipulator =>
        if_member P m
          (if cf_mem cf then via_mem_ptr P m use_manipulator
           else Chosen (separate P) man_separate)
    | MemPtrToVariableWithoutCustomFlagManipulator =>
        if cf_mem cf then Rejected MissingSentinel
        else if_member P m (Chosen (separate P) man_separate)
    | SentinelAndMemPtrForTypeWithCustomFlagManipulator | SentinelAndMemPtr =>
        if_member P m
          (if cf_mem cf then via_mem_ptr P m (fun d v => with_sentinel d v S)
           else Chosen (separate P) man_separate)
    end.

  (** SelectDecomposition<P, S, m>: the compiler takes the only matching partial
      specialization, or the primary template. *)
  Definition select_decomposition (P : cvty) (S m : targ) : outcome :=
    match filter (matches P S m) specs with
    | [] => Rejected NoSpecialization
    | [s] => body P S m s
    | _ => Rejected Ambiguous
    end.

  (** StorageBase's requirements on the payload (optional.h:945-953). *)
  Definition valid_payload (P : cvty) : bool :=
    match base P with
    | UNullopt | UInPlace | UArray _ => false
    | t => u_destructible U t
    end.

  (** ** The public type names *)

  (** optional_sentinel_via_type<P, S, m> (optional.h:2152-2155). *)
  Definition optional_sentinel_via_type (P : cvty) (S m : targ) : outcome :=
    match select_decomposition P S m with
    | Chosen d f => if valid_payload P then Chosen d f else Rejected BadPayload
    | r => r
    end.

  (** SelectSentinelValueAndMemPtrFromConstants (optional.h:2099-2131). *)
  Definition sentinel_and_mem_ptr (a b : targ) : targ * targ :=
    if is_member_object_pointer a
    then (match b with ADefault => ADefault | AVal v => AVal v end, a)
    else (match a with ADefault => ADefault | AVal v => AVal v end, ADefault).

  (** optional<P, a, b> (optional.h:2195-2203). *)
  Definition optional_type (P : cvty) (a b : targ) : outcome :=
    let (S, m) := sentinel_and_mem_ptr a b in optional_sentinel_via_type P S m.

  (** optional_inplace<P, f> (optional.h:2317-2318). *)
  Definition optional_inplace_type (P : cvty) (f : manip) : outcome :=
    if valid_payload P then Chosen (inplace P) f else Rejected BadPayload.

  (** SwallowingDefaultSentinel (optional.h:2334-2362): the type of the limit
      macros is the type itself, but int for short and unsigned short. *)
  Definition swallowing_default (t : uty) : option const :=
    match t with
    | UInt KUShort => Some (VInt KInt (it_max (u_int U KUShort)))
    | UInt KUInt => Some (VInt KUInt (it_max (u_int U KUInt)))
    | UInt KULong => Some (VInt KULong (it_max (u_int U KULong)))
    | UInt KULLong => Some (VInt KULLong (it_max (u_int U KULLong)))
    | UInt KShort => Some (VInt KInt (it_min (u_int U KShort)))
    | UInt KInt => Some (VInt KInt (it_min (u_int U KInt)))
    | UInt KLong => Some (VInt KLong (it_min (u_int U KLong)))
    | UInt KLLong => Some (VInt KLLong (it_min (u_int U KLLong)))
    | _ => None
    end.

  (** optional_aip<P> and optional_aip<P, a> (optional.h:2365-2385). *)
  Definition optional_aip_default (P : cvty) : outcome :=
    if has_custom P then optional_type P ADefault ADefault
    else match swallowing_default (base P) with
         | Some v => optional_type P (AVal v) ADefault
         | None => Rejected NoDefaultSentinel
         end.
  Definition optional_aip (P : cvty) (a : targ) : outcome := optional_type P a ADefault.
End Select.
