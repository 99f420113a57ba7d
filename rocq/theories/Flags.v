(** * Flags: the text of the flag manipulators and decompositions, executed

    [Exec.v] takes the flag manipulator and the decomposition, which are template
    parameters of StorageBase, as primitives.  Here the texts of the library's own ones
    (sentinel_flag_manipulator, SeparateFlagManipulator, MemcpyAndCmpFlagManipulator,
    AssignmentFlagManipulator and the three decompositions, [Source.v]) are executed on the
    bytes of mStorage and compared with the model ([Manip.v], and the functions [fm_...] of
    [Optional.v]). *)

From Coq Require Import Ascii String List NArith ZArith Bool Arith Lia.
From Verif Require Import Cells CellsFacts Machine Optional Program Spec Laws Refine Contract.
From Verif Require Import Bits Manip Select Selection Whole Histories Sample Syntax Source Exec Texts TextRuns.
Import ListNotations.
Local Open Scope string_scope.

(** ** The meaning of the constructs *)

(** What the template arguments of decomposition and manipulator amount to: size and
    alignment of the payload; offset and size of the member that memPtrToIsEmptyFlag
    (optional.h:624) names; the object representation of the sentinel
    (valueToIndicateEmpty, optional.h:713, 814; SentinelValue, optional.h:230); the
    representation of an object FlagType(sentinel); the operator [flag == sentinel] (a
    value that is read may be indeterminate: [None]); whether the flag's class overloads
    the unary operator &. *)
Record targs : Type := MkTargs {
  ta_psize : nat;
  ta_align : nat;
  ta_moff : nat;
  ta_msize : nat;
  ta_sent : rep;
  ta_new : rep;
  ta_eq : rep -> option bool;
  ta_amp : bool
}.

(** Objects: mStorage, a part of it (offset and size), the sentinel. *)
Inductive object : Type :=
| OStored
| OPart (off size : nat)
| OSent.

(** Values of expressions: an lvalue, a pointer, bool, int, void. *)
Inductive fvalue : Type :=
| FLv (o : object)
| FPtr (o : object)
| FBool (b : bool)
| FInt (n : nat)
| FVoid.

(** Undefined behaviour and programs that do not compile are [inr]. *)
Definition code (A : Type) : Type := region -> (A * region) + fault.
Definition give {A} (a : A) : code A := fun r => inl (a, r).
Definition stop {A} (f : fault) : code A := fun _ => inr f.
Definition seq {A B} (x : code A) (k : A -> code B) : code B :=
  fun r => match x r with inl (a, r') => k a r' | inr f => inr f end.

Section Flags.
  Variable T : targs.
  (** Whether mStorage is a SeparateFlagStorage. *)
  Variable sep : bool.

  (** The data members of SeparateFlagStorage (optional.h:516-528: the payload and then a
      bool, whose alignment is 1) and InplaceStorage (optional.h:532-544), and the member
      of the payload that a pointer to member names. *)
  Definition part (o : object) (x : string) : option object :=
    match o with
    | OStored =>
        if sep
        then if String.eqb x "payload" then Some (OPart 0 (ta_psize T))
             else if String.eqb x "isEmptyFlag" then Some (OPart (ta_psize T) 1)
             else None
        else if String.eqb x "storage" then Some (OPart 0 (ta_psize T)) else None
    | OPart off _ =>
        if String.eqb x "*memPtrToIsEmptyFlag" then Some (OPart (off + ta_moff T) (ta_msize T))
        else None
    | OSent => None
    end.

  (** The value of the object [o] is read: it has to be alive.  In place the flag is part
      of the payload. *)
  Definition read (o : object) : code rep :=
    match o with
    | OPart off size =>
        fun r => if flag_obj r || (pay_obj r && negb sep)
                 then inl (sub off size (cells r), r) else inr NoObject
    | OSent => give (ta_sent T)
    | OStored => stop IllTyped
    end.
  Definition write (off : nat) (v : rep) (alive : bool) : code unit :=
    fun r => inl (tt, MkRegion (put off v (cells r)) alive (pay_obj r)).
  (** An object is created in the memory of [OPart]: nothing may be alive there. *)
  Definition create (off size : nat) (v : rep -> rep) : code unit :=
    fun r => if flag_obj r || pay_obj r then inr LifetimeError
             else write off (v (sub off size (cells r))) true r.

  (** The bool of a parameter or of an assignment: its byte must be 0 or 1. *)
  Definition bool_of (v : rep) : option bool :=
    match v with [Byte 0%N] => Some false | [Byte 1%N] => Some true | _ => None end.
  Definition of_bool (b : bool) : rep := [Byte (if b then 1 else 0)%N].

  (** Calls of functions of the standard library: std::addressof; memcmp, whose result is
      0 iff the bytes are equal; memcpy, which creates the object
      ([intro.object]/10-13). *)
  Definition std_call (f : string) (vs : list fvalue) : code fvalue :=
    if String.eqb f "std::addressof" then
      match vs with [FLv o] => give (FPtr o) | _ => stop IllTyped end
    else if String.eqb f "std::memcmp" then
      match vs with
      | [FPtr (OPart off size); FPtr OSent; FInt n] =>
          if Nat.leb n size && Nat.leb n (length (ta_sent T)) then
            seq (read (OPart off size)) (fun c =>
              match unbytes (firstn n c), unbytes (firstn n (ta_sent T)) with
              | Some l, Some l' => give (FInt (if bytes_eqb l l' then 0 else 1))
              | _, _ => stop IndetRead
              end)
          else stop NoStorage
      | _ => stop IllTyped
      end
    else if String.eqb f "std::memcpy" then
      match vs with
      | [FPtr (OPart off size); FPtr OSent; FInt n] =>
          if Nat.leb n size && Nat.leb n (length (ta_sent T)) then
            seq (create off size (fun c => (firstn n (ta_sent T) ++ skipn n c)%list)) (fun _ => give FVoid)
          else stop NoStorage
      | _ => stop IllTyped
      end
    else stop IllTyped.

  (** [a == b] and [a = b].  The comparison of flag and sentinel is the flag type's. *)
  Definition binary (op : string) (a b : fvalue) : code fvalue :=
    if String.eqb op "==" then
      match a, b with
      | FInt m, FInt n => give (FBool (Nat.eqb m n))
      | FLv (OPart off size), FLv OSent =>
          seq (read (OPart off size)) (fun c =>
            match ta_eq T c with Some r => give (FBool r) | None => stop IndetRead end)
      | _, _ => stop IllTyped
      end
    else if String.eqb op "=" then
      match a, b with
      | FLv (OPart off 1), FBool v =>
          fun r => if flag_obj r then seq (write off (of_bool v) true) (fun _ => give a) r
                   else inr NoObject
      | _, _ => stop IllTyped
      end
    else stop IllTyped.

  (** Expressions; [names]: the parameters.  [&e] needs that the class of [e] does not
      overload the operator. *)
  Fixpoint value_of (names : list (string * object + string * bool)) (e : expr) : code fvalue :=
    match e with
    | EName x =>
        match find (fun p => match p with inl (y, _) => String.eqb x y | inr (y, _) => String.eqb x y end)
                   names with
        | Some (inl (_, o)) => give (FLv o)
        | Some (inr (_, b)) => give (FBool b)
        | None =>
            if String.eqb x "valueToIndicateEmpty" || String.eqb x "SentinelValue"
            then give (FLv OSent) else stop IllTyped
        end
    | EBool b => give (FBool b)
    | ENum n => give (FInt n)
    | EMember a x =>
        seq (value_of names a) (fun v =>
          match v with
          | FLv o => match part o x with Some o' => give (FLv o') | None => stop IllTyped end
          | _ => stop IllTyped
          end)
    | EUn op a =>
        if String.eqb op "&" then
          seq (value_of names a) (fun v =>
            match v with
            | FLv (OPart off size) => if ta_amp T then stop IllTyped else give (FPtr (OPart off size))
            | FLv o => give (FPtr o)
            | _ => stop IllTyped
            end)
        else stop IllTyped
    | ECast k t a =>
        seq (value_of names a) (fun v => match v with FPtr o => give (FPtr o) | _ => stop IllTyped end)
    | ESizeof a =>
        match a with
        | EName x => if String.eqb x "valueToIndicateEmpty" then give (FInt (length (ta_sent T)))
                     else stop IllTyped
        | _ => stop IllTyped
        end
    | ECall (EName f) args =>
        seq ((fix values (l : list expr) : code (list fvalue) :=
                match l with
                | [] => give []
                | a :: l' => seq (value_of names a) (fun v => seq (values l') (fun vs => give (v :: vs)))
                end) args)
            (std_call f)
    | EBin op a b =>
        seq (value_of names a) (fun v => seq (value_of names b) (fun w => binary op v w))
    | ENew a t [b] =>
        seq (value_of names a) (fun p => seq (value_of names b) (fun v =>
          match p, v with
          | FPtr (OPart off size), FLv OSent =>
              if Nat.eqb (length (ta_new T)) size
              then seq (create off size (fun _ => ta_new T)) (fun _ => give FVoid)
              else stop IllTyped
          | _, _ => stop IllTyped
          end))
    | EDtor a t =>
        seq (value_of names a) (fun v =>
          match v with
          | FLv (OPart off size) =>
              fun r => if flag_obj r then seq (write off (indets size) false) (fun _ => give FVoid) r
                       else inr NoObject
          | _ => stop IllTyped
          end)
    | _ => stop IllTyped
    end.

  (** The body: static_assert (about noexcept, C52) has no effect at run time. *)
  Fixpoint statements (names : list (string * object + string * bool)) (l : list stmt) : code fvalue :=
    match l with
    | [] => give FVoid
    | SStaticAssert _ :: l' => statements names l'
    | SExpr e :: l' => seq (value_of names e) (fun _ => statements names l')
    | SReturn (Some e) :: _ => value_of names e
    | _ => stop IllTyped
    end.

  (** Is the type a reference? *)
  Fixpoint is_ref (t : string) : bool :=
    match t with
    | EmptyString => false
    | String c EmptyString => Ascii.eqb c "&"
    | String _ t' => is_ref t'
    end.

  (** The call [cls::f(o)] of a static member function with one parameter; a parameter
      that is not a reference is a bool by value. *)
  Definition static_call (cls f : string) (o : object) : code fvalue :=
    match overloads cls f with
    | [d] =>
        match f_params d, f_body d with
        | [p], Body l =>
            if is_ref (p_type p) then statements [inl (p_name p, o)] l
            else seq (read o) (fun c =>
                   match bool_of c with
                   | Some b => statements [inr (p_name p, b)] l
                   | None => stop IndetRead
                   end)
        | _, _ => stop IllTyped
        end
    | _ => stop IllTyped
    end.
  (** [M::f(D::GetIsEmptyFlag(mStorage))] (optional.h:957, 993-1005, 1054) *)
  Definition flag_call (D M f : string) : code fvalue :=
    seq (static_call D "GetIsEmptyFlag" OStored) (fun v =>
      match v with FLv o => static_call M f o | _ => stop IllTyped end).
End Flags.

(** ** Strategies: a decomposition and a manipulator with their arguments *)

Inductive decomposition : Type := DSeparate | DInplace | DMember.
Inductive manipulator : Type := MSeparate | MMemcpy | MAssignment | MSentinel.
Definition d_class (d : decomposition) : string :=
  match d with
  | DSeparate => "DecompositionForSeparateFlag"
  | DInplace => "InplaceStoredTypeDecomposition"
  | DMember => "InplaceDecompositionViaMemPtr"
  end.
Definition m_class (m : manipulator) : string :=
  match m with
  | MSeparate => "SeparateFlagManipulator"
  | MMemcpy => "MemcpyAndCmpFlagManipulator"
  | MAssignment => "AssignmentFlagManipulator"
  | MSentinel => "sentinel_flag_manipulator"
  end.
Definition is_sep (d : decomposition) : bool := match d with DSeparate => true | _ => false end.

(** The model's counterparts ([Manip.v]). *)
Definition model_dec (T : targs) (d : decomposition) : decomp :=
  match d with
  | DSeparate => dec_separate (ta_psize T) (ta_align T)
  | DInplace => dec_inplace (ta_psize T)
  | DMember => dec_member (ta_psize T) (ta_moff T) (ta_msize T)
  end.
Definition model_man (T : targs) (m : manipulator) : manip :=
  match m with
  | MSeparate => man_separate
  | MMemcpy => man_memcmp (match unbytes (ta_sent T) with Some l => l | None => [] end)
  | MAssignment | MSentinel => man_assign (ta_new T) (ta_eq T)
  end.

(** The combinations that the library makes, with arguments of fitting sizes: the separate
    manipulator with the separate flag; the sentinel of memcpy consists of at most as many
    bytes as the flag (static_assert, optional.h:714); an object FlagType(sentinel) has the
    size of the flag.  sentinel_flag_manipulator: no overloaded operator &. *)
Definition flag_size (T : targs) (d : decomposition) : nat := d_fsize (model_dec T d).
Definition fitting (T : targs) (d : decomposition) (m : manipulator) : Prop :=
  match d with
  | DSeparate => m = MSeparate
  | _ => match m with
         | MSeparate => False
         | MMemcpy => (exists l, ta_sent T = map Byte l) /\ length (ta_sent T) <= flag_size T d
         | MAssignment => length (ta_new T) = flag_size T d
         | MSentinel => length (ta_new T) = flag_size T d /\ ta_amp T = false
         end
  end.

(** The calls on the storage of [i] as code of the machine.  A flag object that begins
    or ends its life is an event. *)
Definition text_of (T : targs) (d : decomposition) (m : manipulator) (f : string) : code fvalue :=
  flag_call T (is_sep d) (d_class d) (m_class m) f.
Definition text_is_empty {W} (T : targs) (d : decomposition) (m : manipulator) (i : loc) : M W bool :=
  r <- get_region i ;;
  match text_of T d m "is_empty" r with
  | inl (FBool b, _) => ret b
  | inl _ => dead IllTyped
  | inr e => dead e
  end.
Definition text_modify {W} (T : targs) (d : decomposition) (m : manipulator) (f : string) (i : loc)
  : M W unit :=
  r <- get_region i ;;
  match text_of T d m f r with
  | inl (FVoid, r') =>
      set_region i (Some r') ;;
      (if Bool.eqb (flag_obj r) (flag_obj r') then ret tt
       else if flag_obj r' then log (EvFlagBegin i) else log (EvFlagEnd i))
  | inl _ => dead IllTyped
  | inr e => dead e
  end.

(** ** The texts do what the model says *)

Lemma unbytes_firstn_map n l : unbytes (firstn n (map Byte l)) = Some (firstn n l).
Proof. rewrite firstn_map. apply unbytes_map. Qed.

Ltac flag_case :=
  unfold text_of, flag_call, static_call; cbn [d_class m_class is_sep];
  repeat match goal with
         | |- context [overloads ?c ?f] =>
             let l := eval vm_compute in (overloads c f) in
             let H := fresh in
             assert (H : overloads c f = l) by (vm_compute; reflexivity);
             rewrite H; clear H
         end;
  cbv -[sub put firstn skipn app map unbytes bytes_eqb Nat.leb Nat.eqb Nat.add length indets ta_psize ta_align ta_moff
        ta_msize ta_sent ta_new ta_eq ta_amp round_up].
Lemma firstn_bytes l : firstn (length l) (map Byte l) = map Byte l.
Proof. rewrite firstn_map, firstn_all. reflexivity. Qed.
(** The bytes of a sentinel for memcpy. *)
Ltac sentinel_bytes :=
  try match goal with
      | H : (exists l, ta_sent ?T = _) /\ _ |- _ =>
          let l := fresh "l" in let Hl := fresh "Hl" in let Hn := fresh "Hn" in
          destruct H as ((l & Hl) & Hn); rewrite Hl in *; rewrite !map_length in *;
          rewrite ?unbytes_map, ?unbytes_firstn_map, ?(proj2 (Nat.leb_le _ _) Hn), ?Nat.leb_refl, ?firstn_all, ?firstn_bytes
      end.

(** What the flag manipulator is applied to. *)
Definition flag_at (T : targs) (d : decomposition) (r : region) : rep :=
  sub (d_foff (model_dec T d)) (d_fsize (model_dec T d)) (cells r).

Lemma ask_text T d m r :
  fitting T d m ->
  text_of T d m "is_empty" r =
  if flag_obj r || (pay_obj r && negb (is_sep d))
  then match m_is_empty (model_man T m) (flag_at T d r) with
       | Some b => inl (FBool b, r)
       | None => inr IndetRead
       end
  else inr NoObject.
Proof.
  intros Hf. unfold flag_at. destruct r as [c fo po].
  destruct d, m; cbn in Hf; try contradiction; try discriminate; flag_case; sentinel_bytes;
    change (0 + ta_moff T) with (ta_moff T); destruct fo, po; try reflexivity;
    repeat match goal with
           | |- context [match match ?x with _ => _ end with _ => _ end] => destruct x; try reflexivity
           | |- context [match ?x with Some _ => _ | None => _ end] => destruct x; try reflexivity
           end.
  all: destruct (bytes_eqb _ _); reflexivity.
Qed.

Lemma init_text T d m r :
  fitting T d m -> (is_sep d = true -> flag_obj r = true) ->
  text_of T d m "init_empty_flag" r =
  if negb (is_sep d) && (flag_obj r || pay_obj r) then inr LifetimeError
  else inl (FVoid, MkRegion (put (d_foff (model_dec T d)) (m_init (model_man T m) (flag_at T d r)) (cells r))
                            true (pay_obj r)).
Proof.
  intros Hf Ha. unfold flag_at. destruct r as [c fo po]. cbn [flag_obj cells pay_obj] in *.
  destruct d, m; cbn in Hf; try contradiction; try discriminate; try (specialize (Ha eq_refl); subst fo);
    try (destruct Hf as (Hf & Hamp); pose proof Hf as Hl; apply Nat.eqb_eq in Hl);
    try (pose proof Hf as Hl; apply Nat.eqb_eq in Hl);
    flag_case; try (rewrite Hamp; cbv beta iota); try (rewrite Hl; cbv beta iota); sentinel_bytes;
    change (0 + ta_moff T) with (ta_moff T); try destruct fo; destruct po; reflexivity.
Qed.

Lemma invalidate_text T d m r :
  fitting T d m -> d_foff (model_dec T d) + d_fsize (model_dec T d) <= length (cells r) ->
  text_of T d m "invalidate_empty_flag" r =
  if flag_obj r
  then inl (FVoid, MkRegion (put (d_foff (model_dec T d)) (m_inval (model_man T m) (flag_at T d r)) (cells r))
                            (is_sep d) (pay_obj r))
  else inr NoObject.
Proof.
  intros Hf Ha. assert (L := length_sub _ _ _ Ha). change (length (flag_at T d r) = d_fsize (model_dec T d)) in L.
  transitivity
    (if flag_obj r
     then inl (FVoid, MkRegion (put (d_foff (model_dec T d))
                 (match d with DSeparate => [Byte 0%N] | _ => indets (d_fsize (model_dec T d)) end) (cells r))
                            (is_sep d) (pay_obj r))
     else inr NoObject).
  - destruct r as [c fo po].
    destruct d, m; cbn in Hf; try contradiction; try discriminate; flag_case;
      change (0 + ta_moff T) with (ta_moff T); destruct fo, po; reflexivity.
  - destruct d, m; cbn in Hf; try contradiction; try discriminate; cbn [model_man man_separate man_memcmp man_assign m_inval];
      rewrite ?L; reflexivity.
Qed.

(** The payload is at the beginning of the storage, and the flag where the model has it. *)
Lemma parts_text T d r :
  static_call T (is_sep d) (d_class d) "GetPayload" OStored r =
    inl (FLv (OPart 0 (d_psize (model_dec T d))), r) /\
  static_call T (is_sep d) (d_class d) "GetIsEmptyFlag" OStored r =
    inl (FLv (OPart (d_foff (model_dec T d)) (d_fsize (model_dec T d))), r).
Proof.
  destruct d; split; flag_case; reflexivity.
Qed.

(** ** The property *)

(** The three functions of the flag manipulator, applied to the flag in the storage of
    [i], do in every state what the model says.  For init_empty_flag the bool of a
    separate flag has to exist (it always does: [C72_shape_kept]); the model demands the
    documented precondition of invalidate_empty_flag (the flag says "empty"), the text
    does not check it. *)
Theorem C72_manipulator_text :
  forall W (E : env W) T d m i (s : state W),
    dec E i = model_dec T d -> man E i = model_man T m -> fitting T d m ->
    fm_is_empty E i s = text_is_empty T d m i s /\
    ((forall r, mem s i = Some r -> d_sep (dec E i) = true -> flag_obj r = true) ->
     fm_init E i s = text_modify T d m "init_empty_flag" i s) /\
    ((forall r, mem s i = Some r -> d_foff (dec E i) + d_fsize (dec E i) <= length (cells r)) ->
     fm_invalidate E i s = text_modify T d m "invalidate_empty_flag" i s \/
     fm_invalidate E i s = (Dead Precondition, s)).
Proof.
  intros W E T d m i s Hd Hm Hf.
  assert (Sep : d_sep (model_dec T d) = is_sep d) by (destruct d; reflexivity).
  unfold fm_is_empty, fm_init, fm_invalidate, text_is_empty, text_modify, bind, get_region. rewrite Hd, Hm, Sep.
  destruct (mem s i) as [r|] eqn:Hr; [|auto]. repeat split.
  - rewrite (ask_text T d m r Hf). unfold flag_at.
    destruct (flag_obj r || pay_obj r && negb (is_sep d)); [|reflexivity].
    destruct (m_is_empty _ _); reflexivity.
  - intros Ha. rewrite (init_text T d m r Hf (Ha r eq_refl)). unfold flag_at.
    destruct (is_sep d) eqn:Sd; cbn [negb andb].
    + rewrite (Ha r eq_refl eq_refl). reflexivity.
    + destruct (flag_obj r), (pay_obj r); reflexivity.
  - intros Ha. rewrite (invalidate_text T d m r Hf (Ha r eq_refl)). unfold flag_at.
    destruct (flag_obj r); [|auto].
    destruct (is_sep d || _); [left|right; reflexivity].
    destruct (is_sep d); reflexivity.
Qed.

(** The decompositions' functions: payload and flag are where the model has them. *)
Theorem C72_decomposition_text :
  forall T d r,
    static_call T (is_sep d) (d_class d) "GetPayload" OStored r =
      inl (FLv (OPart 0 (d_psize (model_dec T d))), r) /\
    static_call T (is_sep d) (d_class d) "GetIsEmptyFlag" OStored r =
      inl (FLv (OPart (d_foff (model_dec T d)) (d_fsize (model_dec T d))), r).
Proof. exact parts_text. Qed.

(** Storage has the size of its type, and a separate flag exists in it.  It is so when
    the storage is reserved, and the texts keep it so. *)
Definition shaped (D : decomp) (r : region) : Prop :=
  length (cells r) = d_ssize D /\ (d_sep D = true -> flag_obj r = true).

Theorem C72_shape_kept :
  forall T d m,
    fitting T d m -> decomp_ok (model_dec T d) ->
    (forall W (E : env W) i s s', dec E i = model_dec T d -> alloc E i s = (Ok tt, s') ->
       exists r, mem s' i = Some r /\ shaped (dec E i) r) /\
    forall f r v r',
      In f ["is_empty"; "init_empty_flag"; "invalidate_empty_flag"] ->
      shaped (model_dec T d) r -> text_of T d m f r = inl (v, r') -> shaped (model_dec T d) r'.
Proof.
  intros T d m Hf HD. split.
  - intros W E i s s' Hd H. unfold alloc, set_region in H. destruct (mem s i); [discriminate|].
    injection H as <-. exists (MkRegion (indets (d_ssize (dec E i))) (d_sep (dec E i)) false).
    cbn. unfold upd. rewrite Nat.eqb_refl. split; [reflexivity|]. split; cbn; [apply length_indets|auto].
  - intros f r v r' Hin (Hl & Hs) H.
    assert (Sep : d_sep (model_dec T d) = is_sep d) by (destruct d; reflexivity).
    pose proof (do_flag _ HD) as Hfl.
    assert (Hat : length (flag_at T d r) = d_fsize (model_dec T d)) by (apply length_sub; lia).
    destruct Hin as [<-|[<-|[<-|[]]]].
    + rewrite (ask_text T d m r Hf) in H. destruct (_ || _); [|discriminate].
      destruct (m_is_empty _ _); [|discriminate]. injection H as <- <-. split; assumption.
    + rewrite (init_text T d m r Hf) in H by (rewrite Sep in Hs; exact Hs).
      destruct (_ && _); [discriminate|]. injection H as <- <-. split; cbn; [|reflexivity].
      rewrite length_put; [exact Hl|].
      assert (L : length (m_init (model_man T m) (flag_at T d r)) = d_fsize (model_dec T d)).
      { destruct d, m; cbn in Hf; try contradiction; try discriminate; try reflexivity;
          cbn [model_man man_assign m_init]; try (destruct Hf; assumption); try assumption;
          destruct Hf as ((l & Hb) & Hn); rewrite Hb, unbytes_map; cbn [man_memcmp m_init];
          rewrite app_length, map_length, skipn_length, Hat; rewrite Hb, map_length in Hn; cbn; lia. }
      lia.
    + rewrite (invalidate_text T d m r Hf) in H by lia.
      destruct (flag_obj r); [|discriminate]. injection H as <- <-. split; cbn; [|congruence].
      rewrite length_put; [exact Hl|].
      assert (L : length (m_inval (model_man T m) (flag_at T d r)) = d_fsize (model_dec T d)).
      { destruct d, m; cbn in Hf; try contradiction; try discriminate; try reflexivity;
          cbn [model_man man_assign man_memcmp m_inval]; rewrite length_indets; exact Hat. }
      lia.
Qed.

(** *** The library's choice *)

(** The strategy is made of the library's classes, with the texts above. *)
Definition from_text (D : decomp) (F : manip) : Prop :=
  exists T d m, fitting T d m /\ D = model_dec T d /\ F = model_man T m.

Lemma via_type_shape U cf P S m D F :
  optional_sentinel_via_type U cf P S m = Chosen D F ->
  (D = separate U P /\ F = man_separate) \/
  (exists d T t,
     d <> DSeparate /\ d_fsize D = size_of U (base t) /\
     (forall a b c, D = model_dec (MkTargs (ta_psize T) (ta_align T) (ta_moff T) (ta_msize T) a b c false) d) /\
     (flag_manipulator U cf t = Some F \/
      exists v, assignment_manip U (base t) v = Some F)).
Proof.
  intros H. unfold optional_sentinel_via_type in H.
  destruct (select_decomposition U cf P S m) as [r|d' f'] eqn:Hs; [discriminate|].
  destruct (valid_payload U P); [|discriminate]. injection H as -> ->.
  unfold select_decomposition in Hs.
  destruct (filter (matches U cf P S m) specs) as [|s [|s2 l]]; try discriminate.
  assert (In_ : forall t, base t = base P -> inplace U P = D ->
            (flag_manipulator U cf t = Some F \/ exists v, assignment_manip U (base t) v = Some F) ->
            exists d T t, d <> DSeparate /\ d_fsize D = size_of U (base t) /\
              (forall a b c, D = model_dec (MkTargs (ta_psize T) (ta_align T) (ta_moff T) (ta_msize T) a b c false) d) /\
              (flag_manipulator U cf t = Some F \/ exists v, assignment_manip U (base t) v = Some F)).
  { intros t Ht <- Hm. exists DInplace, (MkTargs (size_of U (base P)) 1 0 0 [] [] (fun _ => None) false), t.
    split; [discriminate|]. split; [rewrite Ht; reflexivity|]. split; [reflexivity|exact Hm]. }
  assert (Me : forall t off, dec_member (size_of U (base P)) off (size_of U (base t)) = D ->
            (flag_manipulator U cf t = Some F \/ exists v, assignment_manip U (base t) v = Some F) ->
            exists d T t, d <> DSeparate /\ d_fsize D = size_of U (base t) /\
              (forall a b c, D = model_dec (MkTargs (ta_psize T) (ta_align T) (ta_moff T) (ta_msize T) a b c false) d) /\
              (flag_manipulator U cf t = Some F \/ exists v, assignment_manip U (base t) v = Some F)).
  { intros t off <- Hm. exists DMember, (MkTargs (size_of U (base P)) 1 off (size_of U (base t)) [] [] (fun _ => None) false), t.
    split; [discriminate|]. split; [reflexivity|]. split; [reflexivity|exact Hm]. }
  destruct s; cbn [Select.body] in Hs; unfold use_manipulator, with_sentinel, if_member, via_mem_ptr in Hs;
    repeat match type of Hs with
           | match ?x with _ => _ end = _ => destruct x eqn:?; try discriminate
           end; injection Hs as <- <-; auto; right; eauto.
Qed.

Lemma assignment_shape U t v F :
  assignment_manip U t v = Some F -> exists enc eqv, F = man_assign enc eqv.
Proof.
  intros H. unfold assignment_manip, implicit_convert, man_ptr_sentinel in H.
  repeat match type of H with
         | match ?x with _ => _ end = _ => destruct x eqn:?; try discriminate
         end; injection H as <-; unfold man_int, man_float, man_bool_sentinel; eauto.
Qed.

Lemma memcmp_shape U cf t :
  sentinel_known cf t = true ->
  exists l, unused_bits_manip U (base t) = man_memcmp l /\ length l <= size_of U (base t).
Proof.
  intros H. unfold sentinel_known in H. destruct (cf_bit cf); [|discriminate].
  destruct (base t) eqn:B; try discriminate; cbn; try (eexists; split; [reflexivity|cbn; lia]).
  destruct (u_x64 U); eexists; (split; [reflexivity|cbn; lia]).
Qed.

(** Whatever name a program uses and whatever template arguments it gives: if it compiles,
    then decomposition and flag manipulator are the library's texts above, unless the
    flag manipulator is the user's own (a specialization of optional_flag_manipulator, or
    the argument of optional_inplace). *)
Theorem C72_selected_text :
  forall U cf P D F,
    universe_ok U -> Whole.named U cf P D F ->
    from_text D F \/ (exists t, u_spec U t = Some F) \/ optional_inplace_type U P F = Chosen D F.
Proof.
  intros U cf P D F HU HN. destruct (named_lawful U cf P D F HU HN) as (HD & HF).
  assert (V : forall S m, optional_sentinel_via_type U cf P S m = Chosen D F ->
                from_text D F \/ (exists t, u_spec U t = Some F) \/ optional_inplace_type U P F = Chosen D F).
  { intros S m H. apply via_type_shape in H as [(-> & ->)|(d & T & t & Nd & Hsz & HT & Hm)].
    - left. exists (MkTargs (size_of U (base P)) (u_align U (base P)) 0 0 [] [] (fun _ => None) false), DSeparate, MSeparate.
      repeat split.
    - assert (A : forall enc eqv, F = man_assign enc eqv -> from_text D F).
      { intros enc eqv ->.
        pose proof (mo_init_len _ _ HF (indets (d_fsize D)) (length_indets _)) as L. cbn in L.
        exists (MkTargs (ta_psize T) (ta_align T) (ta_moff T) (ta_msize T) [] enc eqv false), d, MAssignment.
        split; [|split; [apply HT|reflexivity]].
        unfold flag_size. cbn [fitting]. rewrite (HT [] enc eqv) in L.
        destruct d; [contradiction|exact L|exact L]. }
      destruct Hm as [Hm|(v & Hm)]; [|left; destruct (assignment_shape _ _ _ _ Hm) as (enc & eqv & ->); eauto].
      unfold flag_manipulator in Hm. destruct (u_spec U t) as [g|] eqn:Eg.
      + right. left. exists t. congruence.
      + destruct (sentinel_known cf t) eqn:K; [|discriminate]. injection Hm as <-.
        destruct (memcmp_shape U cf t K) as (l & -> & Hl). left.
        exists (MkTargs (ta_psize T) (ta_align T) (ta_moff T) (ta_msize T) (map Byte l) [] (fun _ => None) false), d, MMemcpy.
        split; [|split; [apply HT|]].
        * rewrite <- Hsz in Hl. rewrite (HT (map Byte l) [] (fun _ => None)) in Hl.
          destruct d; [contradiction|..]; (split; [exists l; reflexivity|]); unfold flag_size;
            cbn [ta_sent]; rewrite map_length; exact Hl.
        * cbn [model_man ta_sent]. rewrite unbytes_map. reflexivity. }
  assert (O : forall a b, optional_type U cf P a b = Chosen D F ->
                from_text D F \/ (exists t, u_spec U t = Some F) \/ optional_inplace_type U P F = Chosen D F).
  { intros a b H. unfold optional_type in H. destruct (sentinel_and_mem_ptr a b) as (S & m). exact (V S m H). }
  destruct HN as [a b _ _ _ H|S m _ _ _ H|g _ H|H|a _ _ _ H]; eauto.
  - right. right. unfold optional_inplace_type in *. destruct (valid_payload U P); [|discriminate].
    injection H as <- <-. reflexivity.
  - unfold optional_aip_default in H. destruct (has_custom U cf P); [eauto|].
    destruct (swallowing_default U (base P)); [eauto|discriminate].
Qed.

(** ** Everything together: whatever compiles, executed from the text *)
Theorem C72_every_instantiation :
  forall W U cf (E : env W) m w p xs t,
    universe_ok U -> program_types U cf E -> Forall op_ok p -> std_run E w p = (Some xs, t) ->
    (exists r s, text_run E m p (init_state w) r s) /\
    forall r s, text_run E m p (init_state w) r s ->
      r = inl xs /\ world s = sworld t /\
      forall i,
        match objs t i with
        | Some (SOpt o) => peek E i s = Some o
        | Some (SVar v) => load_payload E i s = (Ok v, s)
        | None => mem s i = None
        end.
Proof.
  intros W U cf E m w p xs t HU HP Ho H.
  exact (C71_text_refines_std W E m w p xs t (program_lawful W U cf E HU HP) Ho H).
Qed.

(** ** Examples *)

(** optional<double>: memcmp with the eight bytes of the sentinel (optional.h:437). *)
Definition double_args : targs :=
  MkTargs 8 8 0 0 (map Byte (bytes_le 8 sent_double)) [] (fun _ => None) false.
(** optional<int, -1>. *)
Definition int_args : targs :=
  MkTargs 4 4 0 0 [] (int_rep (MkIty 4 true) (-1)) (int_eqv (MkIty 4 true) (-1)) false.

Example C72_fitting_example :
  fitting double_args DInplace MMemcpy /\ model_man double_args MMemcpy = man_double /\
  fitting int_args DInplace MAssignment /\ fitting int_args DInplace MSentinel /\
  fitting int_args DSeparate MSeparate /\
  from_text (dec_inplace 8) man_double.
Proof.
  assert (F : fitting double_args DInplace MMemcpy).
  { split; [eexists; reflexivity|cbn; lia]. }
  split; [exact F|]. split; [reflexivity|]. split; [reflexivity|]. split; [split; reflexivity|].
  split; [reflexivity|]. exists double_args, DInplace, MMemcpy. split; [exact F|split; reflexivity].
Qed.

Example C72_execution_example :
  let fresh := MkRegion (indets 8) false false in
  let empty := MkRegion (map Byte (bytes_le 8 sent_double)) true false in
  text_of double_args DInplace MMemcpy "init_empty_flag" fresh = inl (FVoid, empty) /\
  text_of double_args DInplace MMemcpy "is_empty" empty = inl (FBool true, empty) /\
  text_of double_args DInplace MMemcpy "invalidate_empty_flag" empty = inl (FVoid, fresh) /\
  text_of double_args DInplace MMemcpy "is_empty" fresh = inr NoObject /\
  text_of int_args DSeparate MSeparate "is_empty" (MkRegion (indets 8) true false) = inr IndetRead.
Proof. vm_compute. repeat split. Qed.

Print Assumptions C72_manipulator_text.
Print Assumptions C72_decomposition_text.
Print Assumptions C72_shape_kept.
Print Assumptions C72_selected_text.
Print Assumptions C72_every_instantiation.
