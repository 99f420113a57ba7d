(** * Layout: size, alignment and member types of an optional from the text (C82)

    The data, constants and types that the classes declare are the text of optional.h
    ([DataText.v], written by tools/cpp2coq.py).  Here: what types of members are in an instance
    of these class templates, and how the instance is laid out in memory.  The payload is any
    type with a size and an alignment. *)

From Coq Require Import String List Bool Arith Lia.
From Verif Require Import Syntax TemplateSyntax DataText.
From Verif Require Machine Manip.
Import ListNotations.
Local Open Scope string_scope.

(** ** Types *)

(** The payload (const or not), bool, an instance of a class template of the header, any
    other template argument (flag manipulators, constants). *)
Inductive ty : Type :=
| TPayload (const : bool)
| TBool
| TInst (c : string) (args : list ty)
| TOther.

Definition unconst (t : ty) : ty := match t with TPayload _ => TPayload false | _ => t end.

(** What is asked about an instance of a class: the type that an expression denotes in it, a
    type that the class itself declares, one that it declares or inherits. *)
Inductive request : Type :=
| RType (e : texpr)
| ROwn (x : string)
| RMember (x : string).

Fixpoint all {A} (l : list (option A)) : option (list A) :=
  match l with
  | [] => Some []
  | Some a :: l' => match all l' with Some r => Some (a :: r) | None => None end
  | None :: _ => None
  end.

(** The three decompositions of the header ([Selection.v], and C75 for which is chosen when),
    for a payload [t]. *)
Inductive strategy : Type := Separate | InPlace | InMember.
Definition decomposition (d : strategy) (t : ty) : ty :=
  match d with
  | Separate => TInst "DecompositionForSeparateFlag" [t]
  | InPlace => TInst "InplaceStoredTypeDecomposition" [t]
  | InMember => TInst "InplaceDecompositionViaMemPtr" [t; TOther]
  end.
Definition impl (d : strategy) (t : ty) : ty := TInst "TinyOptionalImpl" [decomposition d t; TOther].

(** The partial specialisations that are chosen (they depend on the payload), and whether
    TINY_OPTIONAL_USE_SEPARATE_BOOL_INSTEAD_OF_MEMBER is defined. *)
Record program : Type := Program {
  no_move : bool; no_copy : bool; no_move_assign : bool; no_copy_assign : bool;
  no_member_flags : bool
}.

Section Program.
Variable p : program.
(** What is selected for tiny::optional. *)
Variable chosen : strategy.

Definition special (C : string) : bool :=
  if String.eqb C "MoveConstructionBase" then no_move p
  else if String.eqb C "CopyConstructionBase" then no_copy p
  else if String.eqb C "MoveAssignmentBase" then no_move_assign p
  else if String.eqb C "CopyAssignmentBase" then no_copy_assign p
  else false.
Definition holds (g : string) : bool :=
  if String.eqb g "!defined TINY_OPTIONAL_USE_SEPARATE_BOOL_INSTEAD_OF_MEMBER" then negb (no_member_flags p)
  else false.
Definition items (k : dclass) : list datum :=
  map snd (filter (fun i => forallb holds (fst i)) (d_items k)).

Definition class_named (C : string) : option dclass :=
  let named b := find (fun k => String.eqb (d_name k) C && Bool.eqb (d_special k) b) classes_data in
  match named true with Some k => if special C then Some k else named false | None => named false end.

Definition alias_in (k : dclass) (x : string) : option texpr :=
  match filter (fun d => match d with DAlias y _ => String.eqb x y | _ => false end) (items k) with
  | [DAlias _ t] => Some t
  | _ => None
  end.

Definition applied (f : string) (args : list ty) : option ty :=
  if String.eqb f "std::remove_const_t" then
    match args with [t] => Some (unconst t) | _ => None end
  else if String.eqb f "TinyOptionalFromSelection" then       (* optional.h:2135-2147 *)
    match args with
    | [TInst g (t :: _)] =>
        if String.eqb g "SelectSentinelValueAndMemPtrFromConstants" then Some (impl chosen t) else None
    | _ => None
    end
  else if String.eqb f "SelectSentinelValueAndMemPtrFromConstants" then Some (TInst f args)
  else match class_named f with
       | Some k => if Nat.eqb (List.length (d_params k)) (List.length args) then Some (TInst f args) else None
       | None => None
       end.

(** [n]: bound on the depth. *)
Fixpoint denotes (n : nat) (r : request) (k : dclass) (args : list ty) : option ty :=
  match n with
  | 0 => None
  | S n =>
      match r with
      | RType (TxName x) =>
          if String.eqb x "bool" then Some TBool else
          match find (fun p => String.eqb (fst p) x) (combine (d_params k) args) with
          | Some p => Some (snd p)
          | None => denotes n (ROwn x) k args
          end
      | RType (TxApp f l) =>
          match all (map (fun e => denotes n (RType e) k args) l) with
          | Some ts => applied f ts
          | None => None
          end
      | RType (TxMem e x) =>
          match denotes n (RType e) k args with
          | Some (TInst f ts) =>
              match class_named f with Some k' => denotes n (RMember x) k' ts | None => None end
          | _ => None
          end
      | RType _ => None
      | ROwn x => match alias_in k x with Some t => denotes n (RType t) k args | None => None end
      | RMember x =>
          match alias_in k x with
          | Some t => denotes n (RType t) k args
          | None =>
              match d_bases k with
              | [b] => match denotes n (RType b) k args with
                       | Some (TInst f ts) =>
                           match class_named f with Some k' => denotes n (RMember x) k' ts | None => None end
                       | _ => None
                       end
              | _ => None
              end
          end
      end
  end.

(** ** Layout *)

(** The bases and the data members, with names and types, of a type. *)
Inductive tree : Type :=
| LPayload
| LBool
| LClass (bases : list tree) (members : list (string * ty * tree)).

Fixpoint shape (n : nat) (t : ty) : option tree :=
  match n with
  | 0 => None
  | S n =>
      match t with
      | TPayload _ => Some LPayload
      | TBool => Some LBool
      | TOther => None
      | TInst C args =>
          match class_named C with
          | None => None
          | Some k =>
              let sub e :=
                match denotes 30 (RType e) k args with
                | Some t => match shape n t with Some r => Some (t, r) | None => None end
                | None => None
                end in
              let member d :=
                match d with
                | DAlias _ _ | DStatic _ _ => Some []
                | DMember x e | DUnion [(x, e)] =>
                    match sub e with Some (t, r) => Some [(x, t, r)] | None => None end
                | DUnion _ => None
                end in
              match all (map sub (d_bases k)), all (map member (items k)) with
              | Some bs, Some ms => Some (LClass (map snd bs) (concat ms))
              | _, _ => None
              end
          end
      end
  end.

Variables s a : nat.          (* sizeof and alignof the payload *)

(** The next multiple of [b], from [n] on. *)
Definition align (n b : nat) : nat := Manip.round_up n b.

(** Size, alignment, and the data members with type and offset.  Bases come first, then the
    members in the order of their declaration, each at the next offset with its alignment; at
    the end the size is rounded up.  A base class takes its full size, an empty one nothing.
    (That an ABI may place members of a derived class into the padding of its base does not
    matter here: no derived class has members.)  sizeof(bool) = 1. *)
Record layout : Type := Lay { l_size : nat; l_align : nat; l_members : list (string * ty * nat) }.
Definition put (st : layout) (z b : nat) (ms : list (string * ty * nat)) : layout :=
  let off := align (l_size st) b in
  Lay (off + z) (Nat.max (l_align st) b)
      (l_members st ++ map (fun m => (fst m, off + snd m)) ms)%list.
Definition finish (st : layout) : layout :=
  match l_members st with
  | [] => Lay 1 1 []
  | _ => Lay (align (l_size st) (l_align st)) (l_align st) (l_members st)
  end.
Fixpoint lay (t : tree) : layout :=
  match t with
  | LPayload => Lay s a []
  | LBool => Lay 1 1 []
  | LClass bs ms =>
      finish (fold_left (fun st (m : string * ty * layout) =>
                           put st (l_size (snd m)) (l_align (snd m)) [(fst m, 0)])
                        (map (fun m => (fst m, lay (snd m))) ms)
             (fold_left (fun st b => match l_members b with
                                     | [] => st
                                     | _ => put st (l_size b) (l_align b) (l_members b)
                                     end)
                        (map lay bs) (Lay 0 1 [])))
  end.
Definition layout_of (t : ty) : option layout := option_map lay (shape 12 t).

(** The types of the objects that are constructed and destroyed along with an object of type
    [t]: not those in a union. *)
Fixpoint automatic (n : nat) (t : ty) : option (list ty) :=
  match n with
  | 0 => None
  | S n =>
      match t with
      | TInst C args =>
          match class_named C with
          | None => None
          | Some k =>
              let sub e := match denotes 30 (RType e) k args with
                           | Some t => match automatic n t with Some l => Some (t :: l) | None => None end
                           | None => None
                           end in
              match all (map sub (d_bases k ++
                                  flat_map (fun d => match d with DMember _ e => [e] | _ => [] end) (items k))%list) with
              | Some l => Some (concat l)
              | None => None
              end
          end
      | _ => Some []
      end
  end.

(** A constant of type bool with [sizeof] and [==], in an instance of a class. *)
Definition number (k : dclass) (args : list ty) (e : expr) : option nat :=
  match e with
  | ESizeof (EName x) =>
      match denotes 30 (RType (TxName x)) k args with
      | Some t => option_map l_size (layout_of t)
      | None => None
      end
  | _ => None
  end.
Definition constant (t : ty) (x : string) : option bool :=
  match t with
  | TInst C args =>
      match class_named C with
      | Some k =>
          match filter (fun d => match d with DStatic y _ => String.eqb x y | _ => false end) (items k) with
          | [DStatic _ (EBin o e1 e2)] =>
              if String.eqb o "==" then
                match number k args e1, number k args e2 with
                | Some n1, Some n2 => Some (Nat.eqb n1 n2)
                | _, _ => None
                end
              else None
          | [DStatic _ (EBool b)] => Some b
          | _ => None
          end
      | None => None
      end
  | _ => None
  end.

End Program.

(** ** C82 *)

(** tiny::optional of a payload and two constants. *)
Definition optional_of (t : ty) : ty := TInst "optional" [t; TOther; TOther].

(** Member flags are only there without the macro. *)
Definition possible (p : program) (d : strategy) : Prop := d = InMember -> no_member_flags p = false.

Lemma align_0 b : align 0 b = 0.
Proof. unfold align, Manip.round_up. destruct b; [reflexivity|]. rewrite Nat.div_small by lia. reflexivity. Qed.
Lemma align_multiple k b : b <> 0 -> align (k * b) b = k * b.
Proof.
  intros H. unfold align, Manip.round_up. f_equal.
  replace (k * b + b - 1) with ((b - 1) + k * b) by lia. rewrite Nat.div_add by exact H.
  rewrite Nat.div_small by lia. lia.
Qed.
Lemma align_1 n : align n 1 = n.
Proof. pose proof (align_multiple n 1). rewrite Nat.mul_1_r in H. apply H. lia. Qed.
Lemma align_after k b : b <> 0 -> align (k * b + 1) b = k * b + b.
Proof.
  intros H. unfold align, Manip.round_up. replace (k * b + 1 + b - 1) with (S k * b) by lia.
  rewrite Nat.div_mul by exact H. lia.
Qed.

Lemma max_l b : Nat.max 1 (S b) = S b.
Proof. reflexivity. Qed.
Lemma max_r b : Nat.max (S b) 1 = S b.
Proof. destruct b; reflexivity. Qed.

Ltac cases :=
  match goal with p : program |- _ => destruct p as [[|] [|] [|] [|] [|]] end;
  match goal with d : strategy |- _ => destruct d end;
  match goal with c : bool |- _ => destruct c end;
  try (exfalso; match goal with H : possible _ _ |- _ => discriminate (H eq_refl) end).
Ltac tidy :=
  cbn [option_map lay map fold_left fst snd l_size l_align l_members put finish List.app];
  repeat rewrite ?align_0, ?align_1, ?Nat.add_0_l, ?Nat.add_0_r, ?max_l, ?max_r, ?Nat.max_id;
  rewrite ?align_after, ?align_multiple by discriminate;
  repeat rewrite ?align_0, ?align_1, ?Nat.add_0_l, ?Nat.add_0_r, ?max_l, ?max_r, ?Nat.max_id.

(** The partial specialisations in the text are those of [special]. *)
Lemma specials_are :
  map d_name (filter d_special classes_data) =
    ["MoveConstructionBase"; "CopyConstructionBase"; "MoveAssignmentBase"; "CopyAssignmentBase"].
Proof. reflexivity. Qed.

Definition storage (d : strategy) (t : ty) : ty :=
  match d with Separate => TInst "SeparateFlagStorage" [t] | _ => TInst "InplaceStorage" [t] end.

Definition storage_tree (d : strategy) : tree :=
  match d with
  | Separate => LClass [] [("payload", TPayload false, LPayload); ("isEmptyFlag", TBool, LBool)]
  | _ => LClass [] [("storage", TPayload false, LPayload)]
  end.
Lemma storage_shape p d c : possible p d -> shape p d 12 (storage d (TPayload c)) = Some (storage_tree d).
Proof. intros Hp. cases; vm_compute; reflexivity. Qed.
Definition base_tree (d : strategy) (c : bool) : tree :=
  LClass [] [("mStorage", storage d (TPayload c), storage_tree d)].
Definition derived_tree (n : nat) (t : tree) : tree := Nat.iter n (fun t => LClass [t] []) t.
Lemma optional_shape p d c : possible p d ->
  shape p d 12 (optional_of (TPayload c)) = Some (derived_tree 6 (base_tree d c)) /\
  shape p d 12 (impl d (TPayload c)) = Some (derived_tree 5 (base_tree d c)).
Proof. intros Hp. cases; split; vm_compute; reflexivity. Qed.

Lemma layout_shape p d s a t r : shape p d 12 t = Some r -> layout_of p d s a t = Some (lay s a r).
Proof. intros H. unfold layout_of. rewrite H. reflexivity. Qed.

Definition storage_layout (d : strategy) (s a : nat) : layout :=
  match d with
  | Separate => Lay (s + a) a [("payload", TPayload false, 0); ("isEmptyFlag", TBool, s)]
  | _ => Lay s a [("storage", TPayload false, 0)]
  end.
Lemma lay_storage d k b : lay (k * S b) (S b) (storage_tree d) = storage_layout d (k * S b) (S b).
Proof. destruct d; cbn [storage_tree]; tidy; reflexivity. Qed.
Lemma lay_base d c k b :
  lay (k * S b) (S b) (base_tree d c) =
  Lay (match d with Separate => S k | _ => k end * S b) (S b) [("mStorage", storage d (TPayload c), 0)].
Proof.
  unfold base_tree. cbn [lay map fold_left snd fst]. rewrite lay_storage.
  destruct d; cbn [storage_layout l_size l_align l_members put List.app map finish fst snd];
    rewrite align_0, max_l, ?Nat.add_0_l, ?Nat.add_0_r.
  - replace (k * S b + S b) with (S k * S b) by lia. now rewrite align_multiple by discriminate.
  - now rewrite align_multiple by discriminate.
  - now rewrite align_multiple by discriminate.
Qed.

(** A class that adds nothing to its base has the layout of the base. *)
Lemma lay_derived s a n t k b m ms :
  lay s a t = Lay (k * b) b (m :: ms) -> b <> 0 -> lay s a (derived_tree n t) = Lay (k * b) b (m :: ms).
Proof.
  intros H Hb. induction n as [|n IH]; [exact H|].
  change (derived_tree (S n) t) with (LClass [derived_tree n t] []).
  cbn [lay map fold_left]. rewrite IH. destruct b as [|b]; [easy|].
  cbn [l_members l_size l_align put List.app map finish]. rewrite align_0, max_l, Nat.add_0_l, align_multiple by discriminate.
  f_equal. change ((fst m, 0 + snd m) :: map (fun m => (fst m, 0 + snd m)) ms) with (map (fun m : string * ty * nat => (fst m, 0 + snd m)) (m :: ms)).
  generalize (m :: ms). clear. induction l as [|(x & y) l IH]; [reflexivity|]. cbn [map]. now rewrite IH.
Qed.

(** The storage: the payload, not const, at its start; with a separate flag it is followed by
    a bool and padding to the next multiple of the alignment, otherwise by nothing.  (The size
    of a type is a multiple [k] of its alignment [a].) *)
Theorem C82_storage : forall p d c k a, a <> 0 -> possible p d ->
  layout_of p d (k * a) a (storage d (TPayload c)) =
    Some (match d with
          | Separate => Lay (k * a + a) a [("payload", TPayload false, 0); ("isEmptyFlag", TBool, k * a)]
          | _ => Lay (k * a) a [("storage", TPayload false, 0)]
          end).
Proof.
  intros p d c k a Ha Hp. destruct a as [|a]; [easy|].
  rewrite (layout_shape _ _ _ _ _ _ (storage_shape p d c Hp)), lay_storage. reflexivity.
Qed.

(** An optional consists of the storage and nothing else, whatever base classes it has:
    sizeof(optional) is sizeof(payload) if the flag is in place, otherwise larger by the
    alignment of the payload; the alignment is that of the payload. *)
Definition expected (d : strategy) (c : bool) (s a : nat) : layout :=
  Lay (match d with Separate => s + a | _ => s end) a [("mStorage", storage d (TPayload c), 0)].
Lemma lay_expected n d c k b : lay (k * S b) (S b) (derived_tree n (base_tree d c)) = expected d c (k * S b) (S b).
Proof.
  rewrite (lay_derived _ _ _ _ _ _ _ _ (lay_base d c k b)) by discriminate. unfold expected. f_equal. destruct d; lia.
Qed.
Theorem C82_layout : forall p d c k a, a <> 0 -> possible p d ->
  layout_of p d (k * a) a (optional_of (TPayload c)) = Some (expected d c (k * a) a) /\
  layout_of p d (k * a) a (impl d (TPayload c)) = Some (expected d c (k * a) a).
Proof.
  intros p d c k a Ha Hp. destruct a as [|a]; [easy|]. destruct (optional_shape p d c Hp) as (H1 & H2).
  rewrite (layout_shape _ _ _ _ _ _ H1), (layout_shape _ _ _ _ _ _ H2), !lay_expected. split; reflexivity.
Qed.

(** is_compressed, as its initialiser in the text says (C80: it is found in StorageBase). *)
Theorem C82_is_compressed : forall p d c k a, a <> 0 -> possible p d ->
  constant p d (k * a) a (TInst "StorageBase" [decomposition d (TPayload c); TOther]) "is_compressed" =
    Some (match d with Separate => false | _ => true end).
Proof.
  intros p d c k a Ha Hp. destruct a as [|a]; [easy|].
  assert (N : Nat.eqb (k * S a + S a) (k * S a) = false) by (apply Nat.eqb_neq; lia).
  transitivity (match layout_of p d (k * S a) (S a) (storage d (TPayload c)) with
                | Some l => Some (Nat.eqb (l_size l) (k * S a))
                | None => None
                end).
  - cases; unfold constant, number, layout_of; vm_compute (class_named _ _); reflexivity.
  - rewrite (C82_storage p d c k (S a) Ha Hp). destruct d; cbn [l_size]; rewrite ?N, ?Nat.eqb_refl; reflexivity.
Qed.
Theorem C82_is_tiny_optional : forall p d c s a,
  constant p d s a (impl d (TPayload c)) "is_tiny_optional" = Some true.
Proof. intros p d c s a. destruct p as [[|] [|] [|] [|] [|]]; reflexivity. Qed.

(** The types that user code can name: value_type is the payload as it was given, const
    included. *)
Definition member_type (p : program) (d : strategy) (t : ty) (x : string) : option ty :=
  match t with
  | TInst C args => match class_named p C with Some k => denotes p d 30 (RMember x) k args | None => None end
  | _ => None
  end.
Theorem C82_value_type : forall p d c, possible p d ->
  member_type p d (optional_of (TPayload c)) "value_type" = Some (TPayload c) /\
  member_type p d (impl d (TPayload c)) "value_type" = Some (TPayload c) /\
  member_type p d (TInst "StorageBase" [decomposition d (TPayload c); TOther]) "PayloadType" = Some (TPayload c) /\
  member_type p d (TInst "StorageBase" [decomposition d (TPayload c); TOther]) "StoredType" =
    Some (storage d (TPayload c)).
Proof. intros p d c Hp. cases; vm_compute; repeat split. Qed.

(** No payload is constructed or destroyed implicitly along with an optional: it is in a
    union. *)
Definition no_payload (l : list ty) : Prop := forall c, ~ In (TPayload c) l.
Theorem C82_lifetime : forall p d c, possible p d ->
  exists l, automatic p d 12 (optional_of (TPayload c)) = Some l /\ no_payload l.
Proof.
  intros p d c Hp.
  assert (H : match automatic p d 12 (optional_of (TPayload c)) with
              | Some l => forallb (fun t => match t with TPayload _ => false | _ => true end) l
              | None => false
              end = true) by (cases; vm_compute; reflexivity).
  destruct (automatic p d 12 (optional_of (TPayload c))) as [l|]; [|discriminate].
  exists l. split; [reflexivity|]. intros c' X. exact (eq_true_false_abs _ (proj1 (forallb_forall _ _) H _ X) eq_refl).
Qed.

(** With that, the sizes and offsets that the memory model of [Manip.v] and C33 use are those
    of the text. *)
Theorem C82_memory_model : forall p c k a, a <> 0 ->
  (forall l, layout_of p Separate (k * a) a (optional_of (TPayload c)) = Some l ->
     l_size l = Machine.d_ssize (Manip.dec_separate (k * a) a)) /\
  (forall l, layout_of p Separate (k * a) a (storage Separate (TPayload c)) = Some l ->
     In ("isEmptyFlag", TBool, Machine.d_foff (Manip.dec_separate (k * a) a)) (l_members l)) /\
  (forall l, layout_of p InPlace (k * a) a (optional_of (TPayload c)) = Some l ->
     l_size l = Machine.d_ssize (Manip.dec_inplace (k * a))).
Proof.
  intros p c k a Ha.
  assert (P1 : possible p Separate) by discriminate. assert (P2 : possible p InPlace) by discriminate.
  destruct (C82_layout p Separate c k a Ha P1) as (H1 & _).
  destruct (C82_layout p InPlace c k a Ha P2) as (H2 & _).
  pose proof (C82_storage p Separate c k a Ha P1) as H3.
  rewrite H1, H2, H3. repeat split; intros l [= <-]; cbn.
  - symmetry. exact (align_after k a Ha).
  - right. now left.
  - reflexivity.
Qed.

(** The cases at hand: optional<double> on x64 with and without place in the payload, a
    payload of 12 bytes that can only be moved. *)
Example C82_example :
  let p := Program false false false false false in
  layout_of p InPlace 8 8 (optional_of (TPayload false)) =
    Some (Lay 8 8 [("mStorage", TInst "InplaceStorage" [TPayload false], 0)]) /\
  layout_of p Separate 8 8 (optional_of (TPayload false)) =
    Some (Lay 16 8 [("mStorage", TInst "SeparateFlagStorage" [TPayload false], 0)]) /\
  layout_of (Program false true false true true) Separate 12 4 (optional_of (TPayload true)) =
    Some (Lay 16 4 [("mStorage", TInst "SeparateFlagStorage" [TPayload true], 0)]) /\
  constant p Separate 12 4 (TInst "StorageBase" [decomposition Separate (TPayload false); TOther]) "is_compressed" = Some false /\
  possible p InMember /\
  layout_of p InMember (3 * 4) 4 (optional_of (TPayload false)) = Some (expected InMember false (3 * 4) 4).
Proof. repeat split; reflexivity. Qed.

Print Assumptions C82_layout.
Print Assumptions C82_memory_model.
