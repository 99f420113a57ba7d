(** * Interface: which members of an optional user code can name, and that every name in
    the functions of the header is found

    The classes are the text of optional.h ([Members.v], written by tools/cpp2coq.py), the
    functions that of [Source.v].  Member name lookup, using-declarations, access and the
    lookup in templates (unqualified names are not looked up in base classes that depend on
    template parameters) follow the C++ standard, [class.member.lookup], [class.access.base],
    [namespace.udecl] and [temp.dep].  Constructors and destructors have no name that lookup
    finds; they are dealt with separately.  The names of the classes themselves, which are
    members as well, are left out. *)

From Coq Require Import String List Bool Ascii Arith Lia.
From Verif Require Import Syntax Source Specials Members.
From Verif Require Exec.
Import ListNotations.
Local Open Scope string_scope.

(** ** Lookup *)

(** [Hidden]: found, but not accessible even for the class itself (a private member of a
    base class). *)
Inductive access : Type := Public | Protected | Private | Hidden.

Definition access_of (s : string) : access :=
  if String.eqb s "public" then Public else if String.eqb s "protected" then Protected else Private.

(** The access of an inherited member ([class.access.base]). *)
Definition inherit (how a : access) : access :=
  match a, how with
  | Private, _ | Hidden, _ => Hidden
  | _, Private => Private
  | _, Protected => Protected
  | a, _ => a
  end.

(** The name after [p], if the text starts with it. *)
Definition after (p s : string) : option string :=
  if String.prefix p s then Some (String.substring (String.length p) (String.length s) s) else None.

Section Lookup.
(** For which payload types the specialisations (with deleted copy and move operations) of
    the four base classes at optional.h:1200-1382 are used is [Declared.v]; here it is
    arbitrary, as are the macros that are defined. *)
Variable sp : string -> bool.
Variable macro : string -> bool.

(** A condition of an #if. *)
Definition holds (g : string) : bool :=
  match after "defined " g, after "!defined " g with
  | Some x, _ => macro x
  | _, Some x => negb (macro x)
  | _, _ => false
  end.
Definition active (m : member) : bool := forallb holds (m_guard m).

Definition primary (C : string) : option klass :=
  find (fun k => String.eqb (k_name k) C && negb (k_special k)) klasses.
Definition special (C : string) : option klass :=
  find (fun k => String.eqb (k_name k) C && k_special k) klasses.
Definition class_named (C : string) : option klass :=
  match special C with Some k => if sp C then Some k else primary C | None => primary C end.

(** A constructor or destructor of a class. *)
Definition nameless (k : klass) (x : string) : bool :=
  String.eqb x (k_name k) || String.eqb x ("~" ++ k_name k).

(** The name that a member of the class declares itself, or takes from its base class. *)
Definition declares (k : klass) (m : member) : option string :=
  match m_declared m with
  | DFun x => if nameless k x then None else Some x
  | DData x _ | DType x _ => Some x
  | _ => None
  end.
Definition takes (m : member) : option string :=
  match m_declared m with
  | DUsing x => if String.eqb x "Base" then None else Some x
  | _ => None
  end.

(** Name [n], looked up in class [C], is found as declared in class [D]; its access, as a
    member of [C]. *)
Inductive found : string -> string -> access -> string -> Prop :=
| found_here C k m n :
    class_named C = Some k -> In m (k_members k) -> active m = true -> declares k m = Some n ->
    found C n (access_of (m_access m)) C
| found_using C k m n how B a D :
    class_named C = Some k -> In m (k_members k) -> active m = true -> takes m = Some n ->
    In (how, B) (k_bases k) -> found (Exec.unalias 5 B) n a D -> a = Public \/ a = Protected ->
    found C n (access_of (m_access m)) D
| found_base C k n how B a D :
    class_named C = Some k ->
    (forall m, In m (k_members k) -> active m = true -> declares k m <> Some n /\ takes m <> Some n) ->
    In (how, B) (k_bases k) -> found (Exec.unalias 5 B) n a D ->
    found C n (inherit (access_of how) a) D.

(** A pointer or reference to class [C] converts to one to [B] in user code. *)
Inductive accessible_base : string -> string -> Prop :=
| base_direct C k how B :
    class_named C = Some k -> In (how, B) (k_bases k) -> access_of how = Public ->
    accessible_base C (Exec.unalias 5 B)
| base_trans A B C : accessible_base A B -> accessible_base B C -> accessible_base A C.

(** *** Computed *)

Definition is_name (o : option string) (n : string) : bool :=
  match o with Some x => String.eqb x n | None => false end.
Definition open (a : access) : bool := match a with Public | Protected => true | _ => false end.

Fixpoint lookups (h : nat) (C n : string) : list (access * string) :=
  match h, class_named C with
  | Datatypes.S h', Some k =>
      let ms := filter active (k_members k) in
      let base := flat_map (fun b => map (fun r => (access_of (fst b), r)) (lookups h' (Exec.unalias 5 (snd b)) n))
                           (k_bases k) in
      let own := filter (fun m => is_name (declares k m) n) ms in
      let usings := filter (fun m => is_name (takes m) n) ms in
      map (fun m => (access_of (m_access m), C)) own ++
      flat_map (fun m => map (fun r => (access_of (m_access m), snd (snd r)))
                             (filter (fun r => open (fst (snd r))) base)) usings ++
      match own, usings with
      | [], [] => map (fun r => (inherit (fst r) (fst (snd r)), snd (snd r))) base
      | _, _ => []
      end
  | _, _ => []
  end.

Lemma is_name_iff : forall o n, is_name o n = true <-> o = Some n.
Proof.
  intros [x|] n; cbn; [|split; discriminate].
  rewrite String.eqb_eq. split; [intros ->; reflexivity|now intros [= ->]].
Qed.

Lemma lookups_sound : forall h C n a D, In (a, D) (lookups h C n) -> found C n a D.
Proof.
  induction h as [|h IH]; intros C n a D; [intros []|].
  cbn [lookups]. destruct (class_named C) as [k|] eqn:HC; [|intros []].
  cbv zeta.
  assert (HB : forall x, In x (flat_map (fun b => map (fun r => (access_of (fst b), r))
                 (lookups h (Exec.unalias 5 (snd b)) n)) (k_bases k)) ->
               exists how B, In (how, B) (k_bases k) /\ fst x = access_of how /\
                 found (Exec.unalias 5 B) n (fst (snd x)) (snd (snd x))).
  { intros x Hx. apply in_flat_map in Hx. destruct Hx as ((how, B) & H1 & H2).
    apply in_map_iff in H2. destruct H2 as ((a', D') & <- & H3). exists how, B. cbn in *. auto. }
  revert HB. generalize (flat_map (fun b => map (fun r => (access_of (fst b), r))
                 (lookups h (Exec.unalias 5 (snd b)) n)) (k_bases k)). intros base HB.
  intros H. apply in_app_or in H. destruct H as [H|H].
  - apply in_map_iff in H. destruct H as (m & [= <- <-] & H).
    apply filter_In in H. destruct H as (H & H1). apply filter_In in H. destruct H as (H & H2).
    apply is_name_iff in H1. eapply found_here; eauto.
  - apply in_app_or in H. destruct H as [H|H].
    + apply in_flat_map in H. destruct H as (m & H & H3).
      apply filter_In in H. destruct H as (H & H1). apply filter_In in H. destruct H as (H & H2).
      apply is_name_iff in H1. apply in_map_iff in H3. destruct H3 as (x & [= <- <-] & H3).
      apply filter_In in H3. destruct H3 as (H3 & H4).
      destruct (HB _ H3) as (how & B & H5 & H6 & H7).
      eapply found_using; eauto. destruct (fst (snd x)); cbn in H4; auto; discriminate.
    + destruct (filter (fun m => is_name (declares k m) n) (filter active (k_members k))) eqn:E1; [|destruct H].
      destruct (filter (fun m => is_name (takes m) n) (filter active (k_members k))) eqn:E2; [|destruct H].
      apply in_map_iff in H. destruct H as (x & [= <- <-] & H).
      destruct (HB _ H) as (how & B & H5 & H6 & H7). rewrite H6.
      eapply found_base; eauto.
      intros m Hm Ha.
      assert (Hf : In m (filter active (k_members k))) by (apply filter_In; auto).
      split; intros X.
      * assert (Q : In m []); [rewrite <- E1; apply filter_In; split; [exact Hf|apply is_name_iff, X]|destruct Q].
      * assert (Q : In m []); [rewrite <- E2; apply filter_In; split; [exact Hf|apply is_name_iff, X]|destruct Q].
Qed.

Lemma filter_none : forall (A : Type) (p : A -> bool) l, (forall x, In x l -> p x = false) -> filter p l = [].
Proof.
  intros A p. induction l as [|x l IH]; intros H; [reflexivity|].
  cbn. rewrite (H x (or_introl eq_refl)). apply IH. intros y Hy. apply H. now right.
Qed.

Lemma lookups_complete : forall C n a D,
  found C n a D -> exists h0, forall h, h0 <= h -> In (a, D) (lookups h C n).
Proof.
  intros C n a D H. induction H as [C k m n HC Hm Ha Hd|C k m n how B a D HC Hm Ha Ht Hb H IH Ho|C k n how B a D HC Hn Hb H IH].
  - exists 1. intros [|h] Hh; [lia|]. cbn [lookups]. rewrite HC. cbv zeta.
    apply in_or_app. left. apply in_map_iff. exists m. split; [reflexivity|].
    apply filter_In. split; [apply filter_In; auto|apply is_name_iff, Hd].
  - destruct IH as (h0 & IH). exists (Datatypes.S h0). intros [|h] Hh; [lia|].
    cbn [lookups]. rewrite HC. cbv zeta. apply in_or_app. right. apply in_or_app. left.
    apply in_flat_map. exists m. split.
    + apply filter_In. split; [apply filter_In; auto|apply is_name_iff, Ht].
    + apply in_map_iff. exists (access_of how, (a, D)). split; [reflexivity|].
      apply filter_In. split; [|destruct Ho as [->| ->]; reflexivity].
      apply in_flat_map. exists (how, B). split; [exact Hb|].
      apply (in_map (fun r => (access_of how, r))). apply IH. lia.
  - destruct IH as (h0 & IH). exists (Datatypes.S h0). intros [|h] Hh; [lia|].
    cbn [lookups]. rewrite HC. cbv zeta.
    rewrite (filter_none _ (fun m => is_name (declares k m) n)).
    2:{ intros m Hm. apply filter_In in Hm. destruct Hm as (Hm & Ha).
        destruct (is_name (declares k m) n) eqn:E; [|reflexivity].
        apply is_name_iff in E. destruct (Hn m Hm Ha) as (X & _). now destruct X. }
    rewrite (filter_none _ (fun m => is_name (takes m) n)).
    2:{ intros m Hm. apply filter_In in Hm. destruct Hm as (Hm & Ha).
        destruct (is_name (takes m) n) eqn:E; [|reflexivity].
        apply is_name_iff in E. destruct (Hn m Hm Ha) as (_ & X). now destruct X. }
    cbn [map app flat_map]. apply in_map_iff. exists (access_of how, (a, D)). split; [reflexivity|].
    apply in_flat_map. exists (how, B). split; [exact Hb|].
    apply (in_map (fun r => (access_of how, r))). apply IH. lia.
Qed.

(** The base classes are at most six deep. *)
Definition stable (h : nat) (C : string) : Prop := forall n h', h <= h' -> lookups h' C n = lookups h C n.
Lemma stable_step : forall h C,
  (forall k how B, class_named C = Some k -> In (how, B) (k_bases k) -> stable h (Exec.unalias 5 B)) ->
  stable (Datatypes.S h) C.
Proof.
  intros h C H n [|h'] Hh; [lia|]. cbn [lookups]. destruct (class_named C) as [k|] eqn:E; [|reflexivity].
  cbv zeta.
  replace (flat_map (fun b => map (fun r => (access_of (fst b), r)) (lookups h' (Exec.unalias 5 (snd b)) n)) (k_bases k))
    with (flat_map (fun b => map (fun r => (access_of (fst b), r)) (lookups h (Exec.unalias 5 (snd b)) n)) (k_bases k));
    [reflexivity|].
  assert (G : forall l, (forall x, In x l -> In x (k_bases k)) ->
     flat_map (fun b => map (fun r => (access_of (fst b), r)) (lookups h (Exec.unalias 5 (snd b)) n)) l =
     flat_map (fun b => map (fun r => (access_of (fst b), r)) (lookups h' (Exec.unalias 5 (snd b)) n)) l).
  { induction l as [|[how B] l IH]; intros Hl; [reflexivity|].
    cbn [flat_map fst snd]. f_equal.
    - f_equal. symmetry. apply (H k how B eq_refl (Hl _ (or_introl eq_refl))). lia.
    - apply IH. intros x Hx. apply Hl. now right. }
  apply G. auto.
Qed.
End Lookup.

(** *** The header has finitely many classes and names *)

Definition height (C : string) : nat :=
  match Exec.assoc C
    [("MoveConstructionBase", 1); ("CopyConstructionBase", 2); ("MoveAssignmentBase", 3);
     ("CopyAssignmentBase", 4); ("TinyOptionalImpl", 5); ("optional", 6)] with
  | Some h => h
  | None => 0
  end.
Lemma heights :
  forallb (fun k => forallb (fun b => Nat.ltb (height (Exec.unalias 5 (snd b))) (height (k_name k))) (k_bases k))
    klasses = true.
Proof. vm_compute. reflexivity. Qed.

Lemma class_named_in : forall sp C k, class_named sp C = Some k -> In k klasses /\ k_name k = C.
Proof.
  intros sp C k. unfold class_named, special, primary.
  assert (G : forall p, find (fun k => String.eqb (k_name k) C && p k) klasses = Some k -> In k klasses /\ k_name k = C).
  { intros p H. apply find_some in H. destruct H as (H1 & H2). split; [exact H1|].
    apply andb_prop in H2. destruct H2 as (H2 & _). now apply String.eqb_eq. }
  destruct (find (fun k => String.eqb (k_name k) C && k_special k) klasses) as [k'|] eqn:E.
  - destruct (sp C); [|apply (G (fun k => negb (k_special k)))].
    intros [= ->]. exact (G _ E).
  - apply (G (fun k => negb (k_special k))).
Qed.

Lemma stable_height : forall sp macro h C, height C < h -> stable sp macro h C.
Proof.
  intros sp macro. induction h as [|h IH]; intros C Hh; [lia|].
  apply stable_step. intros k how B HC Hb. apply IH.
  destruct (class_named_in _ _ _ HC) as (Hk & HN).
  pose proof (proj1 (forallb_forall _ _) heights k Hk) as H. cbv beta in H.
  pose proof (proj1 (forallb_forall _ _) H _ Hb) as H1. apply Nat.ltb_lt in H1.
  cbn [snd] in H1. rewrite HN in H1. lia.
Qed.

Lemma height_bound : forall C, height C < 8.
Proof.
  intros C. unfold height. cbn [Exec.assoc].
  repeat match goal with |- context [if ?b then _ else _] => destruct b end; lia.
Qed.

Theorem found_iff : forall sp macro C n a D,
  found sp macro C n a D <-> In (a, D) (lookups sp macro 8 C n).
Proof.
  intros. split; [|apply lookups_sound].
  intros H. apply lookups_complete in H. destruct H as (h0 & H).
  rewrite <- (stable_height sp macro 8 C (height_bound C) n (Nat.max 8 h0)) by lia.
  apply H. lia.
Qed.

(** The classes with a specialisation and the conditions of the #ifs. *)
Definition mem (x : string) (l : list string) : bool := existsb (String.eqb x) l.
Definition specialised : list string :=
  ["MoveConstructionBase"; "CopyConstructionBase"; "MoveAssignmentBase"; "CopyAssignmentBase"].
Definition or_else_macro : string := "TINY_OPTIONAL_ENABLE_ORELSE".
Definition member_macro : string := "TINY_OPTIONAL_USE_SEPARATE_BOOL_INSTEAD_OF_MEMBER".
Lemma specials_are :
  forallb (fun k => implb (k_special k) (mem (k_name k) specialised)) klasses = true.
Proof. vm_compute. reflexivity. Qed.
Lemma guards_are :
  forallb (fun k => forallb (fun m => forallb (fun g => mem g ["defined " ++ or_else_macro; "!defined " ++ member_macro])
    (m_guard m)) (k_members k)) klasses = true.
Proof. vm_compute. reflexivity. Qed.

Definition pick4 (l : list string) (bs : list bool) (x : string) : bool :=
  match Exec.assoc x (combine l bs) with Some b => b | None => false end.
Definition macros2 : list string := [or_else_macro; member_macro].

Lemma mem_in : forall x l, mem x l = true <-> In x l.
Proof.
  intros x l. unfold mem. rewrite existsb_exists. split.
  - intros (y & H & E). apply String.eqb_eq in E. now subst.
  - intros H. exists x. split; [exact H|apply String.eqb_refl].
Qed.

Lemma pick4_map : forall l f x, In x l -> pick4 l (map f l) x = f x.
Proof.
  intros l f x. unfold pick4. induction l as [|y l IH]; [intros []|].
  cbn [map combine Exec.assoc]. destruct (String.eqb x y) eqn:E.
  - apply String.eqb_eq in E. now subst.
  - intros [->|H]; [rewrite String.eqb_refl in E; discriminate|]. apply IH, H.
Qed.

Lemma class_named_ext : forall sp C,
  class_named sp C = class_named (pick4 specialised (map sp specialised)) C.
Proof.
  intros sp C. unfold class_named. destruct (special C) as [k|] eqn:E; [|reflexivity].
  rewrite pick4_map; [reflexivity|].
  unfold special in E. apply find_some in E. destruct E as (Hk & E).
  apply andb_prop in E. destruct E as (E1 & E2). apply String.eqb_eq in E1. subst C.
  pose proof (proj1 (forallb_forall _ _) specials_are k Hk) as H. cbv beta in H.
  rewrite E2 in H. apply mem_in. exact H.
Qed.

Lemma active_ext : forall macro k m, In k klasses -> In m (k_members k) ->
  active macro m = active (pick4 macros2 (map macro macros2)) m.
Proof.
  intros macro k m Hk Hm. unfold active.
  pose proof (proj1 (forallb_forall _ _) guards_are k Hk) as H. cbv beta in H.
  pose proof (proj1 (forallb_forall _ _) H m Hm) as H1. cbv beta in H1. clear H Hm Hk.
  revert H1. induction (m_guard m) as [|g l IH]; [reflexivity|].
  cbn [forallb]. intros H. apply andb_prop in H. destruct H as (Hg & H). rewrite (IH H). f_equal.
  apply mem_in in Hg. destruct Hg as [<-|[<-|[]]]; reflexivity.
Qed.

Lemma lookups_ext : forall sp macro h C n,
  lookups sp macro h C n =
  lookups (pick4 specialised (map sp specialised)) (pick4 macros2 (map macro macros2)) h C n.
Proof.
  intros sp macro. induction h as [|h IH]; intros C n; [reflexivity|].
  cbn [lookups]. rewrite <- class_named_ext. destruct (class_named sp C) as [k|] eqn:E; [|reflexivity].
  destruct (class_named_in _ _ _ E) as (Hk & _).
  rewrite (filter_ext_in (active macro) (active (pick4 macros2 (map macro macros2)))).
  2:{ intros m Hm. now apply (active_ext macro k). }
  rewrite (flat_map_ext (fun b => map (fun r => (access_of (fst b), r)) (lookups sp macro h (Exec.unalias 5 (snd b)) n))
    (fun b => map (fun r => (access_of (fst b), r)) (lookups (pick4 specialised (map sp specialised))
        (pick4 macros2 (map macro macros2)) h (Exec.unalias 5 (snd b)) n))).
  - reflexivity.
  - intros b. now rewrite IH.
Qed.

Fixpoint bools (n : nat) : list (list bool) :=
  match n with O => [[]] | Datatypes.S n' => map (cons false) (bools n') ++ map (cons true) (bools n') end.
Lemma bools_all : forall l : list bool, In l (bools (List.length l)).
Proof.
  induction l as [|b l IH]; [now left|]. cbn. apply in_or_app. destruct b; [right|left]; now apply in_map.
Qed.

(** All names that the classes declare. *)
Definition all_names : list string :=
  nodup string_dec (flat_map (fun k => flat_map (fun m =>
    match declares k m, takes m with Some x, _ => [x] | _, Some x => [x] | _, _ => [] end) (k_members k)) klasses).

Lemma not_declared : forall sp macro h C n, ~ In n all_names -> lookups sp macro h C n = [].
Proof.
  intros sp macro h C n Hn. revert C. induction h as [|h IH]; intros C; [reflexivity|].
  cbn [lookups]. destruct (class_named sp C) as [k|] eqn:E; [|reflexivity].
  destruct (class_named_in _ _ _ E) as (Hk & _). cbv zeta.
  assert (N : forall m, In m (k_members k) -> declares k m <> Some n /\ takes m <> Some n).
  { intros m Hm. split; intros X; apply Hn; unfold all_names; apply nodup_In; apply in_flat_map; exists k;
      (split; [exact Hk|]); apply in_flat_map; exists m; (split; [exact Hm|]).
    - rewrite X. now left.
    - rewrite X. destruct (declares k m) eqn:E1; [|now left].
      unfold declares in E1. unfold takes in X. destruct (m_declared m); discriminate. }
  rewrite (filter_none _ (fun m => is_name (declares k m) n)).
  2:{ intros m Hm. apply filter_In in Hm. destruct Hm as (Hm & _).
      destruct (is_name (declares k m) n) eqn:E1; [|reflexivity].
      apply is_name_iff in E1. now destruct (proj1 (N m Hm)). }
  rewrite (filter_none _ (fun m => is_name (takes m) n)).
  2:{ intros m Hm. apply filter_In in Hm. destruct Hm as (Hm & _).
      destruct (is_name (takes m) n) eqn:E1; [|reflexivity].
      apply is_name_iff in E1. now destruct (proj2 (N m Hm)). }
  cbn [map app flat_map].
  rewrite (flat_map_ext _ (fun _ => [])).
  - induction (k_bases k) as [|b l IH']; [reflexivity|exact IH'].
  - intros b. now rewrite IH.
Qed.

(** A statement about what is found holds if it holds for the declared names, and for names
    that are not found. *)
Lemma by_cases : forall (P : (string -> bool) -> list (access * string) -> string -> bool) C,
  (forall f g l n, (forall x, In x macros2 -> f x = g x) -> P f l n = P g l n) ->
  forallb (fun bs => forallb (fun ms => forallb (fun n =>
     P (pick4 macros2 ms) (lookups (pick4 specialised bs) (pick4 macros2 ms) 8 C n) n)
     all_names) (bools 2)) (bools 4) = true ->
  forall sp macro n, (~ In n all_names -> P macro [] n = true) -> P macro (lookups sp macro 8 C n) n = true.
Proof.
  intros P C HP H sp macro n Hn.
  destruct (in_dec string_dec n all_names) as [Hi|Hi].
  - pose proof (proj1 (forallb_forall _ _) H _ (bools_all (map sp specialised))) as H1. cbv beta in H1.
    pose proof (proj1 (forallb_forall _ _) H1 _ (bools_all (map macro macros2))) as H2. cbv beta in H2.
    pose proof (proj1 (forallb_forall _ _) H2 _ Hi) as H3. cbv beta in H3.
    rewrite lookups_ext. rewrite (HP macro (pick4 macros2 (map macro macros2))); [exact H3|].
    clear. intros x Hx. symmetry. apply pick4_map, Hx.
  - rewrite not_declared by exact Hi. now apply Hn.
Qed.

(** ** C80: the members of an optional *)

(** The members of std::optional (of C++23; or_else only if the macro that the header
    defines for C++20 is) and the two constants that README.md documents. *)
Definition std_members : list string :=
  ["value_type"; "operator="; "operator->"; "operator*"; "operator bool"; "has_value"; "value";
   "value_or"; "emplace"; "reset"; "swap"; "and_then"; "transform"].
Definition own_members : list string := ["is_compressed"; "is_tiny_optional"].

Definition documented (or_else : bool) (n : string) : Prop :=
  In n std_members \/ (n = "or_else" /\ or_else = true) \/ In n own_members.

Definition documentedb (or_else : bool) (n : string) : bool :=
  mem n std_members || (String.eqb n "or_else" && or_else) || mem n own_members.
Lemma documentedb_iff : forall b n, documentedb b n = true <-> documented b n.
Proof.
  intros b n. unfold documentedb, documented.
  rewrite !orb_true_iff, andb_true_iff, !mem_in, String.eqb_eq. tauto.
Qed.

Definition is_public (a : access) : bool := match a with Public => true | _ => false end.

(** What is found does not depend on the specialisations, and only or_else on a macro: it is
    what is found when the macro is defined. *)
Definition same_access (a b : access) : bool :=
  match a, b with
  | Public, Public | Protected, Protected | Private, Private | Hidden, Hidden => true
  | _, _ => false
  end.
Fixpoint same_list (l m : list (access * string)) : bool :=
  match l, m with
  | [], [] => true
  | (a, x) :: l', (b, y) :: m' => same_access a b && String.eqb x y && same_list l' m'
  | _, _ => false
  end.
Lemma same_list_eq : forall l m, same_list l m = true -> l = m.
Proof.
  induction l as [|(a, x) l IH]; intros [|(b, y) m] H; try discriminate; [reflexivity|].
  cbn in H. apply andb_prop in H. destruct H as (H & H2). apply andb_prop in H. destruct H as (H & H1).
  apply String.eqb_eq in H1. rewrite (IH m H2), H1. destruct a, b; try discriminate; reflexivity.
Qed.

Definition facade : list string := ["optional"; "TinyOptionalImpl"].
Definition table_of (C : string) : list (string * list (access * string)) :=
  map (fun n => (n, lookups (pick4 specialised []) (fun _ => true) 8 C n)) all_names.
Definition tables : list (string * list (string * list (access * string))) :=
  Eval vm_compute in map (fun C => (C, table_of C)) facade.
Definition entry (C n : string) : list (access * string) :=
  match Exec.assoc C tables with
  | Some t => match Exec.assoc n t with Some l => l | None => [] end
  | None => []
  end.
Definition expected (C : string) (or_else : bool) (n : string) : list (access * string) :=
  if String.eqb n "or_else" && negb or_else then [] else entry C n.

Lemma table_fact : forall (P : string -> string -> list (access * string) -> bool) C n
                              (ts : list (string * list (string * list (access * string)))),
  (forall C n, P C n [] = true) ->
  forallb (fun t => forallb (fun e => P (fst t) (fst e) (snd e)) (snd t)) ts = true ->
  P C n (match Exec.assoc C ts with
         | Some t => match Exec.assoc n t with Some l => l | None => [] end | None => [] end) = true.
Proof.
  intros P C n ts HP H. induction ts as [|(x, t) ts IH]; [apply HP|]. cbn in H. apply andb_prop in H. destruct H as (H1 & H2).
  cbn. destruct (String.eqb C x) eqn:E; [|exact (IH H2)]. apply String.eqb_eq in E. subst x.
  clear - HP H1. induction t as [|(y, l) t IH]; [apply HP|]. cbn in H1. apply andb_prop in H1. destruct H1 as (G1 & G2).
  cbn. destruct (String.eqb n y) eqn:E; [|exact (IH G2)]. apply String.eqb_eq in E. subst y. exact G1.
Qed.

Definition listed (ns : list string) (n : string) (l : list (access * string)) : bool :=
  match l with [] => true | _ => mem n ns end.
Lemma entries_listed :
  forallb (fun t => forallb (fun e => listed all_names (fst e) (snd e)) (snd t)) tables = true.
Proof. vm_compute. reflexivity. Qed.
Lemma listed_none : forall ns n l, ~ In n ns -> listed ns n l = true -> l = [].
Proof.
  intros ns n [|r l] Hn H; [reflexivity|]. cbn [listed] in H. destruct (Hn (proj1 (mem_in _ _) H)).
Qed.
Lemma entry_none : forall C n, ~ In n all_names -> entry C n = [].
Proof.
  intros C n Hn. apply (listed_none all_names n (entry C n) Hn).
  exact (table_fact (fun _ n l => listed all_names n l) C n tables (fun _ _ => eq_refl) entries_listed).
Qed.

Lemma found_table : forall sp macro C n, In C facade ->
  lookups sp macro 8 C n = expected C (macro or_else_macro) n.
Proof.
  intros sp macro C n HC. apply same_list_eq.
  apply (by_cases (fun macro l n => same_list l (expected C (macro or_else_macro) n))).
  - intros f g l m E. rewrite (E or_else_macro); [reflexivity|now left].
  - destruct HC as [<-|[<-|[]]]; clear; vm_compute; reflexivity.
  - intros Hn. unfold expected. rewrite (entry_none C n Hn).
    destruct (String.eqb n "or_else" && negb (macro or_else_macro)); reflexivity.
Qed.

Lemma facade_in : forall C, C = "optional" \/ C = "TinyOptionalImpl" -> In C facade.
Proof. intros C [->| ->]; [now left|right; now left]. Qed.

Lemma entries_public : forall C n, In C facade -> In n all_names ->
  Bool.eqb (existsb (fun r => is_public (fst r)) (entry C n)) (documentedb true n) = true.
Proof.
  intros C n HC Hn.
  assert (G : forallb (fun C => forallb (fun n => Bool.eqb (existsb (fun r => is_public (fst r)) (entry C n))
               (documentedb true n)) all_names) facade = true) by (vm_compute; reflexivity).
  pose proof (proj1 (forallb_forall _ _) G C HC) as H. cbv beta in H.
  exact (proj1 (forallb_forall _ _) H n Hn).
Qed.
Lemma documented_names : forall b n, documented b n -> In n all_names.
Proof.
  intros b n H. apply mem_in.
  assert (I : In n (std_members ++ ["or_else"] ++ own_members)).
  { destruct H as [E|[(-> & _)|E]]; apply in_or_app; [now left|right; now left|right; now right]. }
  revert I. generalize n.
  apply (proj1 (forallb_forall (fun n => mem n all_names) (std_members ++ ["or_else"] ++ own_members))).
  vm_compute. reflexivity.
Qed.

Theorem C80_members : forall sp macro C n,
  C = "optional" \/ C = "TinyOptionalImpl" ->
  (exists D, found sp macro C n Public D) <-> documented (macro or_else_macro) n.
Proof.
  intros sp macro C n HC. apply facade_in in HC.
  assert (G : existsb (fun r => is_public (fst r)) (lookups sp macro 8 C n) = documentedb (macro or_else_macro) n).
  { rewrite (found_table sp macro C n HC). unfold expected.
    destruct (in_dec string_dec n all_names) as [Hi|Hi].
    - pose proof (entries_public C n HC Hi) as E. apply Bool.eqb_prop in E.
      destruct (String.eqb n "or_else") eqn:EN.
      + apply String.eqb_eq in EN. subst n. destruct (macro or_else_macro); [exact E|reflexivity].
      + cbn [andb]. rewrite E. unfold documentedb. rewrite EN. reflexivity.
    - rewrite (entry_none C n Hi).
      transitivity false; [now destruct (String.eqb n "or_else" && negb (macro or_else_macro))|].
      destruct (documentedb (macro or_else_macro) n) eqn:E; [|reflexivity].
      apply documentedb_iff in E. destruct (Hi (documented_names _ _ E)). }
  rewrite <- documentedb_iff, <- G, existsb_exists. clear. split.
  - intros (D & HD). apply found_iff in HD. exists (Public, D). auto.
  - intros ((a, D) & HD & HP). destruct a; try discriminate. exists D. now apply found_iff.
Qed.

(** What is found is found once: one declaring class, one access. *)
Definition one_check (l : list (access * string)) : bool :=
  match l with
  | [] => true
  | (a, D) :: l' => forallb (fun r => String.eqb (snd r) D && same_access (fst r) a) l'
  end.
Lemma entries_one : forallb (fun t => forallb (fun e => one_check (snd e)) (snd t)) tables = true.
Proof. vm_compute. reflexivity. Qed.
Theorem C80_not_ambiguous : forall sp macro C n a D a' D',
  C = "optional" \/ C = "TinyOptionalImpl" ->
  found sp macro C n a D -> found sp macro C n a' D' -> a = a' /\ D = D'.
Proof.
  intros sp macro C n a D a' D' HC H H'. apply found_iff in H. apply found_iff in H'.
  apply facade_in in HC.
  assert (G : one_check (lookups sp macro 8 C n) = true).
  { rewrite (found_table sp macro C n HC). unfold expected.
    destruct (String.eqb n "or_else" && negb (macro or_else_macro)); [reflexivity|].
    exact (table_fact (fun _ _ l => one_check l) C n tables (fun _ _ => eq_refl) entries_one). }
  unfold one_check in G. destruct (lookups sp macro 8 C n) as [|(b, B) l]; [destruct H|].
  assert (E : forall x X, In (x, X) ((b, B) :: l) -> x = b /\ X = B).
  { intros x X [[= -> ->]|Hx]; [auto|].
    pose proof (proj1 (forallb_forall _ _) G _ Hx) as Q. cbn [fst snd] in Q.
    apply andb_prop in Q. destruct Q as (Q1 & Q2). apply String.eqb_eq in Q1.
    split; [|exact Q1]. destruct x, b; try reflexivity; discriminate Q2. }
  destruct (E _ _ H) as (-> & ->). destruct (E _ _ H') as (-> & ->). auto.
Qed.

(** Everything else that the base classes declare is out of reach: not public as a member,
    and of the base classes only TinyOptionalImpl, which has the same members, can be named
    by converting a pointer or reference. *)
Theorem C80_base_classes : forall sp B, accessible_base sp "optional" B <-> B = "TinyOptionalImpl".
Proof.
  intros sp B. split.
  - assert (G : forall A B, accessible_base sp A B ->
              (A = "optional" -> B = "TinyOptionalImpl") /\ (A <> "TinyOptionalImpl")).
    { clear B. intros A B H. induction H as [C k how B HC Hb Hp|A B C H1 IH1 H2 IH2].
      - rewrite class_named_ext in HC. split.
        + intros ->. vm_compute in HC. injection HC as <-. destruct Hb as [[= <- <-]|[]]. reflexivity.
        + intros ->. vm_compute in HC. injection HC as <-. destruct Hb as [[= <- <-]|[]]. discriminate Hp.
      - destruct IH1 as (I1 & I2). destruct IH2 as (I3 & I4). split; [|exact I2].
        intros E. specialize (I1 E). now destruct I4. }
    intros H. now apply (G "optional" B).
  - intros ->. apply (base_direct sp "optional" k2199_optional "public" "TinyOptionalFromSelection").
    + reflexivity.
    + now left.
    + reflexivity.
Qed.

(** The three functions of the library's flag manipulators, and of the one that users may
    derive from, are public, and nothing else of them. *)
Theorem C80_flag_manipulators : forall sp macro C n,
  In C ["sentinel_flag_manipulator"; "SeparateFlagManipulator"; "MemcpyAndCmpFlagManipulator";
        "AssignmentFlagManipulator"] ->
  (exists D, found sp macro C n Public D) <->
  In n ["is_empty"; "init_empty_flag"; "invalidate_empty_flag"].
Proof.
  intros sp macro C n HC.
  assert (G : Bool.eqb (existsb (fun r => is_public (fst r)) (lookups sp macro 8 C n))
                (mem n ["is_empty"; "init_empty_flag"; "invalidate_empty_flag"]) = true).
  { apply (by_cases (fun _ l n => Bool.eqb (existsb (fun r => is_public (fst r)) l)
                (mem n ["is_empty"; "init_empty_flag"; "invalidate_empty_flag"]))); [reflexivity| |].
    - destruct HC as [<-|[<-|[<-|[<-|[]]]]]; clear; vm_compute; reflexivity.
    - intros Hn. cbn [existsb]. destruct (mem n ["is_empty"; "init_empty_flag"; "invalidate_empty_flag"]) eqn:E; [|reflexivity].
      exfalso. apply Hn. clear - E. apply mem_in in E. apply mem_in.
      destruct E as [<-|[<-|[<-|[]]]]; vm_compute; reflexivity. }
  apply Bool.eqb_prop in G. rewrite <- mem_in, <- G, existsb_exists. clear. split.
  - intros (D & HD). apply found_iff in HD. exists (Public, D). auto.
  - intros ((a, D) & HD & HP). destruct a; try discriminate. exists D. now apply found_iff.
Qed.

(** Optionals can be created and destroyed by everyone; no class has friends; and every
    class but TinyOptionalImpl (which declares its own) inherits the constructors of its
    base class. *)
Theorem C80_constructors : forall k m,
  In k klasses -> In m (k_members k) ->
  m_declared m <> DFriend /\ m_declared m <> DOther /\
  (forall x, m_declared m = DFun x -> nameless k x = true -> m_access m = "public").
Proof.
  assert (G : forallb (fun k => forallb (fun m => match m_declared m with
     | DFriend | DOther => false
     | DFun x => implb (nameless k x) (String.eqb (m_access m) "public")
     | _ => true end) (k_members k)) klasses = true) by (vm_compute; reflexivity).
  intros k m Hk Hm. pose proof (proj1 (forallb_forall _ _) G k Hk) as H. cbv beta in H.
  pose proof (proj1 (forallb_forall _ _) H m Hm) as H1. cbv beta in H1.
  split; [intros E; rewrite E in H1; discriminate|]. split; [intros E; rewrite E in H1; discriminate|].
  intros x E N. rewrite E, N in H1. now apply String.eqb_eq.
Qed.

Theorem C80_inherited_constructors : forall k,
  In k klasses -> k_bases k <> [] -> k_name k <> "TinyOptionalImpl" ->
  exists m, In m (k_members k) /\ m_declared m = DUsing "Base" /\ m_guard m = [].
Proof.
  assert (G : forallb (fun k => match k_bases k with [] => true | _ => String.eqb (k_name k) "TinyOptionalImpl" ||
     existsb (fun m => match m_declared m, m_guard m with DUsing x, [] => String.eqb x "Base" | _, _ => false end)
       (k_members k) end) klasses = true) by (vm_compute; reflexivity).
  intros k Hk Hb Hn. pose proof (proj1 (forallb_forall _ _) G k Hk) as H. cbv beta in H.
  destruct (k_bases k); [now destruct Hb|]. apply orb_prop in H. destruct H as [H|H].
  - apply String.eqb_eq in H. now destruct Hn.
  - apply existsb_exists in H. destruct H as (m & Hm & H). exists m. split; [exact Hm|].
    destruct (m_declared m); try discriminate. destruct (m_guard m); [|discriminate].
    apply String.eqb_eq in H. now subst.
Qed.

(** In every class, [Base] is the base class, with the same template arguments. *)
Theorem C80_base_alias : forall k B,
  In k klasses -> k_base_alias k = Some B -> k_base_texts k = [B].
Proof.
  assert (G : forallb (fun k => match k_base_alias k, k_base_texts k with
     | Some B, [B'] => String.eqb B B' | None, [] => true | _, _ => false end) klasses = true)
    by (vm_compute; reflexivity).
  intros k B Hk HB. pose proof (proj1 (forallb_forall _ _) G k Hk) as H. cbv beta in H. rewrite HB in H.
  destruct (k_base_texts k) as [|B' [|? ?]]; try discriminate. apply String.eqb_eq in H. now subst.
Qed.

(** Every using-declaration names a member of the base class that is accessible there. *)
Theorem C80_using_declarations : forall sp macro C k m n,
  class_named sp C = Some k -> In m (k_members k) -> active macro m = true -> takes m = Some n ->
  exists how B a D, In (how, B) (k_bases k) /\ found sp macro (Exec.unalias 5 B) n a D /\
                    (a = Public \/ a = Protected).
Proof.
  assert (G : forallb (fun bs => forallb (fun ms => forallb (fun k =>
     forallb (fun m => match takes m with
       | Some n => existsb (fun b => existsb (fun r => open (fst r))
            (lookups (pick4 specialised bs) (pick4 macros2 ms) 8 (Exec.unalias 5 (snd b)) n)) (k_bases k)
       | None => true end) (k_members k)) klasses) (bools 2)) (bools 4) = true)
    by (vm_compute; reflexivity).
  intros sp macro C k m n HC Hm _ Ht. destruct (class_named_in _ _ _ HC) as (Hk & _).
  pose proof (proj1 (forallb_forall _ _) G _ (bools_all (map sp specialised))) as H1. cbv beta in H1.
  pose proof (proj1 (forallb_forall _ _) H1 _ (bools_all (map macro macros2))) as H2. cbv beta in H2.
  pose proof (proj1 (forallb_forall _ _) H2 _ Hk) as H3. cbv beta in H3.
  pose proof (proj1 (forallb_forall _ _) H3 _ Hm) as H4. cbv beta in H4. rewrite Ht in H4.
  apply existsb_exists in H4. destruct H4 as ((how, B) & Hb & H4).
  apply existsb_exists in H4. destruct H4 as ((a, D) & H4 & H5). cbn [fst snd] in *.
  exists how, B, a, D. split; [exact Hb|]. split.
  - apply found_iff. rewrite lookups_ext. exact H4.
  - destruct a; auto; discriminate.
Qed.

(** The functions that [Exec] executes (C71) are the ones that this lookup finds. *)
Lemma exec_lookup : forall h C n, exists D, Exec.lookup h C n = Exec.overloads D n.
Proof.
  induction h as [|h IH]; intros C n; cbn [Exec.lookup].
  - exists C. destruct (Exec.overloads C n) eqn:E; now rewrite ?E.
  - destruct (Exec.overloads C n) eqn:E; [|exists C; now rewrite E].
    destruct (Exec.find_class classes C) as [c|]; [|exists C; now rewrite E].
    destruct (Exec.base_of c) as [b|]; [apply IH|exists C; now rewrite E].
Qed.
Definition executed_check (ov : string -> list fundef) (lk : list fundef) (l : list (access * string)) : bool :=
  match lk with
  | f :: _ => forallb (fun r => String.eqb (snd r) (f_class f)) l
  | [] => forallb (fun r => match ov (snd r) with [] => true | _ => false end) l
  end.
Lemma executed_generic : forall (ov : string -> list fundef) (lk : list fundef) l a D,
  (exists D', lk = ov D') -> (forall D f, In f (ov D) -> f_class f = D) ->
  executed_check ov lk l = true -> In (a, D) l -> ov D <> [] -> lk = ov D.
Proof.
  intros ov lk l a D (D' & E) HO HC HI HN. destruct lk as [|f fs]; cbn [executed_check] in HC.
  - pose proof (proj1 (forallb_forall _ _) HC _ HI) as H. cbn [snd] in H.
    destruct (ov D); [now destruct HN|discriminate].
  - pose proof (proj1 (forallb_forall _ _) HC _ HI) as H. cbn [snd] in H. apply String.eqb_eq in H. subst D.
    rewrite (HO D' f) by (rewrite <- E; now left). exact E.
Qed.
Lemma overloads_class_in : forall n D f (src : list fundef),
  In f (filter (fun f => String.eqb (f_class f) D && String.eqb (f_name f) n) src) -> f_class f = D.
Proof.
  intros n D f src H. apply filter_In in H. destruct H as (_ & H).
  apply andb_prop in H. destruct H as (H & _). now apply String.eqb_eq.
Qed.
Lemma overloads_class : forall n D f, In f (Exec.overloads D n) -> f_class f = D.
Proof. exact (fun n D f => overloads_class_in n D f source). Qed.
Lemma executed_entries :
  forallb (fun t => forallb (fun e => executed_check (fun D => Exec.overloads D (fst e)) (Exec.lookup 6 (fst t) (fst e)) (snd e))
    (snd t)) tables = true.
Proof. vm_compute. reflexivity. Qed.
Lemma executed_nothing : forall ov lk, executed_check ov lk [] = true.
Proof. intros ov [|f l]; reflexivity. Qed.
Lemma executed_checked : forall C, In C facade -> forall sp macro n,
  executed_check (fun D => Exec.overloads D n) (Exec.lookup 6 C n) (lookups sp macro 8 C n) = true.
Proof.
  intros C HC sp macro n. rewrite (found_table sp macro C n HC). unfold expected.
  destruct (String.eqb n "or_else" && negb (macro or_else_macro)); [apply executed_nothing|].
  exact (table_fact (fun C n l => executed_check (fun D => Exec.overloads D n) (Exec.lookup 6 C n) l) C n tables
           (fun C n => executed_nothing _ _) executed_entries).
Qed.
Theorem C80_executed : forall sp macro C n a D,
  C = "optional" \/ C = "TinyOptionalImpl" ->
  found sp macro C n a D -> Exec.overloads D n <> [] -> Exec.lookup 6 C n = Exec.overloads D n.
Proof.
  intros sp macro C n a D HC H HO. apply found_iff in H.
  exact (executed_generic (fun D => Exec.overloads D n) (Exec.lookup 6 C n) _ a D (exec_lookup 6 C n)
           (overloads_class n) (executed_checked C (facade_in C HC) sp macro n) H HO).
Qed.

(** ** The names in the functions *)

(** The name at the start of a type. *)
Fixpoint type_head (t : string) : string :=
  match t with
  | EmptyString => ""
  | String c t' =>
      if mem (String c "") [" "; "<"; "&"; "*"] then "" else String c (type_head t')
  end.
Definition unqualify (x : string) : string :=
  let x := match after "tiny::" x with Some y => y | None => x end in
  match after "impl::" x with Some y => y | None => x end.

(** The class that a type of a parameter or variable names: a class of the header, or what
    it is an alias of in class [C]; also std::optional. *)
Definition class_of_type (C t : string) : option string :=
  let h := unqualify (type_head t) in
  if mem h (map k_name klasses) || String.eqb h "std::optional" then Some h else
  match primary C with
  | Some k =>
      match find (fun m => is_name (match m_declared m with DType x _ => Some x | _ => None end) h) (k_members k) with
      | Some (Member _ (DType _ t') _) => if mem (type_head t') (map k_name klasses) then Some (type_head t') else None
      | _ => None
      end
  | None => None
  end.

(** Local names and their types. *)
Definition scope : Type := list (string * string).

(** The class of the object of a member access in a function of class [C]. *)
Definition object (C : string) (l : scope) (e : expr) : option string :=
  match e with
  | EThis | EUn "*" EThis => Some C
  | EName x =>
      match Exec.assoc x l with
      | Some t => class_of_type C t
      | None =>
          match primary C with
          | Some k =>
              match find (fun m => is_name (match m_declared m with DData y _ => Some y | _ => None end) x) (k_members k) with
              | Some (Member _ (DData _ t) _) => class_of_type C t
              | _ => None
              end
          | None => None
          end
      end
  | ECast _ t _ => class_of_type C t
  | _ => None
  end.

(** The names that an expression uses: a name, or a member of an object ([e.*x] is a name). *)
Inductive use : Type :=
| UName (l : scope) (x : string)
| UMember (K : option string) (x : string).

Fixpoint uses (C : string) (l : scope) (e : expr) {struct e} : list use :=
  match e with
  | EThis | EBool _ | ENum _ | EStr => []
  | EName x => [UName l x]
  | EMember a x =>
      (match after "*" x with Some y => UName l y | None => UMember (object C l a) x end) :: uses C l a
  | ECall f es => uses C l f ++ flat_map (uses C l) es
  | EBrace t es => UName l t :: flat_map (uses C l) es
  | EUn _ a | ECast _ _ a | EDtor a _ | EThrow a | EPack a | ENoexcept a | ESizeof a => uses C l a
  | EBin _ a b => uses C l a ++ uses C l b
  | ECond a b c => uses C l a ++ uses C l b ++ uses C l c
  | ENew a _ es => uses C l a ++ flat_map (uses C l) es
  end.

(** Statements in order; declarations are in scope until the end of the block. *)
Fixpoint uses_stmt (C : string) (l : scope) (s : stmt) {struct s} : list use :=
  let block := fix block (l : scope) (ss : list stmt) {struct ss} : list use :=
    match ss with
    | [] => []
    | s :: ss' =>
        (uses_stmt C l s ++
         block (match s with SDecl t x _ | SUsing x t => (x, t) :: l | _ => l end) ss')%list
    end in
  match s with
  | SExpr e | SReturn (Some e) | SStaticAssert e => uses C l e
  | SReturn None => []
  | SIf _ c a b => (uses C l c ++ block l a ++ block l b)%list
  | SDecl t x es => UName l (type_head t) :: flat_map (uses C l) es
  | SUsing _ _ => []
  end.
Fixpoint uses_block (C : string) (l : scope) (ss : list stmt) : list use :=
  match ss with
  | [] => []
  | s :: ss' =>
      (uses_stmt C l s ++
       uses_block C (match s with SDecl t x _ | SUsing x t => (x, t) :: l | _ => l end) ss')%list
  end.

Definition params_of (f : fundef) : scope := map (fun p => (p_name p, p_type p)) (f_params f).
Definition uses_of (f : fundef) : list use :=
  let l := params_of f in
  (match f_noexcept f with Some e => uses (f_class f) l e | None => [] end ++
   flat_map (fun i => UName [] (fst i) :: flat_map (uses (f_class f) l) (snd i)) (f_inits f) ++
   match f_body f with Body b => uses_block (f_class f) l b | _ => [] end)%list.

(** What a name may refer to in a function of class [C].  Template arguments are left out.
    An unqualified name is local, a template parameter or a member that the class itself
    declares (or names in a using-declaration), or it is declared at namespace scope; base
    classes depend on template parameters and are not searched.  A name of the library is
    qualified with std::, the name of the base class, or that of a template parameter with
    flag functions or storage functions. *)
Definition decompositions (macro : string -> bool) : list string :=
  ["DecompositionForSeparateFlag"; "InplaceStoredTypeDecomposition"] ++
  (if macro member_macro then [] else ["InplaceDecompositionViaMemPtr"]).

Definition local (l : scope) (x : string) : Prop := exists t, In (x, t) l.

Inductive names (sp macro : string -> bool) (C : string) : scope -> string -> Prop :=
| name_local l x : local l x -> names sp macro C l x
| name_builtin l x : x = "assert" \/ x = "bool" -> names sp macro C l x
| name_std l x y : after "std::" x = Some y -> names sp macro C l x
| name_namespace l x : In (match after "::tiny::" x with Some y => y | None => x end) namespace_names ->
    names sp macro C l x
| name_param l x k : class_named sp C = Some k -> In x (k_params k) -> names sp macro C l x
| name_class l x k : class_named sp C = Some k -> x = k_name k -> names sp macro C l x
| name_member l x k m : class_named sp C = Some k -> In m (k_members k) -> active macro m = true ->
    declares k m = Some x \/ takes m = Some x -> names sp macro C l x
| name_base l x y k how B a D : after "Base::" x = Some y -> class_named sp C = Some k ->
    In (how, B) (k_bases k) -> found sp macro (Exec.unalias 5 B) y a D -> a = Public \/ a = Protected ->
    names sp macro C l x
| name_flag l x y : after "FlagManipulator::" x = Some y ->
    In y ["is_empty"; "init_empty_flag"; "invalidate_empty_flag"] -> names sp macro C l x
| name_storage l x y : after "StoredTypeDecomposition::" x = Some y ->
    (forall K, In K (decompositions macro) -> exists D, found sp macro K y Public D) -> names sp macro C l x.

(** A use in a function of class [C] is in order: the name is found, and accessible there. *)
Definition resolves (sp macro : string -> bool) (C : string) (u : use) : Prop :=
  match u with
  | UName l x => names sp macro C l (type_head x)
  | UMember (Some K) x =>
      (K = "std::optional" /\ In x ("or_else" :: std_members)) \/
      exists a D, found sp macro K x a D /\ (a = Public \/ (C = K /\ a <> Hidden))
  | UMember None _ => False
  end.

Definition is_some (o : option string) : bool := match o with Some _ => true | None => false end.
Definition namesb (sp macro : string -> bool) (C : string) (x : string) : bool :=
  mem x ["assert"; "bool"] || is_some (after "std::" x) ||
  mem (match after "::tiny::" x with Some y => y | None => x end) namespace_names ||
  match class_named sp C with
  | Some k =>
      mem x (k_params k) || String.eqb x (k_name k) ||
      existsb (fun m => active macro m && (is_name (declares k m) x || is_name (takes m) x)) (k_members k) ||
      match after "Base::" x with
      | Some y => existsb (fun b => existsb (fun r => open (fst r)) (lookups sp macro 8 (Exec.unalias 5 (snd b)) y)) (k_bases k)
      | None => false
      end
  | None => false
  end ||
  match after "FlagManipulator::" x with
  | Some y => mem y ["is_empty"; "init_empty_flag"; "invalidate_empty_flag"]
  | None => false
  end ||
  match after "StoredTypeDecomposition::" x with
  | Some y => forallb (fun K => existsb (fun r => is_public (fst r)) (lookups sp macro 8 K y)) (decompositions macro)
  | None => false
  end.
Definition memberb (sp macro : string -> bool) (C K x : string) : bool :=
  (String.eqb K "std::optional" && mem x ("or_else" :: std_members)) ||
  existsb (fun r => is_public (fst r) || (String.eqb C K && match fst r with Hidden => false | _ => true end))
    (lookups sp macro 8 K x).

Lemma names_sound : forall sp macro C l x, namesb sp macro C x = true -> names sp macro C l x.
Proof.
  intros sp macro C l x H. unfold namesb in H.
  apply orb_prop in H. destruct H as [H|H].
  2:{ destruct (after "StoredTypeDecomposition::" x) as [y|] eqn:E; [|discriminate].
      apply (name_storage _ _ _ _ _ y E). intros K HK.
      pose proof (proj1 (forallb_forall _ _) H K HK) as H1. apply existsb_exists in H1.
      destruct H1 as ((a, D) & H1 & H2). exists D. apply found_iff. destruct a; try discriminate. exact H1. }
  apply orb_prop in H. destruct H as [H|H].
  2:{ destruct (after "FlagManipulator::" x) as [y|] eqn:E; [|discriminate].
      apply (name_flag _ _ _ _ _ y E). now apply mem_in. }
  apply orb_prop in H. destruct H as [H|H].
  2:{ destruct (class_named sp C) as [k|] eqn:E; [|discriminate].
      apply orb_prop in H. destruct H as [H|H].
      - apply orb_prop in H. destruct H as [H|H].
        + apply orb_prop in H. destruct H as [H|H].
          * apply (name_param _ _ _ _ _ k E). now apply mem_in.
          * apply (name_class _ _ _ _ _ k E). now apply String.eqb_eq.
        + apply existsb_exists in H. destruct H as (m & Hm & H). apply andb_prop in H. destruct H as (Ha & H).
          apply (name_member _ _ _ _ _ k m E Hm Ha).
          apply orb_prop in H. destruct H as [H|H]; apply is_name_iff in H; auto.
      - destruct (after "Base::" x) as [y|] eqn:Ey; [|discriminate].
        apply existsb_exists in H. destruct H as ((how, B) & Hb & H).
        apply existsb_exists in H. destruct H as ((a, D) & H & Ho).
        apply (name_base _ _ _ _ _ y k how B a D Ey E Hb).
        + apply found_iff. exact H.
        + destruct a; auto; discriminate. }
  apply orb_prop in H. destruct H as [H|H].
  2:{ apply name_namespace. now apply mem_in. }
  apply orb_prop in H. destruct H as [H|H].
  - apply name_builtin. apply mem_in in H. destruct H as [<-|[<-|[]]]; auto.
  - destruct (after "std::" x) as [y|] eqn:E; [|discriminate]. now apply (name_std _ _ _ _ _ y).
Qed.

(** Only the four specialisations and the two macros matter. *)
Lemma found_ext : forall sp macro C n a D,
  found (pick4 specialised (map sp specialised)) (pick4 macros2 (map macro macros2)) C n a D ->
  found sp macro C n a D.
Proof.
  intros sp macro C n a D H. apply found_iff. rewrite lookups_ext. now apply found_iff.
Qed.
Lemma names_ext : forall sp macro C l x,
  names (pick4 specialised (map sp specialised)) (pick4 macros2 (map macro macros2)) C l x ->
  names sp macro C l x.
Proof.
  intros sp macro C l x H. destruct H.
  - now apply name_local.
  - now apply name_builtin.
  - eapply name_std; eauto.
  - now apply name_namespace.
  - rewrite <- class_named_ext in H. eapply name_param; eauto.
  - rewrite <- class_named_ext in H. eapply name_class; eauto.
  - rewrite <- class_named_ext in H. destruct (class_named_in _ _ _ H) as (Hk & _).
    rewrite <- (active_ext macro k m Hk H0) in H1. eapply name_member; eauto.
  - rewrite <- class_named_ext in H0. eapply name_base; [eassumption|eassumption|eassumption| |eassumption]. apply found_ext. eassumption.
  - eapply name_flag; eauto.
  - eapply name_storage; eauto. intros K HK. destruct (H0 K) as (D & HD).
    + unfold decompositions in *. rewrite pick4_map; [exact HK|]. right. now left.
    + exists D. now apply found_ext.
Qed.
Lemma member_sound : forall sp macro C K x,
  memberb (pick4 specialised (map sp specialised)) (pick4 macros2 (map macro macros2)) C K x = true ->
  resolves sp macro C (UMember (Some K) x).
Proof.
  intros sp macro C K x H. unfold memberb in H. apply orb_prop in H. destruct H as [H|H].
  - left. apply andb_prop in H. destruct H as (H1 & H2). apply String.eqb_eq in H1. apply mem_in in H2. auto.
  - right. apply existsb_exists in H. destruct H as ((a, D) & H & H1). exists a, D. split.
    + apply found_ext. now apply found_iff.
    + cbn [fst] in H1. apply orb_prop in H1. destruct H1 as [H1|H1]; [destruct a; auto; discriminate|].
      apply andb_prop in H1. destruct H1 as (H1 & H2). apply String.eqb_eq in H1.
      right. split; [exact H1|]. intros ->. discriminate.
Qed.

(** What has to be looked up, without repetitions: class, the class of the object for
    members, name. *)
Definition need : Type := string * (option (option string) * string).
Definition needed (C : string) (u : use) : list need :=
  match u with
  | UName l x => if existsb (fun p => String.eqb (fst p) (type_head x)) l then [] else [(C, (None, type_head x))]
  | UMember K x => [(C, (Some K, x))]
  end.
Definition need_dec : forall x y : need, {x = y} + {x <> y}.
Proof. repeat (decide equality; try apply string_dec). Defined.
Definition all_needed (fs : list fundef) : list need :=
  nodup need_dec (flat_map (fun f => flat_map (needed (f_class f)) (uses_of f)) fs).
Definition needed_ok (sp macro : string -> bool) (t : need) : bool :=
  match t with
  | (C, (None, x)) => namesb sp macro C x
  | (C, (Some (Some K), x)) => memberb sp macro C K x
  | (_, (Some None, _)) => false
  end.
Definition text_needs : list need :=
  Eval vm_compute in all_needed (source ++ specials).
Lemma needs_ok :
  forallb (fun bs => forallb (fun ms => forallb (needed_ok (pick4 specialised bs) (pick4 macros2 ms)) text_needs)
    (bools 2)) (bools 4) = true.
Proof. vm_compute. reflexivity. Qed.
Lemma needs_are : text_needs = all_needed (source ++ specials).
Proof. vm_compute. reflexivity. Qed.

Lemma in_text_needs : forall f u t, In f (source ++ specials) -> In u (uses_of f) ->
  In t (needed (f_class f) u) -> In t text_needs.
Proof.
  rewrite needs_are. generalize (source ++ specials)%list. intros fs f u t Hf Hu Ht.
  apply nodup_In. apply in_flat_map. exists f. split; [exact Hf|].
  apply in_flat_map. exists u. split; [exact Hu|exact Ht].
Qed.

(** Every name in every function of the header (bodies, member initialisers, noexcept
    specifications) is found where it is used, and members are accessible there. *)
Theorem C80_names : forall sp macro f u,
  In f (source ++ specials) -> In u (uses_of f) -> resolves sp macro (f_class f) u.
Proof.
  intros sp macro f u Hf Hu. pose proof (in_text_needs f u) as HN. specialize (fun t => HN t Hf Hu).
  revert HN. generalize (f_class f). clear Hf Hu f. intros C HN.
  assert (G : forall t, In t (needed C u) ->
     needed_ok (pick4 specialised (map sp specialised)) (pick4 macros2 (map macro macros2)) t = true).
  { intros t Ht. apply HN in Ht.
    pose proof (proj1 (forallb_forall _ _) needs_ok _ (bools_all (map sp specialised))) as H1. cbv beta in H1.
    pose proof (proj1 (forallb_forall _ _) H1 _ (bools_all (map macro macros2))) as H2. cbv beta in H2.
    exact (proj1 (forallb_forall _ _) H2 _ Ht). }
  clear HN. destruct u as [l x|[K|] x]; cbn [needed resolves] in *.
  - destruct (existsb (fun p => String.eqb (fst p) (type_head x)) l) eqn:E.
    + apply existsb_exists in E. destruct E as ((y, t) & Hy & E). apply String.eqb_eq in E. cbn in E. subst y.
      apply name_local. exists t. exact Hy.
    + apply names_ext, names_sound. exact (G _ (or_introl eq_refl)).
  - exact (member_sound _ _ _ _ _ (G _ (or_introl eq_refl))).
  - discriminate (G _ (or_introl eq_refl)).
Qed.

(** The other classes (traits, the default flag manipulators, std::hash): everything in them
    is public, there are no friends, and no function but the call operator of std::hash, so
    they are also default constructible and copyable. *)
Theorem C80_other_classes : forall k, In k other_klasses ->
  (forall m, In m (k_members k) ->
     m_access m = "public" /\ m_declared m <> DFriend /\
     forall x, m_declared m = DFun x -> k_name k = "hash" /\ x = "operator()") /\
  (forall a b, In (a, b) (k_bases k) -> a = "public").
Proof.
  assert (H : forallb (fun k =>
    forallb (fun m => String.eqb (m_access m) "public" &&
      match m_declared m with
      | DFriend => false | DFun x => String.eqb (k_name k) "hash" && String.eqb x "operator()"
      | _ => true end) (k_members k) &&
    forallb (fun b => String.eqb (fst b) "public") (k_bases k)) other_klasses = true) by (vm_compute; reflexivity).
  intros k Hk. pose proof (proj1 (forallb_forall _ _) H k Hk) as K. clear - K. apply andb_prop in K.
  destruct K as (K1 & K2). split.
  - intros m Hm. pose proof (proj1 (forallb_forall _ _) K1 m Hm) as M. clear - M. apply andb_prop in M. destruct M as (M1 & M2).
    split; [now apply String.eqb_eq|]. split; [now destruct (m_declared m)|]. intros x E. rewrite E in M2.
    apply andb_prop in M2. destruct M2. split; now apply String.eqb_eq.
  - intros a b Hb. pose proof (proj1 (forallb_forall _ _) K2 _ Hb) as B. now apply String.eqb_eq in B.
Qed.

(** The cases at hand: the value of an optional is found in its base class and public, the
    functions that manage the flag are not accessible, with the macro there is or_else, the
    call of [reset] in [swap] (optional.h:1675-1711) is one of the uses. *)
Example C80_example : forall sp macro,
  found sp macro "optional" "value" Public "TinyOptionalImpl" /\
  found sp macro "optional" "has_value" Public "StorageBase" /\
  found sp macro "optional" "GetPayload" Hidden "StorageBase" /\
  found sp macro "optional" "DestroyPayload" Hidden "StorageBase" /\
  found sp macro "optional" "operator=" Public "optional" /\
  (macro or_else_macro = true -> found sp macro "optional" "or_else" Public "optional") /\
  (exists f l, In f source /\ f_class f = "TinyOptionalImpl" /\ f_name f = "swap" /\
               In (UName l "reset") (uses_of f) /\ In (UMember (Some "TinyOptionalImpl") "reset") (uses_of f)) /\
  Exec.overloads "TinyOptionalImpl" "value" <> [].
Proof.
  intros sp macro.
  assert (G : forall n a D,
    forallb (fun bs => forallb (fun ms => implb (pick4 macros2 ms or_else_macro || negb (String.eqb n "or_else"))
       (existsb (fun r => match fst r, a with Public, Public | Hidden, Hidden => true | _, _ => false end && String.eqb (snd r) D)
         (lookups (pick4 specialised bs) (pick4 macros2 ms) 8 "optional" n)))
       (bools 2)) (bools 4) = true ->
    (macro or_else_macro = true \/ n <> "or_else") -> found sp macro "optional" n a D).
  { intros n a D H HM. apply found_iff. rewrite lookups_ext.
    pose proof (proj1 (forallb_forall _ _) H _ (bools_all (map sp specialised))) as H1. cbv beta in H1.
    pose proof (proj1 (forallb_forall _ _) H1 _ (bools_all (map macro macros2))) as H2. cbv beta in H2. clear H H1.
    revert H2. rewrite pick4_map by (now left).
    replace (macro or_else_macro || negb (String.eqb n "or_else")) with true.
    2:{ destruct HM as [->|N]; [reflexivity|]. apply String.eqb_neq in N. rewrite N. now destruct (macro or_else_macro). }
    cbn [implb]. intros H2. apply existsb_exists in H2. destruct H2 as ((a', D') & H2 & H3).
    apply andb_prop in H3. destruct H3 as (H3 & H4). apply String.eqb_eq in H4. cbn [fst snd] in *. subst D'.
    destruct a', a; try discriminate H3; exact H2. }
  repeat split.
  - apply G; [vm_compute; reflexivity|right; discriminate].
  - apply G; [vm_compute; reflexivity|right; discriminate].
  - apply G; [vm_compute; reflexivity|right; discriminate].
  - apply G; [vm_compute; reflexivity|right; discriminate].
  - apply G; [vm_compute; reflexivity|right; discriminate].
  - intros M. apply G; [vm_compute; reflexivity|now left].
  - clear. exists f1656_swap, [("thisHasValue", "bool const"); ("other", "TinyOptionalImpl&")].
    split; [|split; [reflexivity|split; [reflexivity|]]].
    + unfold source. repeat (try (left; reflexivity); right).
    + vm_compute. tauto.
  - vm_compute. discriminate.
Qed.

Print Assumptions C80_members.
Print Assumptions C80_names.
