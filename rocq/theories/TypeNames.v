(** * TypeNames: the types and template parameters in the functions of the header

    The functions, template heads and classes are the text of optional.h ([Source.v],
    [Heads.v], [Members.v]); lookup as in [Interface.v].  Types are kept as text there; here
    the identifiers in them are looked up, and which template parameters can be deduced from
    the arguments of a call is determined ([temp.param], [temp.deduct.call]). *)

From Coq Require Import String List Bool Ascii Arith Lia.
From Verif Require Import Syntax Source Members Heads Interface.
From Verif Require Exec.
Import ListNotations.
Local Open Scope string_scope.

(** ** Identifiers in a text *)

Definition is_id_char (c : ascii) : bool :=
  let n := nat_of_ascii c in
  (Nat.leb 48 n && Nat.leb n 57) || (Nat.leb 65 n && Nat.leb n 90) ||
  (Nat.leb 97 n && Nat.leb n 122) || Nat.eqb n 95.
Definition is_digit (c : ascii) : bool :=
  let n := nat_of_ascii c in Nat.leb 48 n && Nat.leb n 57.

(** The identifiers of a text, each with whether it follows [::].  [cur]: the one being
    read, [q]: whether it follows [::], [colon]: whether the last character is a colon. *)
Fixpoint scan (s : string) (cur : string) (q colon : bool) : list (bool * string) :=
  match s with
  | EmptyString => match cur with EmptyString => [] | _ => [(q, cur)] end
  | String c s' =>
      if is_id_char c
      then scan s' (cur ++ String c "") (match cur with EmptyString => colon | _ => q end) false
      else (match cur with EmptyString => [] | _ => [(q, cur)] end ++ scan s' "" false (Ascii.eqb c ":"))%list
  end.
(** [::template x]: x follows [::] as well. *)
Fixpoint after_template (l : list (bool * string)) : list (bool * string) :=
  match l with
  | (true, "template") :: (_, x) :: l' => (true, x) :: after_template l'
  | p :: l' => p :: after_template l'
  | [] => []
  end.
Definition identifiers (s : string) : list (bool * string) := after_template (scan s "" false false).

(** Those that are looked up where they are used: not after [::], no number, no keyword, no
    namespace. *)
Definition reserved : list string :=
  ["const"; "volatile"; "typename"; "template"; "bool"; "void"; "auto"; "decltype"; "int"; "true";
   "false"; "operator"; "std"; "tiny"; "impl"].
Definition looked_up (s : string) : list string :=
  map snd (filter (fun p => negb (fst p) && negb (mem (snd p) reserved) &&
    match snd p with String c _ => negb (is_digit c) | _ => true end) (identifiers s)).

(** ** The texts of a function *)

Fixpoint types (e : expr) : list string :=
  match e with
  | EThis | EBool _ | ENum _ | EStr => []
  | EName x => [x]
  | EMember a _ => types a
  | ECall f es => types f ++ flat_map types es
  | EBrace t es => t :: flat_map types es
  | EUn _ a | EThrow a | EPack a | ENoexcept a | ESizeof a => types a
  | ECast _ t a | EDtor a t => t :: types a
  | EBin _ a b => types a ++ types b
  | ECond a b c => types a ++ types b ++ types c
  | ENew a t es => t :: types a ++ flat_map types es
  end.

(** With the local names in scope. *)
Fixpoint stmt_types (l : list string) (s : stmt) {struct s} : list (list string * string) :=
  let block := fix block (l : list string) (ss : list stmt) {struct ss} : list (list string * string) :=
    match ss with
    | [] => []
    | s :: ss' => (stmt_types l s ++ block (match s with SDecl _ x _ | SUsing x _ => x :: l | _ => l end) ss')%list
    end in
  match s with
  | SExpr e | SReturn (Some e) | SStaticAssert e => map (pair l) (types e)
  | SReturn None => []
  | SIf _ c a b => (map (pair l) (types c) ++ block l a ++ block l b)%list
  | SDecl t _ es => map (pair l) (t :: flat_map types es)
  | SUsing _ t => [(l, t)]
  end.
Fixpoint block_types (l : list string) (ss : list stmt) : list (list string * string) :=
  match ss with
  | [] => []
  | s :: ss' => (stmt_types l s ++ block_types (match s with SDecl _ x _ | SUsing x _ => x :: l | _ => l end) ss')%list
  end.

Definition template_params (h : head) : list string := map (fun p => fst (fst (fst p))) (h_params h).
Definition opt_list (o : option string) : list string := match o with Some x => [x] | None => [] end.
Definition ret_text (r : retty) : list string :=
  match r with RNone => [] | RRef _ _ t | RValue t => [t] end.

Definition texts_of (h : head) : list (list string * string) :=
  let f := h_fun h in
  let ps := map p_name (f_params f) in
  (map (pair []) (map p_type (f_params f) ++ ret_text (f_ret f) ++
                  flat_map (fun p => opt_list (snd (fst p)) ++ opt_list (snd p)) (h_params h) ++
                  flat_map types (h_enable h) ++ flat_map types (h_requires h)) ++
   map (pair ps) (match f_noexcept f with Some e => types e | None => [] end ++
                  flat_map (fun i => flat_map types (snd i)) (f_inits f)) ++
   match f_body f with Body b => block_types ps b | _ => [] end)%list.

(** The identifiers of a function that have to be found, with the names in scope. *)
Definition idents (h : head) : list (list string * string) :=
  flat_map (fun t => map (pair (template_params h ++ fst t)%list) (looked_up (snd t))) (texts_of h).


(** A class that is declared in another one. *)
Definition enclosing (C : string) : list string :=
  map k_name (filter (fun k => existsb (fun m => match m_declared m with
    | DType x t => String.eqb x C && String.eqb t "" | _ => false end) (k_members k)) klasses).

(** An identifier in a function of class [C] is found: a template parameter, a local name, or
    as in [Interface.v] in the class, in the class around it or at namespace scope. *)
Definition declared_name (sp macro : string -> bool) (C : string) (l : list string) (x : string) : Prop :=
  In x l \/ names sp macro C [] x \/ (exists E, In E (enclosing C) /\ names sp macro E [] x).

(** ** What has to be found *)

Definition string2_dec : forall x y : string * string, {x = y} + {x <> y}.
Proof. decide equality; apply string_dec. Defined.
Definition wanted (hs : list head) : list (string * string) :=
  nodup string2_dec (flat_map (fun h =>
    if String.eqb (f_class (h_fun h)) "hash" then [] else
    flat_map (fun i => if mem (snd i) (fst i) then [] else [(f_class (h_fun h), snd i)]) (idents h)) hs).
Definition text_wants : list (string * string) := Eval vm_compute in wanted heads.
Lemma wants_are : text_wants = wanted heads.
Proof. vm_compute. reflexivity. Qed.
Lemma in_wanted : forall hs h l x, In h hs -> f_class (h_fun h) <> "hash" -> In (l, x) (idents h) ->
  In x l \/ In (f_class (h_fun h), x) (wanted hs).
Proof.
  intros hs h l x Hh HC Hi. destruct (mem x l) eqn:E; [left; now apply mem_in|right].
  apply nodup_In. apply in_flat_map. exists h. split; [exact Hh|].
  apply String.eqb_neq in HC. rewrite HC. apply in_flat_map. exists (l, x). split; [exact Hi|].
  cbn [fst snd]. rewrite E. now left.
Qed.

Definition want_ok (sp macro : string -> bool) (w : string * string) : bool :=
  sp (fst w) || (macro member_macro && String.eqb (fst w) "InplaceDecompositionViaMemPtr") ||
  namesb sp macro (fst w) (snd w) ||
  existsb (fun E => namesb sp macro E (snd w)) (enclosing (fst w)).
Lemma wants_ok :
  forallb (fun bs => forallb (fun ms => forallb (want_ok (pick4 specialised bs) (pick4 macros2 ms)) text_wants)
    (bools 2)) (bools 4) = true.
Proof. vm_compute. reflexivity. Qed.
Theorem C81_types : forall sp macro h l x,
  In h heads -> f_class (h_fun h) <> "hash" ->
  sp (f_class (h_fun h)) = false ->
  (macro member_macro = true -> f_class (h_fun h) <> "InplaceDecompositionViaMemPtr") ->
  In (l, x) (idents h) -> declared_name sp macro (f_class (h_fun h)) l x.
Proof.
  intros sp macro h l x Hh HC HS HM Hi.
  assert (HW : In x l \/ In (f_class (h_fun h), x) text_wants).
  { rewrite wants_are. exact (in_wanted heads h l x Hh HC Hi). }
  revert HS HM HW. generalize (f_class (h_fun h)). clear h Hh HC Hi. intros C HS HM [H|H]; [now left|].
  pose proof (proj1 (forallb_forall _ _) wants_ok _ (bools_all (map sp specialised))) as H1. cbv beta in H1.
  pose proof (proj1 (forallb_forall _ _) H1 _ (bools_all (map macro macros2))) as H2. cbv beta in H2.
  pose proof (proj1 (forallb_forall _ _) H2 _ H) as H3. clear H1 H2 H. unfold want_ok in H3. cbn [fst snd] in H3.
  apply orb_prop in H3. destruct H3 as [H3|H3].
  2:{ right. right. apply existsb_exists in H3. destruct H3 as (E & HE & H3). exists E. split; [exact HE|].
      now apply names_ext, names_sound. }
  apply orb_prop in H3. destruct H3 as [H3|H3].
  2:{ right. left. now apply names_ext, names_sound. }
  apply orb_prop in H3. destruct H3 as [H3|H3].
  - exfalso. destruct (in_dec string_dec C specialised) as [I|I].
    + rewrite pick4_map in H3 by exact I. congruence.
    + assert (Z : forall l (f : string -> bool), ~ In C l -> pick4 l (map f l) C = false).
      { clear. intros l f. unfold pick4. induction l as [|y l IH]; [reflexivity|]. intros N. cbn.
        destruct (String.eqb C y) eqn:E; [apply String.eqb_eq in E; subst; destruct N; now left|].
        apply IH. intros X. apply N. now right. }
      rewrite (Z _ _ I) in H3. discriminate.
  - exfalso. apply andb_prop in H3. destruct H3 as (H3 & H4). rewrite pick4_map in H3 by (right; now left).
    apply String.eqb_eq in H4. now apply HM.
Qed.

(** The template parameters of a function are distinct, and none hides one of its class. *)
Definition class_params (C : string) : list string :=
  match primary C with Some k => k_params k | None => [] end.
Fixpoint distinct (l : list string) : bool :=
  match l with [] => true | x :: l' => negb (mem x l') && distinct l' end.
Lemma distinct_nodup : forall l, distinct l = true -> NoDup l.
Proof.
  induction l as [|x l IH]; intros H; [constructor|]. cbn in H. apply andb_prop in H. destruct H as (H1 & H2).
  constructor; [|exact (IH H2)]. intros X. apply mem_in in X. rewrite X in H1. discriminate.
Qed.
Lemma heads_distinct :
  forallb (fun h => distinct (template_params h ++ class_params (f_class (h_fun h)))) heads = true.
Proof. vm_compute. reflexivity. Qed.
Theorem C81_template_parameters : forall h,
  In h heads -> NoDup (template_params h ++ class_params (f_class (h_fun h)))%list.
Proof.
  intros h Hh. apply distinct_nodup. exact (proj1 (forallb_forall _ _) heads_distinct h Hh).
Qed.

(** A template parameter is deduced from a function parameter of type [t]: it is named there,
    and not as part of another type's name. *)
Definition deduced (x t : string) : Prop :=
  In x (looked_up t) /\ ~ In "typename" (map snd (identifiers t)) /\ ~ In "decltype" (map snd (identifiers t)).
Definition deducedb (x t : string) : bool :=
  mem x (looked_up t) && negb (mem "typename" (map snd (identifiers t))) && negb (mem "decltype" (map snd (identifiers t))).
Lemma deducedb_sound : forall x t, deducedb x t = true -> deduced x t.
Proof.
  intros x t H. unfold deducedb in H. apply andb_prop in H. destruct H as (H & H2). apply andb_prop in H. destruct H as (H & H1).
  split; [now apply mem_in|]. split; intros X; apply mem_in in X; rewrite X in *; discriminate.
Qed.
Lemma heads_deduced :
  forallb (fun h => forallb (fun p =>
     match snd (fst p) with Some _ => true | None => false end ||
     existsb (fun q => deducedb (fst (fst (fst p))) (p_type q)) (f_params (h_fun h)) ||
     (String.eqb (f_name (h_fun h)) "make_optional" && String.eqb (fst (fst (fst p))) "PayloadType"))
     (h_params h)) heads = true.
Proof. vm_compute. reflexivity. Qed.

(** Every template parameter of a function has a default argument or is deduced from the
    arguments; but the payload type of the versions of make_optional that take the arguments
    of a constructor. *)
Theorem C81_deduced : forall h x pack d c,
  In h heads -> In (x, pack, d, c) (h_params h) ->
  d <> None \/ (exists p, In p (f_params (h_fun h)) /\ deduced x (p_type p)) \/
  (f_name (h_fun h) = "make_optional" /\ x = "PayloadType").
Proof.
  intros h x pack d c Hh Hp.
  pose proof (proj1 (forallb_forall _ _) heads_deduced h Hh) as H. cbv beta in H.
  pose proof (proj1 (forallb_forall _ _) H _ Hp) as H1. cbn [fst snd] in H1. clear - H1.
  apply orb_prop in H1. destruct H1 as [H1|H1].
  - apply orb_prop in H1. destruct H1 as [H1|H1].
    + left. destruct d; [discriminate|discriminate].
    + right. left. apply existsb_exists in H1. destruct H1 as (p & Hp & H1). exists p. split; [exact Hp|].
      now apply deducedb_sound.
  - right. right. apply andb_prop in H1. destruct H1 as (H1 & H2). split; now apply String.eqb_eq.
Qed.

(** The cases at hand: the parameter of value_or is a template parameter that is deduced, and
    the payload type in its body is found in the class. *)
Example C81_example :
  In h1633_value_or heads /\
  In ("U", false, None, None) (h_params h1633_value_or) /\
  In (["U"], "U") (idents h1633_value_or) /\
  In (["U"; "defaultValue"], "PayloadType") (idents h1633_value_or) /\
  deduced "U" "U&&" /\
  identifiers "std::enable_if_t<Base::template EnableConvertingAssignment<optional,U>::value,int>" =
    [(false, "std"); (true, "enable_if_t"); (false, "Base"); (true, "EnableConvertingAssignment");
     (false, "optional"); (false, "U"); (true, "value"); (false, "int")].
Proof.
  split; [unfold heads; repeat (try (left; reflexivity); right)|].
  split; [vm_compute; tauto|]. split; [vm_compute; tauto|]. split; [vm_compute; tauto|].
  split; [|reflexivity].
  apply deducedb_sound. reflexivity.
Qed.

Print Assumptions C81_types.
Print Assumptions C81_deduced.
