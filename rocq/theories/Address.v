(** * Address: where the header takes addresses

    std::optional never applies the unary operator & to a payload, which may overload
    it, but uses std::addressof.  Here: every use of the operator in the text of
    optional.h, and what follows for payload and flag types that overload it. *)

From Coq Require Import Ascii String List NArith ZArith Bool Arith Lia.
From Verif Require Import Cells Machine Optional Program Laws Bits Manip.
From Verif Require Import Syntax Source Exec Texts TextRuns Flags.
Import ListNotations.
Local Open Scope string_scope.

(** The operands of unary & in an expression, statement, function. *)
Fixpoint taken (e : expr) : list expr :=
  let all := fix all (l : list expr) : list expr :=
               match l with [] => [] | a :: l' => (taken a ++ all l')%list end in
  match e with
  | EThis | EName _ | EBool _ | ENum _ | EStr => []
  | EMember a _ | ECast _ _ a | EDtor a _ | EThrow a | EPack a | ENoexcept a | ESizeof a => taken a
  | ECall f args => (taken f ++ all args)%list
  | EBrace _ args => all args
  | EUn o a => if String.eqb o "&" then a :: taken a else taken a
  | EBin _ a b => (taken a ++ taken b)%list
  | ECond c a b => (taken c ++ taken a ++ taken b)%list
  | ENew a _ args => (taken a ++ all args)%list
  end.
Fixpoint taken_in (t : stmt) : list expr :=
  let all := fix all (l : list stmt) : list expr :=
               match l with [] => [] | a :: l' => (taken_in a ++ all l')%list end in
  match t with
  | SExpr e | SStaticAssert e | SReturn (Some e) => taken e
  | SReturn None | SUsing _ _ => []
  | SIf _ c a b => (taken c ++ all a ++ all b)%list
  | SDecl _ _ args => flat_map taken args
  end.
Definition taken_by (f : fundef) : list expr :=
  (match f_noexcept f with Some e => taken e | None => [] end
   ++ flat_map (fun p => flat_map taken (snd p)) (f_inits f)
   ++ match f_body f with Body l => flat_map taken_in l | _ => [] end)%list.

(** The sentinels of MemcpyAndCmpFlagManipulator are integers (optional.h:419-507). *)
Definition sentinel_of_memcpy (f : fundef) (e : expr) : bool :=
  String.eqb (f_class f) "MemcpyAndCmpFlagManipulator" &&
  match e with EName x => String.eqb x "valueToIndicateEmpty" | _ => false end.

(** Only two functions of the header apply & to something that can be of the user's
    class: sentinel_flag_manipulator::init_empty_flag (optional.h:240), and
    AssignmentFlagManipulator::init_empty_flag in the unevaluated operand of a
    static_assert (optional.h:837). *)
Theorem C73_where_addresses_are_taken :
  forall f e, In f source -> In e (taken_by f) -> sentinel_of_memcpy f e = false ->
    (f = f238_init_empty_flag /\ e = EName "uninitializedPayloadMemory") \/
    (f = f832_init_empty_flag /\ e = EName "uninitializedIsEmptyFlagMemory").
Proof.
  assert (C : flat_map (fun f => map (fun e => (f, e)) (filter (fun e => negb (sentinel_of_memcpy f e)) (taken_by f)))
                       source
              = [(f238_init_empty_flag, EName "uninitializedPayloadMemory");
                 (f832_init_empty_flag, EName "uninitializedIsEmptyFlagMemory")])
    by (vm_compute; reflexivity).
  intros f e Hf He Hn.
  assert (I : In (f, e) (flat_map (fun f => map (fun e => (f, e))
                (filter (fun e => negb (sentinel_of_memcpy f e)) (taken_by f))) source)).
  { apply in_flat_map. exists f. split; [exact Hf|]. apply in_map. apply filter_In.
    split; [exact He|]. rewrite Hn. reflexivity. }
  rewrite C in I. destruct I as [I|[I|[]]]; injection I as <- <-; auto.
Qed.

(** With the library's own strategies for sentinels and unused bits an overloaded & makes
    no difference, in every state of the memory. *)
Definition overloads_address (T : targs) (b : bool) : targs :=
  MkTargs (ta_psize T) (ta_align T) (ta_moff T) (ta_msize T) (ta_sent T) (ta_new T) (ta_eq T) b.

Theorem C73_library_strategies :
  forall T d m f r,
    fitting T d m -> m <> MSentinel ->
    In f ["is_empty"; "init_empty_flag"; "invalidate_empty_flag"] ->
    text_of (overloads_address T true) d m f r = text_of (overloads_address T false) d m f r.
Proof.
  intros T d m f r Hf Hm Hin. destruct T as [ps al mo ms se ne eq am].
  unfold overloads_address. cbn [ta_psize ta_align ta_moff ta_msize ta_sent ta_new ta_eq].
  destruct Hin as [<-|[<-|[<-|[]]]]; destruct d, m; try contradiction; try discriminate;
    flag_case; reflexivity.
Qed.

(** With sentinel_flag_manipulator it does: init_empty_flag has no defined effect, so that
    no such optional can become empty, although the same flag type works with
    AssignmentFlagManipulator. *)
Theorem C73_sentinel_flag_manipulator_refuted :
  exists T d,
    fitting T d MAssignment /\ ta_amp T = true /\
    (exists r', text_of T d MAssignment "init_empty_flag" (MkRegion (indets 4) false false) = inl (FVoid, r')) /\
    forall r, text_of T d MSentinel "init_empty_flag" r = inr IllTyped.
Proof.
  exists (overloads_address int_args true), DInplace. split; [reflexivity|]. split; [reflexivity|].
  split; [eexists; vm_compute; reflexivity|]. intros r. vm_compute. reflexivity.
Qed.

(** Without an overload it does the same as AssignmentFlagManipulator. *)
Theorem C73_sentinel_flag_manipulator_builtin :
  forall T d f r,
    ta_amp T = false -> d <> DSeparate ->
    In f ["is_empty"; "init_empty_flag"; "invalidate_empty_flag"] ->
    text_of T d MSentinel f r = text_of T d MAssignment f r.
Proof.
  intros T d f r Ha Hd Hin.
  destruct Hin as [<-|[<-|[<-|[]]]]; destruct d; try contradiction;
    flag_case; rewrite ?Ha; reflexivity.
Qed.

Example C73_example :
  length source = 170 /\ In f238_init_empty_flag source /\
  fitting (overloads_address double_args true) DInplace MMemcpy /\
  text_of (overloads_address double_args true) DInplace MMemcpy "init_empty_flag" (MkRegion (indets 8) false false) =
    inl (FVoid, MkRegion (map Byte (bytes_le 8 sent_double)) true false).
Proof.
  split; [reflexivity|]. split; [right; left; reflexivity|]. split; [|vm_compute; reflexivity].
  split; [eexists; reflexivity|cbn; lia].
Qed.

Print Assumptions C73_where_addresses_are_taken.
Print Assumptions C73_library_strategies.
Print Assumptions C73_sentinel_flag_manipulator_refuted.
Print Assumptions C73_sentinel_flag_manipulator_builtin.
