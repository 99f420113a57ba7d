(** * Whole: from the template arguments to the behaviour

    The theorems about histories hold for every environment of lawful optional types.  This
    file closes the gap to the source code: whatever template arguments a program writes,
    under every name that the library offers, the selected strategy is lawful; hence the
    theorems hold for every program that compiles (C01, C02), and the flag lies where the
    template arguments say (C40). *)

From Coq Require Import List NArith ZArith Bool Arith Lia.
From Verif Require Import Cells CellsFacts Machine Optional Program Spec Laws Refine Contract.
From Verif Require Import Bits Manip IntRange Select Selection Sample Histories Defaults ExampleTac.
Import ListNotations.

(** The names under which a program can get an optional with payload type [P]
    (optional.h:2152-2155, 2195-2203, 2317-2318, 2365-2385), with constants that are values
    of their types; a manipulator that the user writes has to be lawful, and a floating point
    sentinel must not be NaN (C39). *)
Inductive named (U : universe) (cf : config) (P : cvty) (d : decomp) (f : manip) : Prop :=
| named_optional a b :
    targ_ok U a -> targ_ok U b -> no_nan U (used_sentinel a b) ->
    optional_type U cf P a b = Chosen d f -> named U cf P d f
| named_via_type S m :
    targ_ok U S -> targ_ok U m -> no_nan U S ->
    optional_sentinel_via_type U cf P S m = Chosen d f -> named U cf P d f
| named_inplace g :
    manip_ok (dec_inplace (size_of U (base P))) g ->
    optional_inplace_type U P g = Chosen d f -> named U cf P d f
| named_aip : optional_aip_default U cf P = Chosen d f -> named U cf P d f
| named_aip_sentinel a :
    targ_ok U a -> no_nan U a -> is_member_object_pointer a = false ->
    optional_aip U cf P a = Chosen d f -> named U cf P d f.

Lemma via_type_lawful U cf P S m d f :
  universe_ok U -> targ_ok U S -> targ_ok U m -> no_nan U S ->
  optional_sentinel_via_type U cf P S m = Chosen d f ->
  decomp_ok d /\ manip_ok d f.
Proof.
  intros HU HS Hm Hn H. unfold optional_sentinel_via_type in H.
  destruct (select_decomposition U cf P S m) as [r|d' f'] eqn:Hs; [discriminate|].
  destruct (valid_payload U P); [|discriminate]. injection H as -> ->.
  pose proof (uo_align U HU (base P)) as Hal.
  unfold select_decomposition in Hs.
  destruct (C32_never_ambiguous U cf P S m) as [(s & Hf)|(Hf & _)]; rewrite Hf in Hs; [|discriminate].
  assert (Hin : matches U cf P S m s = true).
  { assert (I : In s (filter (matches U cf P S m) specs)) by (rewrite Hf; left; reflexivity).
    apply filter_In in I. apply I. }
  assert (Sep : decomp_ok (separate U P) /\ manip_ok (separate U P) man_separate)
    by (split; [apply dec_separate_ok, Hal|apply man_separate_ok]).
  assert (Use : forall D t, decomp_ok D -> d_sep D = false -> d_fsize D = size_of U (base t) ->
                use_manipulator U cf D t = Chosen d f -> decomp_ok d /\ manip_ok d f).
  { intros D t HD Hsep Hsz HH. unfold use_manipulator in HH.
    destruct (flag_manipulator U cf t) as [g|] eqn:Hg; [|discriminate]. injection HH as <- <-.
    split; [exact HD|]. eapply flag_manipulator_lawful; eauto. }
  assert (Sen : forall D t, decomp_ok D -> d_sep D = false -> d_fsize D = size_of U (base t) ->
                with_sentinel U D t S = Chosen d f -> decomp_ok d /\ manip_ok d f).
  { intros D t HD Hsep Hsz HH. unfold with_sentinel in HH. destruct S as [|v]; [discriminate|].
    destruct (assignment_manip U (base t) v) as [g|] eqn:Hg; [|discriminate]. injection HH as <- <-.
    split; [exact HD|]. eapply sentinel_lawful; eauto. }
  assert (Mem : forall k, if_member P m (if cf_mem cf then via_mem_ptr U P m k
                                         else Chosen (separate U P) man_separate) = Chosen d f ->
                (forall c t off, m = AVal (VMemObj c t (Some off)) -> P = plain c ->
                   k (dec_member (size_of U (base P)) off (size_of U (base t))) t = Chosen d f ->
                   decomp_ok d /\ manip_ok d f) -> decomp_ok d /\ manip_ok d f).
  { intros k HH Hk. unfold if_member in HH. destruct (mem_class m) as [c|] eqn:Hc; [|discriminate].
    destruct (cvty_eqb P (plain c)) eqn:He; [|discriminate]. apply cvty_eqb_eq in He.
    destruct (cf_mem cf); [|injection HH as <- <-; exact Sep].
    unfold via_mem_ptr in HH. destruct m as [|[| | | | | | | | |c' t [off|]|]]; try discriminate.
    cbn in Hc. injection Hc as ->. exact (Hk _ _ _ eq_refl He HH). }
  destruct s; cbn [body] in Hs.
  - injection Hs as <- <-. exact Sep.
  - eapply Use; [apply dec_inplace_ok| | |exact Hs]; reflexivity.
  - eapply Sen; [apply dec_inplace_ok| | |exact Hs]; reflexivity.
  - eapply Sen; [apply dec_inplace_ok| | |exact Hs]; reflexivity.
  - apply (Mem _ Hs). intros c t off -> -> HH.
    refine (Use _ t _ _ _ HH); [apply dec_member_ok; exact Hm|reflexivity|reflexivity].
  - destruct (cf_mem cf) eqn:Hcm; [discriminate|].
    unfold if_member in Hs. destruct (mem_class m); [|discriminate].
    destruct (cvty_eqb _ _); [|discriminate]. injection Hs as <- <-. exact Sep.
  - apply (Mem _ Hs). intros c t off -> -> HH.
    refine (Sen _ t _ _ _ HH); [apply dec_member_ok; exact Hm|reflexivity|reflexivity].
  - apply (Mem _ Hs). intros c t off -> -> HH.
    refine (Sen _ t _ _ _ HH); [apply dec_member_ok; exact Hm|reflexivity|reflexivity].
Qed.

Lemma named_lawful U cf P d f :
  universe_ok U -> named U cf P d f -> decomp_ok d /\ manip_ok d f.
Proof.
  intros HU H. destruct H as [a b Ha Hb Hn H|S m HS Hm Hn H|g Hg H|H|a Ha Hn Hp H].
  - exact (selected_lawful _ _ _ _ _ _ _ HU Ha Hb Hn H).
  - exact (via_type_lawful _ _ _ _ _ _ _ HU HS Hm Hn H).
  - unfold optional_inplace_type in H. destruct (valid_payload U P); [|discriminate].
    injection H as <- <-. split; [apply dec_inplace_ok|exact Hg].
  - unfold optional_aip_default in H. destruct (has_custom U cf P).
    + eapply (selected_lawful U cf P ADefault ADefault); eauto; exact I.
    + destruct (swallowing_default U (base P)) as [v|] eqn:Hv; [|discriminate].
      eapply (selected_lawful U cf P (AVal v) ADefault); eauto; try exact I.
      * destruct (uo_short U HU) as (S1 & S2). destruct (uo_intt U HU) as (I1 & I2).
        destruct (uo_long U HU) as (n & L1 & L2). destruct (uo_llong U HU) as (LL1 & LL2).
        assert (R : forall k, in_range (u_int U k) (it_min (u_int U k)) /\
                              in_range (u_int U k) (it_max (u_int U k)))
          by (intros k; apply range_ends, (uo_int U HU)).
        unfold swallowing_default in Hv. destruct (base P) as [|k| | | | | | | | | |]; try discriminate;
          destruct k; try discriminate; injection Hv as <-; cbn [targ_ok const_ok]; try apply R;
          rewrite ?S1, ?S2, ?I1; vm_compute; split; discriminate.
      * unfold swallowing_default in Hv. destruct (base P) as [|k| | | | | | | | | |]; try discriminate;
          destruct k; try discriminate; injection Hv as <-; reflexivity.
  - eapply (selected_lawful U cf P a ADefault); eauto; try exact I.
    unfold used_sentinel. rewrite Hp. exact Hn.
Qed.

(** A program: its optional types are named with the library's templates, under one
    configuration; its payload types are arbitrary. *)
Definition program_types {W} (U : universe) (cf : config) (E : env W) : Prop :=
  forall n, (exists P, named U cf P (ot_dec (e_tys E n)) (ot_man (e_tys E n))) /\
            payops_ok (ot_ops (e_tys E n)).

Lemma program_lawful W U cf (E : env W) : universe_ok U -> program_types U cf E -> env_ok E.
Proof.
  intros HU H n. destruct (H n) as ((P & HN) & HO).
  destruct (named_lawful _ _ _ _ _ HU HN) as (A & B). split; assumption.
Qed.

(** C01 for everything that compiles: *)
Theorem C01_every_instantiation :
  forall W U cf (E : env W) w p xs t,
    universe_ok U -> program_types U cf E -> Forall op_ok p -> std_run E w p = (Some xs, t) ->
    exists s,
      run E p (init_state w) = (inl xs, s) /\ world s = sworld t /\
      forall i,
        match objs t i with
        | Some (SOpt o) => peek E i s = Some o
        | Some (SVar v) => load_payload E i s = (Ok v, s)
        | None => mem s i = None
        end.
Proof.
  intros W U cf E w p xs t HU HP Ho H.
  exact (C01_history_refines_std W E w p xs t (program_lawful W U cf E HU HP) Ho H).
Qed.

(** C02 for everything that compiles: *)
Theorem C02_every_instantiation :
  forall W U cf (E : env W) i s,
    universe_ok U -> program_types U cf E -> uninitialized E i s ->
    exists s', storage_default E i s = (Ok tt, s') /\ has_value E i s' = (Ok false, s').
Proof.
  intros W U cf E i s HU HP (c & Hm & Hl).
  exact (C02_default_empty_on_any_memory W E i s c (program_lawful W U cf E HU HP) Hm Hl).
Qed.

(** Where the flag lies: in the member that the pointer names; in the whole payload; or
    right behind the payload, in a bool of its own. *)
Theorem C40_flag_is_where_the_arguments_say :
  forall U cf P a b d f,
    universe_ok U -> targ_ok U a -> optional_type U cf P a b = Chosen d f ->
    if d_sep d
    then d_foff d = size_of U (base P) /\ d_fsize d = 1 /\ d_foff d + 1 <= d_ssize d
    else d_ssize d = size_of U (base P) /\
         match a with
         | AVal (VMemObj c t (Some off)) =>
             P = plain c /\ d_foff d = off /\ d_fsize d = size_of U (base t) /\
             off + size_of U (base t) <= size_of U (base P)
         | _ => d_foff d = 0 /\ d_fsize d = size_of U (base P)
         end.
Proof.
  intros U cf P a b d f HU Ha H. apply C32_selection_as_documented in H as (_ & H).
  pose proof (uo_align U HU (base P)) as Hal.
  assert (Hr : size_of U (base P) + 1 <= round_up (size_of U (base P) + 1) (u_align U (base P)))
    by (apply round_up_ge, Hal).
  destruct H as [b Hf|b g Hf|v b g Hv Hf|c t off g Hm HP Hf|c t off v g Hm HP Hf|c t off b Hm HP];
    cbn; auto.
  - split; [reflexivity|]. destruct v as [| | | | | | | | |c t [off|]|]; try discriminate; auto.
  - subst P. auto.
  - subst P. auto.
Qed.

(** A program with several optional types: *)
Definition whole_env (dbg : bool) : env sworld_t :=
  MkEnv _ (fun n =>
    match n with
    | 0 => MkOptTy _ (dec_inplace 8) man_double t_ops
    | 1 => MkOptTy _ (dec_member 16 8 4) (man_int (MkIty 4 true) 5) p_ops
    | 2 => MkOptTy _ (dec_inplace 4) (man_int (MkIty 4 true) (-2147483648)) t_ops
    | _ => MkOptTy _ (dec_separate 4 8) man_separate t_ops
    end) (fun i => i / 10) dbg.
Example C01_instantiation_example dbg :
  program_types sample_universe default_config (whole_env dbg) /\
  uninitialized (whole_env dbg) 10
    (MkState (fun _ => Some (MkRegion (repeat (Byte 7) 16) false false)) quiet []).
Proof.
  split.
  - intros [|[|[|n]]]; (split; [|first [apply t_ops_ok|apply p_ops_ok]]).
    + exists (plain UDouble). apply (named_optional _ _ _ _ _ ADefault ADefault); try exact I. reflexivity.
    + exists (plain (UClass 0)).
      apply (named_via_type _ _ _ _ _ (AVal (VInt KInt 5)) (AVal member_i)); try reflexivity.
      * vm_compute. split; discriminate.
      * cbn. lia.
    + exists (plain (UInt KInt)). apply named_aip. reflexivity.
    + exists (plain (UInt KUInt)). apply (named_optional _ _ _ _ _ ADefault ADefault); try exact I. reflexivity.
  - eexists. split; reflexivity.
Qed.
