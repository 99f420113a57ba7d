(** * Sizes: the class that the templates of the header choose, laid out as the header
    declares its members (C75 and C82 together) *)

From Coq Require Import String List Bool Arith Lia.
From Verif Require Import Cells Machine Manip Select Selection Whole.
From Verif Require Import TemplateSyntax Instantiate SelectionText SelectionProof.
From Verif Require Layout.
Import ListNotations.
Local Open Scope string_scope.

(** Where the flag of tiny::optional<P, a, b> is, by the documentation. *)
Definition strategy_of (U : universe) (cf : config) (P : cvty) (a : targ) : Layout.strategy :=
  match a with
  | ADefault => if has_custom U cf P then Layout.InPlace else Layout.Separate
  | AVal (VMemObj _ _ _) => if cf_mem cf then Layout.InMember else Layout.Separate
  | AVal _ => Layout.InPlace
  end.

(** If the templates of the header accept tiny::optional<P, a, b>, then its layout as
    computed from the data members in the header has the size that the memory of the model
    has, is_compressed of the header says whether that is the size of the payload, and both
    are so exactly in the documented cases. *)
Theorem C82_selected :
  forall U cf traits P a b d f p c,
    universe_ok U -> targ_ok U a -> targ_ok U b ->
    Nat.divide (u_align U (base P)) (size_of U (base P)) ->
    Layout.no_member_flags p = negb (cf_mem cf) ->
    optional_text U cf traits P a b = Good (d, f) ->
    let st := strategy_of U cf P a in
    let s := size_of U (base P) in
    let al := u_align U (base P) in
    exists l,
      Layout.layout_of p st s al (Layout.optional_of (Layout.TPayload c)) = Some l /\
      Layout.l_size l = d_ssize d /\ Layout.l_align l = al /\
      (Layout.l_size l = s <-> st <> Layout.Separate) /\
      Layout.constant p st s al
        (Layout.TInst "StorageBase" [Layout.decomposition st (Layout.TPayload c); Layout.TOther])
        "is_compressed" = Some (is_compressed d).
Proof.
  intros U cf traits P a b d f p c HU Ha Hb (k & Hk) Hp H st s al.
  rewrite C75_optional_text in H by assumption.
  destruct (optional_type U cf P a b) as [e|d' f'] eqn:E; [discriminate|]. injection H as -> ->.
  destruct (C33_sizeof _ _ _ _ _ _ _ HU E) as (P1 & _ & S1 & S2).
  pose proof (C33_in_place_iff _ _ _ _ _ _ _ E) as I.
  pose proof (uo_align U HU (base P)) as A. fold al in A. assert (A' : al <> 0) by lia.
  assert (PO : Layout.possible p st).
  { unfold Layout.possible, st, strategy_of. rewrite Hp. destruct a as [|[]]; try destruct (has_custom _ _ _); try discriminate.
    destruct (cf_mem cf); [reflexivity|discriminate]. }
  assert (ST : d_sep d = false <-> st <> Layout.Separate).
  { rewrite I. unfold st, strategy_of. destruct a as [|[]]; try (split; intros; [discriminate|exact Logic.I]).
    - destruct (has_custom _ _ _); split; intros; try reflexivity; try discriminate; try congruence.
    - destruct (cf_mem cf); split; intros; try reflexivity; try discriminate; try congruence. }
  fold s al in Hk, S1, S2, P1.
  destruct (Layout.C82_layout p st c k al A' PO) as (L & _). rewrite <- Hk in L.
  pose proof (Layout.C82_is_compressed p st c k al A' PO) as C. rewrite <- Hk in C.
  exists (Layout.expected st c s al). split; [exact L|].
  assert (Z : (st = Layout.Separate /\ d_sep d = true /\ d_ssize d = s + al) \/
              (st <> Layout.Separate /\ d_sep d = false /\ d_ssize d = s)).
  { destruct (d_sep d) eqn:D.
    - left. assert (st = Layout.Separate) as X.
      { destruct st; [reflexivity| |]; exfalso;
          assert (true = false) by (apply ST; discriminate); discriminate. }
      split; [exact X|]. split; [reflexivity|]. destruct (S2 eq_refl) as ((q & Hq) & G & M).
      assert (K : k < q) by (apply (Nat.mul_lt_mono_pos_r al); [exact A|rewrite <- Hk, <- Hq; lia]).
      apply Nat.le_antisymm; [|rewrite Hq, Hk; change (S k <= q) in K; apply (Nat.mul_le_mono_r _ _ al) in K; cbn in K; lia].
      apply M; [exists (S k); rewrite Hk; lia|lia].
    - right. split; [now apply ST|]. split; [reflexivity|]. apply S1. reflexivity. }
  unfold is_compressed. rewrite P1, C.
  destruct Z as [(-> & _ & ->)|(N & _ & ->)].
  - cbn. replace (Nat.eqb (s + al) s) with false by (symmetry; apply Nat.eqb_neq; lia).
    repeat split; try reflexivity; try (intros; lia). intros X. now destruct X.
  - rewrite Nat.eqb_refl. destruct st; [now destruct N| |]; repeat split; auto; discriminate.
Qed.

(** The cases at hand: double has room for the flag, a class of 16 bytes has not, unless a
    member is named. *)
Example C82_selected_example :
  let U := sample_universe in
  let cf := default_config in
  let text := optional_text U cf all_traits in
  universe_ok U /\
  Nat.divide (u_align U UDouble) (size_of U UDouble) /\
  text (plain UDouble) ADefault ADefault = Good (dec_inplace 8, man_double) /\
  strategy_of U cf (plain UDouble) ADefault = Layout.InPlace /\
  Nat.divide (u_align U (UClass 0)) (size_of U (UClass 0)) /\
  text (plain (UClass 0)) ADefault ADefault = Good (dec_separate 16 8, man_separate) /\
  strategy_of U cf (plain (UClass 0)) ADefault = Layout.Separate /\
  d_ssize (dec_separate 16 8) = 24 /\
  text (plain (UClass 0)) (AVal member_d) ADefault = Good (dec_member 16 0 8, man_double) /\
  strategy_of U cf (plain (UClass 0)) (AVal member_d) = Layout.InMember.
Proof.
  cbv zeta. split; [exact sample_universe_ok|].
  assert (OK : forall P a b r, targ_ok sample_universe a -> targ_ok sample_universe b ->
    to_res (optional_type sample_universe default_config P a b) = r ->
    optional_text sample_universe default_config all_traits P a b = r).
  { intros P a b r Ha Hb <-. apply C75_optional_text; [exact sample_universe_ok|exact Ha|exact Hb]. }
  split; [exists 1; reflexivity|].
  split; [apply OK; [exact I|exact I|reflexivity]|]. split; [reflexivity|].
  split; [exists 2; reflexivity|].
  split; [apply OK; [exact I|exact I|reflexivity]|]. split; [reflexivity|]. split; [reflexivity|].
  split; [apply OK; [vm_compute; repeat constructor|exact I|reflexivity]|]. reflexivity.
Qed.

Print Assumptions C82_selected.
