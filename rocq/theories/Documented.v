(** * Documented: the flag manipulators of the documentation (C65)

    README 313-398 (IndexPair), 475-482 (a flag in a part of the payload), 507-530
    (enumerations), 559-638 (an iterator with private members), 640-658 (a static constexpr
    sentinel): the user code of these chapters at the level of bytes, and what the library makes
    of it.  The layouts are those of the platforms that the library supports: members in the
    order of their declaration, at aligned offsets. *)

From Coq Require Import List NArith ZArith Bool Arith Lia.
From Verif Require Import Cells CellsFacts Machine Optional Program Spec Laws Refine.
From Verif Require Import Bits Manip IntRange Select Selection Contract Sample Histories ExampleTac.
From Verif Require Import Sentinels Scalars.
Import ListNotations.

Local Arguments put : simpl never.
Local Arguments sub : simpl never.
Local Arguments word : simpl never.

(** ** The user code *)

(** Reading a member of the integral type [t] at offset [off]; None: it is indeterminate. *)
Definition int_member (t : ity) (off : nat) (c : rep) : option Z :=
  option_map (value_of t) (unword (sub off (it_bytes t) c)).

(** IndexPair (README 336-353) with indices of the type [t] (int in the README). *)
Definition index_pair (t : ity) (x y : Z) : rep := int_rep t x ++ int_rep t y.

(** Its specialization of optional_flag_manipulator (README 356-392).  is_empty: the second
    index is not read if the first one is not negative (&&).  The default constructor, called
    with parentheses (376), makes both indices zero before SetIndices(-1, -1). *)
Definition man_index_pair (t : ity) : manip :=
  MkManip
    (fun c => match int_member t 0 c with
              | Some x => if (x <? 0)%Z
                          then option_map (fun y => (y <? 0)%Z) (int_member t (it_bytes t) c)
                          else Some false
              | None => None
              end)
    (fun _ => index_pair t (-1) (-1))
    (fun c => indets (length c)).

(** README 477-478: only the memory of mIndex2 is used for the flag, the other member is
    neither initialized nor read. *)
Definition man_index2 (t : ity) : manip :=
  MkManip
    (fun c => option_map (fun y => (y <? 0)%Z) (int_member t (it_bytes t) c))
    (fun c => put (it_bytes t) (int_rep t (-1)) c)
    (fun c => put (it_bytes t) (indets (it_bytes t)) c).

(** The flag manipulator for Iterator (README 599-622).  [off]: offset of mIsValid (0 for the
    class as shown); [dflt]: what the default constructor makes, where mIsValid is false, and
    paddings may be anything. *)
Definition man_iterator (off : nat) (dflt : rep) : manip :=
  MkManip
    (fun c => match sub off 1 c with
              | [Byte 0%N] => Some true
              | [Byte 1%N] => Some false
              | _ => None
              end)
    (fun _ => dflt)
    (fun c => indets (length c)).
(** The class as shown: bool, 7 bytes padding, std::size_t. *)
Definition iterator_rep (valid : bool) (padding : rep) (index : N) : rep :=
  bool_rep valid ++ padding ++ word 8 index.

(** std::chrono::microseconds (README 645-654): a count of 64 bit; operator== compares the
    counts.  The constant is converted to the flag type and compared (optional.h:807-811,
    818-830). *)
Definition chrono_count : ity := MkIty 8 true.
Definition chrono_conv (z : Z) : rep * (rep -> option bool) :=
  (int_rep chrono_count z, int_eqv chrono_count z).

(** ** Auxiliary facts *)

Lemma sub_app_left (a b : rep) : sub 0 (length a) (a ++ b) = a.
Proof. unfold sub. cbn [skipn]. rewrite firstn_app, firstn_all, Nat.sub_diag. cbn. apply app_nil_r. Qed.
Lemma sub_app_right (a b : rep) : sub (length a) (length b) (a ++ b) = b.
Proof.
  unfold sub. rewrite skipn_app, skipn_all, Nat.sub_diag. cbn [skipn app]. apply firstn_all.
Qed.
Lemma length_int_rep t z : length (int_rep t z) = it_bytes t.
Proof. unfold int_rep. apply length_word. Qed.
Lemma unword_int t z :
  0 < it_bytes t -> in_range t z -> option_map (value_of t) (unword (int_rep t z)) = Some z.
Proof.
  intros H R. unfold int_rep. rewrite unword_word by apply pattern_lt. cbn.
  rewrite value_pattern by assumption. reflexivity.
Qed.
Lemma member1 t x y :
  0 < it_bytes t -> in_range t x -> int_member t 0 (index_pair t x y) = Some x.
Proof.
  intros H R. unfold int_member, index_pair.
  rewrite <- (length_int_rep t x) at 1. rewrite sub_app_left. apply unword_int; assumption.
Qed.
Lemma member2 t x y :
  0 < it_bytes t -> in_range t y -> int_member t (it_bytes t) (index_pair t x y) = Some y.
Proof.
  intros H R. unfold int_member, index_pair.
  pose proof (sub_app_right (int_rep t x) (int_rep t y)) as K. rewrite !length_int_rep in K.
  rewrite K. apply unword_int; assumption.
Qed.
Lemma minus_one t : 0 < it_bytes t -> it_signed t = true -> in_range t (-1).
Proof.
  intros H S. unfold in_range, it_min, it_max. rewrite S.
  destruct (modulus_even _ H) as (h & -> & Hh).
  replace (Z.of_N (2 * h)) with (Z.of_N h * 2)%Z by lia. rewrite Z.div_mul by lia. lia.
Qed.
Lemma length_pair t x y : length (index_pair t x y) = 2 * it_bytes t.
Proof. unfold index_pair. rewrite app_length, !length_int_rep. lia. Qed.

(** Integral promotion does not change values. *)
Lemma conv_promote t z : 0 < it_bytes t -> in_range t z -> conv (promote t) z = z.
Proof.
  intros Hb Hz. unfold conv, promote. destruct (Nat.ltb_spec (it_bytes t) 4) as [L|L].
  - apply value_pattern; [cbn; lia|]. unfold in_range, it_min, it_max in *.
    destruct t as [n s]. cbn [it_bytes it_signed int_type] in *.
    change (Z.of_N (modulus 4)) with 4294967296%Z.
    assert (n = 1 \/ n = 2 \/ n = 3) as [->|[->| ->]] by lia;
      [change (Z.of_N (modulus 1)) with 256%Z in Hz|change (Z.of_N (modulus 2)) with 65536%Z in Hz|
       change (Z.of_N (modulus 3)) with 16777216%Z in Hz]; destruct s; cbn in Hz |- *; lia.
  - apply value_pattern; assumption.
Qed.

Lemma custom_chosen U cf P g b d f :
  flag_manipulator U cf P = Some g -> documented U cf P ADefault b d f ->
  d = dec_inplace (size_of U (base P)) /\ f = g.
Proof. intros F H. inversion H; subst; [congruence|]. split; congruence. Qed.
Lemma sentinel_chosen U cf P v b d f :
  is_member_object_pointer (AVal v) = false -> documented U cf P (AVal v) b d f ->
  d = dec_inplace (size_of U (base P)) /\ sentinel_for U (base P) v f.
Proof. intros F H. inversion H; subst; try discriminate F. split; [reflexivity|assumption]. Qed.

Lemma inplace_engages W (E : env W) i v n :
  env_ok E -> dec E i = dec_inplace n -> length v = n -> m_is_empty (man E i) v = Some false ->
  engages E i v.
Proof.
  intros HE Hd L H. apply storable_engages; [exact HE|]. unfold storable, storable_in, flag_cells.
  rewrite Hd. cbn. rewrite <- L, sub_full, H, Nat.eqb_refl. reflexivity.
Qed.
Lemma inplace_swallows W (E : env W) i v n :
  env_ok E -> dec E i = dec_inplace n -> length v = n -> m_is_empty (man E i) v = Some true ->
  swallows E i v.
Proof.
  intros HE Hd L H. apply looks_empty_swallows; [exact HE|]. unfold looks_empty, flag_cells.
  rewrite Hd. cbn. rewrite <- L, sub_full. auto.
Qed.

(** ** The manipulators keep the rules *)

Lemma man_index_pair_ok D t :
  0 < it_bytes t -> it_signed t = true -> d_sep D = false -> d_fsize D = 2 * it_bytes t ->
  manip_ok D (man_index_pair t).
Proof.
  intros Hb S Sep L. pose proof (minus_one t Hb S) as R.
  split; cbn [man_index_pair m_init m_inval m_is_empty]; intros c Hc.
  - rewrite length_pair. congruence.
  - rewrite length_indets. congruence.
  - rewrite member1, member2 by assumption. reflexivity.
  - congruence.
Qed.
Lemma man_index2_ok D t :
  0 < it_bytes t -> it_signed t = true -> d_sep D = false -> d_fsize D = 2 * it_bytes t ->
  manip_ok D (man_index2 t).
Proof.
  intros Hb S Sep L. pose proof (minus_one t Hb S) as R.
  split; cbn [man_index2 m_init m_inval m_is_empty]; intros c Hc.
  - rewrite length_put; [lia|]. rewrite length_int_rep. lia.
  - rewrite length_put; [lia|]. rewrite length_indets. lia.
  - unfold int_member. rewrite sub_put_same' by (rewrite ?length_int_rep; lia).
    rewrite unword_int by assumption. reflexivity.
  - congruence.
Qed.
Lemma man_iterator_ok D off dflt :
  d_sep D = false -> length dflt = d_fsize D -> sub off 1 dflt = bool_rep false ->
  manip_ok D (man_iterator off dflt).
Proof.
  intros Sep L H. split; cbn [man_iterator m_init m_inval m_is_empty]; intros c Hc.
  - exact L.
  - rewrite length_indets. exact Hc.
  - rewrite H. reflexivity.
  - congruence.
Qed.

(** ** C65 *)

(** The optional [i] is of the type that the library makes. *)
Definition made {W} (E : env W) (i : loc) (o : outcome) : Prop := o = Chosen (dec E i) (man E i).

(** The optionals that the library makes with these manipulators are lawful: what
    init_empty_flag() leaves is recognised as empty, and the manipulator never leaves the bytes
    of the payload. *)
Theorem C65_rules_kept :
  (forall U cf n b t d f,
     0 < it_bytes t -> it_signed t = true ->
     u_destructible U (UClass n) = true -> size_of U (UClass n) = 2 * it_bytes t ->
     u_spec U (plain (UClass n)) = Some (man_index_pair t) \/
     u_spec U (plain (UClass n)) = Some (man_index2 t) ->
     optional_type U cf (plain (UClass n)) ADefault b = Chosen d f -> decomp_ok d /\ manip_ok d f) /\
  (forall U P off dflt d f,
     length dflt = size_of U (base P) -> sub off 1 dflt = bool_rep false ->
     optional_inplace_type U P (man_iterator off dflt) = Chosen d f -> decomp_ok d /\ manip_ok d f).
Proof.
  split.
  - intros U cf n b t d f Hb S Hd Hs Hu H.
    apply C32_selection_as_documented in H as (_ & H).
    assert (F : exists g, flag_manipulator U cf (plain (UClass n)) = Some g /\
                          (g = man_index_pair t \/ g = man_index2 t))
      by (unfold flag_manipulator; destruct Hu as [-> | ->]; eauto).
    destruct F as (g & F & Hg). destruct (custom_chosen _ _ _ _ _ _ _ F H) as (Hd' & Hf').
    cbn [base plain] in Hd'. rewrite Hs in Hd'. subst d f. split; [split; cbn; lia|].
    destruct Hg as [-> | ->]; [apply man_index_pair_ok|apply man_index2_ok]; auto.
  - intros U P off dflt d f L Hf H. unfold optional_inplace_type in H.
    destruct (valid_payload U P); [|discriminate]. injection H as <- <-.
    assert (0 < size_of U (base P)).
    { rewrite <- L. destruct dflt; [|cbn; lia]. destruct off; discriminate. }
    split; [split; cbn; lia|]. apply man_iterator_ok; auto.
Qed.

(** IndexPair: for every configuration of the library the optional has the size of the pair;
    it is empty from the start, and contains what is stored in it unless both indices are
    negative, in which case the assertion stops the program (or the optional is empty). *)
Theorem C65_index_pair :
  forall W (E : env W) U cf n b i t,
    env_ok E -> 0 < it_bytes t -> it_signed t = true ->
    u_destructible U (UClass n) = true -> size_of U (UClass n) = 2 * it_bytes t ->
    u_spec U (plain (UClass n)) = Some (man_index_pair t) ->
    made E i (optional_type U cf (plain (UClass n)) ADefault b) ->
    d_ssize (dec E i) = size_of U (UClass n) /\
    forall x y, in_range t x -> in_range t y ->
      ((0 <= x \/ 0 <= y)%Z -> engages E i (index_pair t x y)) /\
      ((x < 0 /\ y < 0)%Z -> swallows E i (index_pair t x y)).
Proof.
  intros W E U cf n b i t HE Hb S Hd Hs Hu H. unfold made in H.
  apply C32_selection_as_documented in H as (_ & H).
  assert (F : flag_manipulator U cf (plain (UClass n)) = Some (man_index_pair t))
    by (unfold flag_manipulator; rewrite Hu; reflexivity).
  apply (custom_chosen _ _ _ _ _ _ _ F) in H as (D & M). cbn [base plain] in D. rewrite Hs in D.
  rewrite D. split; [symmetry; exact Hs|]. intros x y Rx Ry.
  assert (K : m_is_empty (man E i) (index_pair t x y) = Some ((x <? 0) && (y <? 0))%Z).
  { rewrite M. cbn [man_index_pair m_is_empty]. rewrite member1, member2 by assumption.
    destruct (x <? 0)%Z; reflexivity. }
  split; intros C.
  - eapply inplace_engages; [exact HE|exact D|apply length_pair|]. rewrite K. f_equal.
    destruct (Z.ltb_spec x 0), (Z.ltb_spec y 0); try reflexivity. lia.
  - eapply inplace_swallows; [exact HE|exact D|apply length_pair|]. rewrite K. f_equal.
    destruct (Z.ltb_spec x 0), (Z.ltb_spec y 0); try reflexivity; lia.
Qed.

(** The specialization is for IndexPair only: a payload type with qualifiers does not use it. *)
Theorem C65_const_payload_not_specialized :
  forall U cf n c v b d f,
    u_spec U (MkTy c v (UClass n)) = None ->
    optional_type U cf (MkTy c v (UClass n)) ADefault b = Chosen d f ->
    d = dec_separate (size_of U (UClass n)) (u_align U (UClass n)) /\ f = man_separate.
Proof.
  intros U cf n c v b d f Hu H. apply C32_selection_as_documented in H as (_ & H).
  assert (F : flag_manipulator U cf (MkTy c v (UClass n)) = None).
  { unfold flag_manipulator. rewrite Hu. unfold sentinel_known. cbn. destruct (cf_bit cf); reflexivity. }
  inversion H as [? Hg|? ? Hg| | | |]; subst; [split; reflexivity|congruence].
Qed.

(** The variant with a flag in a part of the payload: every pair whose second index is not
    negative can be stored; making the optional empty leaves the bytes of the first index as
    they were. *)
Theorem C65_flag_in_part :
  forall W (E : env W) U cf n b i t,
    env_ok E -> 0 < it_bytes t -> it_signed t = true ->
    u_destructible U (UClass n) = true -> size_of U (UClass n) = 2 * it_bytes t ->
    u_spec U (plain (UClass n)) = Some (man_index2 t) ->
    made E i (optional_type U cf (plain (UClass n)) ADefault b) ->
    d_ssize (dec E i) = size_of U (UClass n) /\
    (forall x y, in_range t x -> in_range t y ->
      ((0 <= y)%Z -> engages E i (index_pair t x y)) /\
      ((y < 0)%Z -> swallows E i (index_pair t x y))) /\
    (forall s c, mem s i = Some (MkRegion c false false) -> length c = d_ssize (dec E i) ->
      exists s' c', fm_init E i s = (Ok tt, s') /\ mem s' i = Some (MkRegion c' true false) /\
                    sub 0 (it_bytes t) c' = sub 0 (it_bytes t) c).
Proof.
  intros W E U cf n b i t HE Hb S Hd Hs Hu H. unfold made in H.
  apply C32_selection_as_documented in H as (_ & H).
  assert (F : flag_manipulator U cf (plain (UClass n)) = Some (man_index2 t))
    by (unfold flag_manipulator; rewrite Hu; reflexivity).
  apply (custom_chosen _ _ _ _ _ _ _ F) in H as (D & M). cbn [base plain] in D. rewrite Hs in D.
  rewrite D. split; [symmetry; exact Hs|]. split.
  - intros x y Rx Ry.
    assert (K : m_is_empty (man E i) (index_pair t x y) = Some (y <? 0)%Z).
    { rewrite M. cbn [man_index2 m_is_empty]. rewrite member2 by assumption. reflexivity. }
    split; intros C.
    + eapply inplace_engages; [exact HE|exact D|apply length_pair|]. rewrite K. f_equal.
      apply Z.ltb_ge. exact C.
    + eapply inplace_swallows; [exact HE|exact D|apply length_pair|]. rewrite K. f_equal.
      apply Z.ltb_lt. exact C.
  - intros s c Hm Hc. cbn in Hc. unfold fm_init, bind, get_region. rewrite Hm, D. cbn.
    unfold set_region, log, ret. cbn. eexists _, _. split; [reflexivity|]. cbn.
    split; [apply upd_same|]. rewrite M. cbn [man_index2 m_init].
    rewrite <- Hc, sub_full.
    assert (L : length (put (it_bytes t) (int_rep t (-1)) c) = length c).
    { apply length_put. rewrite length_int_rep. lia. }
    rewrite put_full by exact L. apply sub_put_disj; rewrite ?length_int_rep; lia.
Qed.

(** Enumerations (README 515-530): the explicit sentinel and sentinel_flag_manipulator give
    the same size, the same empty state and the same storable values. *)
Theorem C65_enumeration :
  forall W (E : env W) U cf n b z i,
    env_ok E -> universe_ok U -> in_range (u_enum U n) z ->
    made E i (optional_type U cf (plain (UEnum n)) (AVal (VEnum n z)) b) \/
    u_spec U (plain (UEnum n)) = Some (man_sentinel (u_enum U n) (u_enum U n) z) /\
    made E i (optional_type U cf (plain (UEnum n)) ADefault b) ->
    d_ssize (dec E i) = it_bytes (u_enum U n) /\
    m_init (man E i) = (fun _ => int_rep (u_enum U n) z) /\
    forall x, in_range (u_enum U n) x ->
      (x <> z -> engages E i (int_rep (u_enum U n) x)) /\
      (x = z -> swallows E i (int_rep (u_enum U n) x)).
Proof.
  intros W E U cf n b z i HE HU Hz H.
  set (t := u_enum U n) in *. pose proof (uo_enum U HU n) as Hb. fold t in Hb.
  assert (C : conv t z = z) by (unfold conv; apply value_pattern; assumption).
  assert (dec E i = dec_inplace (it_bytes t) /\ m_init (man E i) = (fun _ => int_rep t z) /\
          forall x, in_range t x -> m_is_empty (man E i) (int_rep t x) = Some (Z.eqb x z))
    as (D & I & M).
  { destruct H as [H|(Hu & H)]; unfold made in H; apply C32_selection_as_documented in H as (_ & H).
    - apply sentinel_chosen in H as (D & Hs); [|reflexivity].
      unfold sentinel_for, assignment_manip in Hs. cbn in Hs. rewrite Nat.eqb_refl in Hs.
      injection Hs as Hs. split; [exact D|]. rewrite <- Hs. split; [reflexivity|].
      intros x Hx. cbn. unfold int_eqv, int_rep. rewrite unword_word by apply pattern_lt.
      rewrite value_pattern by assumption. reflexivity.
    - assert (F : flag_manipulator U cf (plain (UEnum n)) = Some (man_sentinel t t z))
        by (unfold flag_manipulator; rewrite Hu; reflexivity).
      apply (custom_chosen _ _ _ _ _ _ _ F) in H as (D & M).
      rewrite M. split; [exact D|]. cbn [man_sentinel m_init m_is_empty]. rewrite C.
      split; [reflexivity|]. intros x Hx. unfold int_rep. rewrite unword_word by apply pattern_lt.
      rewrite value_pattern by assumption. f_equal. unfold cpp_eq.
      assert (common (promote t) (promote t) = promote t) as ->
        by (unfold common; rewrite Bool.eqb_reflx, Nat.leb_refl; reflexivity).
      rewrite !conv_promote by assumption. reflexivity. }
  rewrite D. split; [reflexivity|]. split; [exact I|]. intros x Hx. specialize (M x Hx).
  split; intros Hn.
  - eapply inplace_engages; [exact HE|exact D|apply length_int_rep|]. rewrite M.
    apply Z.eqb_neq in Hn. rewrite Hn. reflexivity.
  - eapply inplace_swallows; [exact HE|exact D|apply length_int_rep|]. rewrite M.
    apply Z.eqb_eq in Hn. rewrite Hn. reflexivity.
Qed.

(** Iterator in an optional_inplace: the size of the iterator; every valid iterator can be
    stored, whatever its other members and paddings; storing an invalid one is stopped by the
    assertion. *)
Theorem C65_iterator :
  forall W (E : env W) U P off dflt i,
    env_ok E -> valid_payload U P = true ->
    made E i (optional_inplace_type U P (man_iterator off dflt)) ->
    d_ssize (dec E i) = size_of U (base P) /\
    forall v, length v = size_of U (base P) ->
      (sub off 1 v = bool_rep true -> engages E i v) /\
      (sub off 1 v = bool_rep false -> swallows E i v).
Proof.
  intros W E U P off dflt i HE HP H. unfold made, optional_inplace_type in H. rewrite HP in H.
  injection H as D M. symmetry in D, M. rewrite D. split; [reflexivity|]. intros v L. split; intros Hv.
  - eapply inplace_engages; [exact HE|exact D|exact L|]. rewrite M. cbn [man_iterator m_is_empty].
    rewrite Hv. reflexivity.
  - eapply inplace_swallows; [exact HE|exact D|exact L|]. rewrite M. cbn [man_iterator m_is_empty].
    rewrite Hv. reflexivity.
Qed.
(** README 595-597: it stores the same values as optional<Iterator, &Iterator::mIsValid, false>
    would, which does not compile because the member is private, in the same size. *)
Theorem C65_iterator_as_member :
  forall U cf c off dflt d f,
    cf_mem cf = true ->
    optional_type U cf (plain (UClass c)) (AVal (VMemObj (UClass c) (plain UBool) (Some off)))
      (AVal (VBool false)) = Chosen d f ->
    off < size_of U (UClass c) ->
    d_ssize d = size_of U (UClass c) /\
    forall v, storable_in d f v =
              storable_in (dec_inplace (size_of U (UClass c))) (man_iterator off dflt) v.
Proof.
  intros U cf c off dflt d f Hm H Ho. apply C32_selection_as_documented in H as (_ & H).
  inversion H as [| |? ? g Hv Hs Ha Hb' Hd Hf| |? ? ? ? g Hm' HP Hs|]; subst; [discriminate| |congruence].
  unfold sentinel_for, assignment_manip in Hs. cbn in Hs. injection Hs as <-.
  split; [reflexivity|]. intros v. unfold storable_in, flag_cells. cbn [dec_member dec_inplace d_psize
    d_sep d_foff d_fsize base plain size_of orb man_bool_sentinel man_assign m_is_empty man_iterator].
  destruct (Nat.eqb_spec (length v) (u_size U (UClass c))) as [L|]; [|reflexivity]. cbn [andb].
  cbn [size_of] in Ho. rewrite <- L, sub_full. unfold bool_eqv.
  destruct (sub off 1 v) as [|[|[|[]]|] []]; reflexivity.
Qed.

(** A static constexpr sentinel (README 645-658): any duration but the sentinel can be
    stored. *)
Theorem C65_static_constexpr :
  forall W (E : env W) U cf n v z i,
    env_ok E -> is_member_object_pointer (AVal v) = false ->
    is_bool (type_of v) = false -> is_floating (type_of v) = false ->
    size_of U (UClass n) = 8 -> in_range chrono_count z ->
    u_conv U (UClass n) v = Some (chrono_conv z) ->
    made E i (optional_sentinel_via_type U cf (plain (UClass n)) (AVal v) ADefault) ->
    d_ssize (dec E i) = size_of U (UClass n) /\
    forall x, in_range chrono_count x ->
      (x <> z -> engages E i (int_rep chrono_count x)) /\
      (x = z -> swallows E i (int_rep chrono_count x)).
Proof.
  intros W E U cf n v z i HE Hv Hbv Hfv Hs Hz Hc H.
  assert (H' : made E i (optional_type U cf (plain (UClass n)) (AVal v) ADefault)).
  { unfold made, optional_type, sentinel_and_mem_ptr in *. rewrite Hv. exact H. }
  clear H. unfold made in H'. apply C32_selection_as_documented in H' as (_ & H).
  assert (dec E i = dec_inplace 8 /\
          man E i = man_assign (int_rep chrono_count z) (int_eqv chrono_count z)) as (D & M).
  { apply sentinel_chosen in H as (D & Hsf); [|exact Hv].
    unfold sentinel_for, assignment_manip in Hsf. cbn [base plain is_bool orb is_integral is_floating andb] in Hsf.
    rewrite Hbv, Hfv in Hsf. cbn [orb andb] in Hsf. unfold implicit_convert in Hsf. rewrite Hc in Hsf.
    cbn in Hsf. injection Hsf as Hsf. rewrite <- Hs. split; [exact D|congruence]. }
  rewrite D. split; [symmetry; exact Hs|]. intros x Hx.
  assert (K : m_is_empty (man E i) (int_rep chrono_count x) = Some (Z.eqb x z)).
  { rewrite M. cbn [man_assign m_is_empty]. unfold int_eqv, int_rep. rewrite unword_word by apply pattern_lt.
    rewrite value_pattern by (assumption || (cbn; lia)). reflexivity. }
  split; intros Hn.
  - eapply inplace_engages; [exact HE|exact D|apply length_int_rep|]. rewrite K.
    apply Z.eqb_neq in Hn. rewrite Hn. reflexivity.
  - eapply inplace_swallows; [exact HE|exact D|apply length_int_rep|]. rewrite K.
    apply Z.eqb_eq in Hn. rewrite Hn. reflexivity.
Qed.

(** ** A program with all of them *)

Definition t_int : ity := MkIty 4 true.
(** Classes 1 and 2: IndexPair with the two manipulators; 3: Iterator; 4: microseconds;
    enumeration 5: registered with sentinel_flag_manipulator, sentinel 2. *)
Definition doc_universe : universe :=
  MkUniverse true (u_int sample_universe) (fun n => if n =? 7 then MkIty 1 false else t_int)
    (fun _ => true) 16
    (fun t => match t with UClass 3 => 16 | _ => 8 end) (fun _ => 8) (fun _ => true)
    (fun t => match t with
              | MkTy false false (UClass 1) => Some (man_index_pair t_int)
              | MkTy false false (UClass 2) => Some (man_index2 t_int)
              | MkTy false false (UEnum 5) => Some (man_sentinel t_int t_int 2)
              | _ => None
              end)
    (fun _ _ => None)
    (fun t v => match t, v with
                | UClass 4, VObj 4 _ => Some (chrono_conv (it_min chrono_count))
                | _, _ => None
                end).
Lemma doc_universe_ok : universe_ok doc_universe.
Proof.
  split; try (cbn; auto; lia).
  - intros []; cbn; lia.
  - intros n. cbn. destruct (n =? 7); cbn; lia.
  - intros [c v t] f D H Sep L. cbn [u_spec doc_universe] in H.
    destruct c, v; try discriminate; destruct t as [| | | | | |m|m| | | |]; try discriminate;
      repeat (destruct m as [|m]; try discriminate); injection H as <-; cbn in L.
    + assert (R : in_range t_int 2) by (vm_compute; split; discriminate).
      split; cbn [man_sentinel m_init m_inval m_is_empty]; intros c Hc.
      * rewrite length_int_rep. exact (eq_sym L).
      * rewrite length_indets. exact Hc.
      * vm_compute. reflexivity.
      * congruence.
    + apply man_index_pair_ok; cbn; auto.
    + apply man_index2_ok; cbn; auto.
  - intros t v enc eqv H. cbn [u_conv doc_universe] in H.
    destruct t as [| | | | | | |m| | | |]; try discriminate. repeat (destruct m as [|m]; try discriminate).
    destruct v as [| | | | | | | |m r| |]; try discriminate. repeat (destruct m as [|m]; try discriminate).
    injection H as <- <-. split; vm_compute; reflexivity.
  - cbn. exists 8. auto.
Qed.

Definition invalid_iterator : rep := iterator_rep false (indets 7) 0.
Definition doc_types (i : nat) : outcome :=
  let U := doc_universe in
  match i with
  | 0 => optional_type U default_config (plain (UClass 1)) ADefault ADefault
  | 1 => optional_type U no_ub_tricks (plain (UClass 1)) ADefault ADefault
  | 2 => optional_type U default_config (plain (UClass 2)) ADefault ADefault
  | 3 => optional_type U default_config (plain (UEnum 5)) ADefault ADefault
  | 4 => optional_type U default_config (plain (UEnum 7)) (AVal (VEnum 7 2)) ADefault
  | 5 => optional_inplace_type U (plain (UClass 3)) (man_iterator 0 invalid_iterator)
  | 6 => optional_sentinel_via_type U no_ub_tricks (plain (UClass 4)) (AVal (VObj 4 [])) ADefault
  | _ => optional_type U default_config (plain (UInt KInt)) ADefault ADefault
  end.
Definition doc_env (dbg : bool) : env sworld_t :=
  MkEnv _ (fun i => match doc_types i with
                    | Chosen d m => MkOptTy _ d m t_ops
                    | Rejected _ => ty_dbl
                    end) (fun i => i) dbg.
Lemma doc_made dbg i : made (doc_env dbg) i (doc_types i).
Proof.
  assert (A : match doc_types i with Chosen _ _ => true | Rejected _ => false end = true)
    by (do 7 (destruct i as [|i]; [vm_compute; reflexivity|]); vm_compute; reflexivity).
  unfold made, dec, man, ty. cbn [e_tys e_tid doc_env].
  destruct (doc_types i); [discriminate|reflexivity].
Qed.
Lemma doc_env_ok dbg : env_ok (doc_env dbg).
Proof.
  intros i. pose proof (doc_made dbg i) as H. pose proof doc_universe_ok as HU.
  assert (K : decomp_ok (dec (doc_env dbg) i) /\ manip_ok (dec (doc_env dbg) i) (man (doc_env dbg) i)).
  { assert (S : forall cf P a b, targ_ok doc_universe a -> targ_ok doc_universe b ->
              no_nan doc_universe (used_sentinel a b) ->
              made (doc_env dbg) i (optional_type doc_universe cf P a b) ->
              decomp_ok (dec (doc_env dbg) i) /\ manip_ok (dec (doc_env dbg) i) (man (doc_env dbg) i))
      by (intros cf P a b Ha Hb Hn HH; exact (selected_lawful _ _ _ _ _ _ _ HU Ha Hb Hn HH)).
    do 4 (destruct i as [|i]; [exact (S _ _ ADefault ADefault I I I H)|]).
    destruct i as [|i].
    { eapply S; [| | |exact H]; [vm_compute; split; discriminate|exact I|reflexivity]. }
    destruct i as [|i].
    { split; [apply (dec_inplace_ok 16)|]. apply man_iterator_ok; reflexivity. }
    destruct i as [|i].
    { apply (S no_ub_tricks (plain (UClass 4)) (AVal (VObj 4 [])) ADefault I I); [reflexivity|exact H]. }
    exact (S _ _ ADefault ADefault I I I H). }
  split; [apply K|apply K|]. cbn. destruct (doc_types i); apply t_ops_ok.
Qed.

(** The theorems apply, and a program stores (3, -7) but not (-3, -7). *)
Example C65_example dbg :
  engages (doc_env dbg) 0 (index_pair t_int 3 (-7)) /\
  swallows (doc_env dbg) 1 (index_pair t_int (-3) (-7)) /\
  engages (doc_env dbg) 2 (index_pair t_int (-3) 7) /\
  engages (doc_env dbg) 3 (int_rep t_int 1) /\
  swallows (doc_env dbg) 4 (int_rep (MkIty 1 false) 2) /\
  engages (doc_env dbg) 5 (iterator_rep true (indets 7) 5) /\
  swallows (doc_env dbg) 5 invalid_iterator /\
  engages (doc_env dbg) 6 (int_rep chrono_count (-1)) /\
  swallows (doc_env dbg) 6 (int_rep chrono_count (it_min chrono_count)).
Proof.
  pose proof (doc_env_ok dbg) as HE. pose proof (doc_made dbg) as HM. pose proof doc_universe_ok as HU.
  assert (R : forall z, (-100 <= z <= 100)%Z -> in_range t_int z)
    by (intros z Hz; unfold in_range; change (it_min t_int) with (-2147483648)%Z;
        change (it_max t_int) with 2147483647%Z; lia).
  assert (RC : in_range chrono_count (-1) /\ in_range chrono_count (it_min chrono_count))
    by (split; vm_compute; split; discriminate).
  destruct RC as (R1 & R2). assert (B4 : 0 < it_bytes t_int) by (cbn; lia).
  assert (R7 : in_range (MkIty 1 false) 2) by (vm_compute; split; discriminate).
  split; [|split; [|split; [|split; [|split; [|split; [|split; [|split]]]]]]].
  - refine (proj1 (proj2 (C65_index_pair _ _ doc_universe default_config 1 ADefault 0 t_int HE B4
              eq_refl eq_refl eq_refl eq_refl (HM 0)) 3%Z (-7)%Z (R _ _) (R _ _)) _); lia.
  - refine (proj2 (proj2 (C65_index_pair _ _ doc_universe no_ub_tricks 1 ADefault 1 t_int HE B4
              eq_refl eq_refl eq_refl eq_refl (HM 1)) (-3)%Z (-7)%Z (R _ _) (R _ _)) _); lia.
  - refine (proj1 (proj1 (proj2 (C65_flag_in_part _ _ doc_universe default_config 2 ADefault 2 t_int HE B4
              eq_refl eq_refl eq_refl eq_refl (HM 2))) (-3)%Z 7%Z (R _ _) (R _ _)) _); lia.
  - refine (proj1 (proj2 (proj2 (C65_enumeration _ _ doc_universe default_config 5 ADefault 2 3 HE HU
              (R 2%Z _) (or_intror (conj eq_refl (HM 3))))) 1%Z (R _ _)) _); lia.
  - refine (proj2 (proj2 (proj2 (C65_enumeration _ _ doc_universe default_config 7 ADefault 2 4 HE HU
              R7 (or_introl (HM 4)))) 2%Z R7) eq_refl).
  - refine (proj1 (proj2 (C65_iterator _ _ doc_universe (plain (UClass 3)) 0 invalid_iterator 5 HE eq_refl
              (HM 5)) (iterator_rep true (indets 7) 5) _) _); vm_compute; reflexivity.
  - refine (proj2 (proj2 (C65_iterator _ _ doc_universe (plain (UClass 3)) 0 invalid_iterator 5 HE eq_refl
              (HM 5)) invalid_iterator _) _); vm_compute; reflexivity.
  - refine (proj1 (proj2 (C65_static_constexpr _ _ doc_universe no_ub_tricks 4 (VObj 4 []) _ 6 HE eq_refl
              eq_refl eq_refl eq_refl R2 eq_refl (HM 6)) (-1)%Z R1) _). vm_compute. discriminate.
  - exact (proj2 (proj2 (C65_static_constexpr _ _ doc_universe no_ub_tricks 4 (VObj 4 []) _ 6 HE eq_refl
              eq_refl eq_refl eq_refl R2 eq_refl (HM 6)) _ R2) eq_refl).
Qed.
(** The usage example of the README (626-638): empty at first; an iterator is stored. *)
Example C65_usage_example dbg :
  let p := [ODefault 5; OHasValue 5; OAssign 5 (MkArg (MkIni None false
              (fun _ w => ((ROk (iterator_rep true (indets 7) 5), []), w)) true)
              (fun _ _ w => ((ROk tt, (iterator_rep true (indets 7) 5, [])), w)) (fun v w => ((ROk tt, v), w)));
            OHasValue 5] in
  contract (doc_env dbg) quiet p /\
  fst (run (doc_env dbg) p (init_state quiet)) =
    inl [ObUnit; ObBool false; ObUnit; ObBool true] /\
  optional_type doc_universe default_config (MkTy true false (UClass 1)) ADefault ADefault =
    Chosen (dec_separate 8 8) man_separate /\
  optional_type doc_universe default_config (plain (UClass 3))
    (AVal (VMemObj (UClass 3) (plain UBool) (Some 0))) (AVal (VBool false)) =
    Chosen (dec_member 16 0 1) (man_bool_sentinel false).
Proof.
  cbv zeta.
  split; [eapply contract_intro; [op_oks; intros _ v w; exact I|destruct dbg; vm_compute; reflexivity]|split; [destruct dbg; vm_compute; reflexivity|split; reflexivity]].
Qed.
