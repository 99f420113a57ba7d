(** * Tearing: has_value() while the value is being modified (C63)

    A std::optional keeps its flag apart from the value: one thread may call has_value()
    while another one modifies the value through a reference obtained before, because
    these accesses are to different memory locations ([intro.races], [res.on.data.races]).
    With the flag in place has_value() reads bytes of the value
    (optional.h:993-996 with 599-607, 637-645, 727-735, 818-830).

    An assignment through a reference is a sequence of writes to the bytes of the value,
    in any order and of any width; in between the bytes are a mix of old and new ones. *)

From Coq Require Import List NArith ZArith Bool Arith Lia.
From Verif Require Import Cells CellsFacts Machine Optional Program Spec Laws Refine Contract
  Effects Frame Bits Manip Sample ExampleTac Histories.
Import ListNotations.

Local Arguments put : simpl never.
Local Arguments sub : simpl never.

(** Every byte of [u] is the one of [v] or the one of [v']. *)
Definition mix (v v' u : rep) : Prop :=
  length v' = length v /\ length u = length v /\
  forall k, nth_error u k = nth_error v k \/ nth_error u k = nth_error v' k.

(** The state in which the bytes of the value of [i] are [u]; no object begins or ends. *)
Definition torn {W} (i : loc) (u : rep) (s : state W) : state W :=
  match mem s i with
  | Some r => MkState (upd (mem s) i (Some (MkRegion (put 0 u (cells r)) (flag_obj r) (pay_obj r))))
                      (world s) (trace s)
  | None => s
  end.

(** The bytes of the flag inside of the value. *)
Definition flag_bytes {W} (E : env W) (i : loc) (u : rep) : rep :=
  sub (d_foff (dec E i)) (d_fsize (dec E i)) u.

Section Torn.
  Context {W : Type}.
  Variable E : env W.
  Hypothesis HE : env_ok E.

  Lemma engaged_region w p s i v :
    contract E w p -> reaches E w p s -> opt_after E w p i (Some v) ->
    exists c, mem s i = Some (MkRegion c (d_sep (dec E i)) true) /\ length c = d_ssize (dec E i) /\
      sub 0 (d_psize (dec E i)) c = v /\ m_is_empty (man E i) (flag_bytes E i c) = Some false.
  Proof.
    intros C R O. destruct (reaches_rel E HE w p s C R) as (xs & t & Ht & Rl).
    pose proof (opt_after_at E w p i (Some v) xs t O Ht) as Ho.
    destruct Rl as (_ & _ & Hj). specialize (Hj i). cbn in Hj. rewrite Ho in Hj. exact Hj.
  Qed.

  Lemma torn_query i u s c :
    mem s i = Some (MkRegion c (d_sep (dec E i)) true) ->
    fst (has_value E i (torn i u s)) =
    match m_is_empty (man E i) (flag_bytes E i (put 0 u c)) with
    | Some b => Ok (negb b)
    | None => Dead IndetRead
    end.
  Proof.
    intros H. unfold torn. rewrite H. cbn [cells flag_obj pay_obj].
    unfold has_value, fm_is_empty, bind, get_region. cbn [mem]. unfold upd. rewrite Nat.eqb_refl.
    cbn [flag_obj pay_obj cells]. destruct (d_sep (dec E i)); cbn [negb andb orb];
      unfold flag_bytes; destruct (m_is_empty _ _); reflexivity.
  Qed.
End Torn.

(** ** C63 *)

(** With a separate flag has_value() is true all the time, whatever the bytes of the value
    are meanwhile, as with std::optional. *)
Theorem C63_separate_flag :
  forall W (E : env W) w p s i v u,
    env_ok E -> contract E w p -> reaches E w p s -> opt_after E w p i (Some v) ->
    d_sep (dec E i) = true -> length u = d_psize (dec E i) ->
    fst (has_value E i (torn i u s)) = Ok true.
Proof.
  intros W E w p s i v u HE C R O Sep L.
  destruct (engaged_region E HE w p s i v C R O) as (c & Hm & Hl & _ & He).
  rewrite (torn_query E i u s c Hm).
  pose proof (ok_dec _ (HE (e_tid E i))) as D. fold (ty E i) in D. fold (dec E i) in D.
  pose proof (do_pay _ D). pose proof (do_flag _ D). pose proof (do_sep _ D Sep).
  unfold flag_bytes in *. rewrite sub_put_disj by lia. rewrite He. reflexivity.
Qed.

(** With the flag in place it depends on the bytes of the flag, and on nothing else. *)
Theorem C63_in_place_exact :
  forall W (E : env W) w p s i v u,
    env_ok E -> contract E w p -> reaches E w p s -> opt_after E w p i (Some v) ->
    d_sep (dec E i) = false -> length u = d_psize (dec E i) ->
    (fst (has_value E i (torn i u s)) = Ok true <->
     m_is_empty (man E i) (flag_bytes E i u) = Some false).
Proof.
  intros W E w p s i v u HE C R O Sep L.
  destruct (engaged_region E HE w p s i v C R O) as (c & Hm & Hl & _ & He).
  rewrite (torn_query E i u s c Hm).
  pose proof (ok_dec _ (HE (e_tid E i))) as D. fold (ty E i) in D. fold (dec E i) in D.
  pose proof (do_inpl _ D Sep). pose proof (do_size _ D Sep).
  unfold flag_bytes in *. rewrite sub_put_inside by lia.
  destruct (m_is_empty (man E i) (sub _ _ u)) as [[|]|]; cbn; split; intros X; try reflexivity; discriminate X.
Qed.

(** Hence modifying other members than the one with the flag does not disturb. *)
Theorem C63_other_members :
  forall W (E : env W) w p s i v u,
    env_ok E -> contract E w p -> reaches E w p s -> opt_after E w p i (Some v) ->
    length u = d_psize (dec E i) ->
    (forall k, d_foff (dec E i) <= k < d_foff (dec E i) + d_fsize (dec E i) ->
       nth_error u k = nth_error v k) ->
    fst (has_value E i (torn i u s)) = Ok true.
Proof.
  intros W E w p s i v u HE C R O L Hk.
  destruct (d_sep (dec E i)) eqn:Sep; [exact (C63_separate_flag W E w p s i v u HE C R O Sep L)|].
  apply (C63_in_place_exact W E w p s i v u HE C R O Sep L).
  destruct (engaged_region E HE w p s i v C R O) as (c & Hm & Hl & Hv & He).
  pose proof (ok_dec _ (HE (e_tid E i))) as D. fold (ty E i) in D. fold (dec E i) in D.
  pose proof (do_inpl _ D Sep). pose proof (do_size _ D Sep).
  assert (Lv : length v = d_psize (dec E i)) by (rewrite <- Hv; apply length_sub; lia).
  replace (flag_bytes E i u) with (flag_bytes E i c); [exact He|].
  unfold flag_bytes. apply nth_ext.
  - rewrite !length_sub by lia. reflexivity.
  - intros k Hlt. rewrite length_sub in Hlt by lia. rewrite !nth_sub by lia.
    rewrite Hk by lia. rewrite <- Hv. rewrite nth_sub by lia. reflexivity.
Qed.

(** A flag of one byte cannot be torn: while a storable value is replaced by another one,
    has_value() is true. *)
Theorem C63_one_byte_flag :
  forall W (E : env W) w p s i v v' u,
    env_ok E -> contract E w p -> reaches E w p s -> opt_after E w p i (Some v) ->
    d_fsize (dec E i) = 1 -> storable E i v' = true -> mix v v' u ->
    fst (has_value E i (torn i u s)) = Ok true.
Proof.
  intros W E w p s i v v' u HE C R O F1 St (L1 & L2 & Hmix).
  unfold storable, storable_in in St. apply andb_true_iff in St. destruct St as [Sl Sf].
  apply Nat.eqb_eq in Sl. fold (dec E i) in Sl. fold (dec E i) in Sf. fold (man E i) in Sf.
  assert (L : length u = d_psize (dec E i)) by congruence.
  destruct (d_sep (dec E i)) eqn:Sep; [exact (C63_separate_flag W E w p s i v u HE C R O Sep L)|].
  cbn [orb] in Sf.
  apply (C63_in_place_exact W E w p s i v u HE C R O Sep L).
  destruct (engaged_region E HE w p s i v C R O) as (c & Hm & Hl & Hv & He).
  pose proof (ok_dec _ (HE (e_tid E i))) as D. fold (ty E i) in D. fold (dec E i) in D.
  pose proof (do_inpl _ D Sep). pose proof (do_size _ D Sep).
  unfold flag_bytes, flag_cells in *.
  destruct (Hmix (d_foff (dec E i))) as [Q|Q].
  - replace (sub (d_foff (dec E i)) (d_fsize (dec E i)) u)
      with (sub (d_foff (dec E i)) (d_fsize (dec E i)) c); [exact He|].
    apply nth_ext; [rewrite !length_sub by lia; reflexivity|].
    intros k Hlt. rewrite length_sub in Hlt by lia. rewrite !nth_sub by lia.
    replace k with 0 by lia. rewrite Nat.add_0_r, Q. rewrite <- Hv. rewrite nth_sub by lia. reflexivity.
  - replace (sub (d_foff (dec E i)) (d_fsize (dec E i)) u)
      with (sub (d_foff (dec E i)) (d_fsize (dec E i)) v').
    + destruct (m_is_empty _ _) as [[|]|]; congruence.
    + apply nth_ext; [rewrite !length_sub by lia; reflexivity|].
      intros k Hlt. rewrite length_sub in Hlt by lia. rewrite !nth_sub by lia.
      replace k with 0 by lia. rewrite Nat.add_0_r, Q. reflexivity.
Qed.

(** With a sentinel of two or more bytes that is compared byte by byte (double, float,
    pointers) there are always two values that the optional may contain and a state between
    them in which has_value() is false, although the optional contains a value all the
    time. *)
Theorem C63_in_place_flag_refuted :
  forall W (E : env W) w p s i sent,
    env_ok E -> contract E w p -> reaches E w p s ->
    d_sep (dec E i) = false -> man E i = man_memcmp sent ->
    d_fsize (dec E i) = length sent -> 2 <= length sent ->
    exists v v' u, storable E i v = true /\ storable E i v' = true /\ mix v v' u /\
      (opt_after E w p i (Some v) -> fst (has_value E i (torn i u s)) = Ok false).
Proof.
  intros W E w p s i sent HE C R Sep Hman Hfs H2.
  destruct sent as [|a [|b rest]]; cbn in H2; try lia.
  pose proof (ok_dec _ (HE (e_tid E i))) as D. fold (ty E i) in D. fold (dec E i) in D.
  pose proof (do_inpl _ D Sep) as Di. pose proof (do_size _ D Sep) as Ds.
  set (other := fun x : N => if N.eqb x 0 then 1%N else 0%N).
  assert (Ho : forall x, N.eqb (other x) x = false).
  { intros x. unfold other. destruct (N.eqb x 0) eqn:X; apply N.eqb_neq.
    - apply N.eqb_eq in X. subst x. discriminate.
    - apply N.eqb_neq in X. congruence. }
  set (place := fun l => put (d_foff (dec E i)) (map Byte l) (repeat (Byte 0%N) (d_psize (dec E i)))).
  assert (Lp : forall l, length l = length (a :: b :: rest) -> length (place l) = d_psize (dec E i)).
  { intros l Hl. unfold place. rewrite length_put; rewrite repeat_length; [reflexivity|].
    rewrite map_length, Hl. lia. }
  assert (Fp : forall l, length l = length (a :: b :: rest) -> flag_bytes E i (place l) = map Byte l).
  { intros l Hl. unfold flag_bytes, place. apply sub_put_same'.
    - rewrite map_length. congruence.
    - rewrite repeat_length. lia. }
  assert (Ep : forall l, length l = length (a :: b :: rest) ->
                 m_is_empty (man E i) (map Byte l) = Some (bytes_eqb l (a :: b :: rest))).
  { intros l Hl. rewrite Hman. cbn [man_memcmp m_is_empty].
    rewrite <- Hl, <- (map_length Byte l), firstn_all, unbytes_map. reflexivity. }
  assert (Sp : forall l, length l = length (a :: b :: rest) -> bytes_eqb l (a :: b :: rest) = false ->
                 storable E i (place l) = true).
  { intros l Hl Hb. unfold storable, storable_in. fold (dec E i). fold (man E i).
    rewrite (Lp l Hl), Nat.eqb_refl, Sep. cbn [orb andb].
    change (flag_cells (dec E i) (place l)) with (flag_bytes E i (place l)).
    rewrite (Fp l Hl), (Ep l Hl), Hb. reflexivity. }
  exists (place (other a :: b :: rest)), (place (a :: other b :: rest)), (place (a :: b :: rest)).
  split; [apply Sp; [reflexivity|cbn; rewrite Ho; reflexivity]|].
  split; [apply Sp; [reflexivity|cbn; rewrite N.eqb_refl, Ho; reflexivity]|].
  split.
  - split; [rewrite !Lp; reflexivity|]. split; [rewrite !Lp; reflexivity|]. intros k. unfold place.
    rewrite !nth_put by (rewrite repeat_length; lia).
    rewrite !map_length. cbn [length].
    destruct (k <? d_foff (dec E i)); [left; reflexivity|].
    destruct (k <? _); [|left; reflexivity].
    destruct (k - d_foff (dec E i)) as [|[|n]]; [right|left|left]; reflexivity.
  - intros O. destruct (engaged_region E HE w p s i _ C R O) as (c & Hm & Hl & Hv & He).
    rewrite (torn_query E i _ s c Hm). unfold flag_bytes.
    rewrite sub_put_inside; [|rewrite Lp by reflexivity; lia|rewrite Lp by reflexivity; lia].
    fold (flag_bytes E i (place (a :: b :: rest))). rewrite (Fp _ eq_refl), (Ep _ eq_refl).
    rewrite (proj2 (bytes_eqb_eq _ _) eq_refl). reflexivity.
Qed.

(** optional<double>: the bits 0x7ff8fedc00000000 (a NaN) are replaced by 0x00000000ba987654,
    the lower half first.  In between the bits are those of the sentinel.  optional of a
    separate flag: any bytes. *)
Example C63_example dbg :
  let E := sample dbg in
  let p := [OInPlace 20 (mkBits 8 0x7ff8fedc00000000); OInPlace 0 (mkP 5 6); OInPlace 40 (mkBits 1 1)] in
  env_ok E /\ contract E quiet p /\
  opt_after E quiet p 20 (Some (word 8 0x7ff8fedc00000000)) /\
  opt_after E quiet p 0 (Some [Atom 5; Atom 6]) /\ opt_after E quiet p 40 (Some (word 1 1)) /\
  d_sep (dec E 0) = true /\ d_sep (dec E 20) = false /\ d_fsize (dec E 40) = 1 /\
  storable E 40 (word 1 0) = true /\ mix (word 1 1) (word 1 0) (word 1 0) /\
  man E 20 = man_memcmp (bytes_le 8 sent_double) /\ d_fsize (dec E 20) = length (bytes_le 8 sent_double) /\
  storable E 20 (word 8 0x00000000ba987654) = true /\
  mix (word 8 0x7ff8fedc00000000) (word 8 0x00000000ba987654) (word 8 0x7ff8fedcba987654) /\
  exists s, reaches E quiet p s /\
    fst (has_value E 20 s) = Ok true /\
    fst (has_value E 20 (torn 20 (word 8 0x7ff8fedcba987654) s)) = Ok false /\
    fst (has_value E 20 (torn 20 (word 8 0x00000000ba987654) s)) = Ok true /\
    fst (has_value E 0 (torn 0 [Indet; Atom 7] s)) = Ok true.
Proof.
  cbv zeta.
  assert (M : forall n v v' u, length v = n -> length v' = n -> length u = n ->
      (forall k, k < n -> nth_error u k = nth_error v k \/ nth_error u k = nth_error v' k) -> mix v v' u).
  { intros n v v' u A B C H. repeat split; try congruence. intros k.
    destruct (Nat.lt_ge_cases k n) as [L|L]; [exact (H k L)|left].
    rewrite !(proj2 (nth_error_None _ _)) by lia. reflexivity. }
  split; [apply sample_ok|]. split; [ex_contract|]. split; [ex_opt|]. split; [ex_opt|]. split; [ex_opt|].
  split; [reflexivity|]. split; [reflexivity|]. split; [reflexivity|]. split; [reflexivity|].
  split.
  { apply (M 1); try reflexivity. intros k Hk. right. reflexivity. }
  split; [reflexivity|]. split; [reflexivity|]. split; [vm_compute; reflexivity|]. split.
  { apply (M 8); try reflexivity. intros k Hk.
    do 8 (destruct k as [|k]; [first [left; reflexivity | right; reflexivity]|]). lia. }
  eexists. split; [eexists; run_it|]. repeat split; destruct dbg; vm_compute; reflexivity.
Qed.
