(** * CellsFacts: elementary facts on [sub] and [put] *)

From Coq Require Import List NArith ZArith Bool Arith Lia.
From Verif Require Import Cells.
Import ListNotations.

Lemma length_indets n : length (indets n) = n.
Proof. apply repeat_length. Qed.

Lemma length_put off x c :
  off + length x <= length c -> length (put off x c) = length c.
Proof.
  intros H. unfold put. rewrite !app_length, firstn_length, skipn_length. lia.
Qed.

Lemma length_sub off len c :
  off + len <= length c -> length (sub off len c) = len.
Proof.
  intros H. unfold sub. rewrite firstn_length, skipn_length. lia.
Qed.

Lemma nth_sub off len c k :
  k < len -> nth_error (sub off len c) k = nth_error c (off + k).
Proof.
  intros H. unfold sub.
  revert c. induction off as [|off IH]; intros c; cbn [skipn plus].
  - revert c k H. induction len as [|len IHl]; intros c k H; [lia|].
    destruct c as [|a c]; [destruct k; reflexivity|].
    destruct k as [|k]; cbn; [reflexivity|]. apply IHl. lia.
  - destruct c as [|a c]; cbn.
    + rewrite firstn_nil. destruct k; reflexivity.
    + apply IH.
Qed.

Lemma nth_put off x c k :
  off <= length c ->
  nth_error (put off x c) k =
    if k <? off then nth_error c k
    else if k <? off + length x then nth_error x (k - off)
    else nth_error c k.
Proof.
  intros H. unfold put.
  destruct (Nat.ltb_spec k off) as [L|L].
  - rewrite nth_error_app1 by (rewrite firstn_length; lia).
    revert c k H L. induction off as [|off IH]; intros c k H L; [lia|].
    destruct c as [|a c]; [cbn in H; lia|].
    destruct k; cbn; [reflexivity|]. apply IH; cbn in H; lia.
  - rewrite nth_error_app2 by (rewrite firstn_length; lia).
    rewrite firstn_length, Nat.min_l by lia.
    destruct (Nat.ltb_spec k (off + length x)) as [L2|L2].
    + rewrite nth_error_app1 by lia. reflexivity.
    + rewrite nth_error_app2 by lia.
      replace (nth_error c k) with (nth_error c ((off + length x) + (k - off - length x)))
        by (f_equal; lia).
      generalize (k - off - length x) as q. generalize (off + length x) as p. clear.
      intros p. revert c. induction p as [|p IH]; intros c q; cbn; [reflexivity|].
      destruct c as [|a c]; [destruct q; reflexivity|]. apply IH.
Qed.

Lemma nth_ext (a b : rep) :
  length a = length b ->
  (forall k, k < length a -> nth_error a k = nth_error b k) -> a = b.
Proof.
  revert b. induction a as [|x a IH]; intros [|y b] HL H; cbn in HL; try lia; [reflexivity|].
  pose proof (H 0 ltac:(cbn; lia)) as H0. cbn in H0. injection H0 as ->.
  f_equal. apply IH; [lia|]. intros k Hk. apply (H (S k)). cbn. lia.
Qed.

Lemma sub_put_same off x c :
  off + length x <= length c -> sub off (length x) (put off x c) = x.
Proof.
  intros H. apply nth_ext.
  - apply length_sub. rewrite length_put; lia.
  - intros k Hk. rewrite length_sub in Hk by (rewrite length_put; lia).
    rewrite nth_sub by lia. rewrite nth_put by lia.
    destruct (Nat.ltb_spec (off + k) off); [lia|].
    destruct (Nat.ltb_spec (off + k) (off + length x)); [|lia].
    f_equal; lia.
Qed.

Lemma sub_put_same' off len x c :
  length x = len -> off + len <= length c -> sub off len (put off x c) = x.
Proof. intros <- H. apply sub_put_same, H. Qed.

Lemma sub_put_disj off len o2 x c :
  off + len <= length c -> o2 + length x <= length c ->
  off + len <= o2 \/ o2 + length x <= off ->
  sub off len (put o2 x c) = sub off len c.
Proof.
  intros H1 H2 D. apply nth_ext.
  - rewrite !length_sub; [reflexivity|lia|rewrite length_put; lia].
  - intros k Hk. rewrite length_sub in Hk by (rewrite length_put; lia).
    rewrite !nth_sub by lia. rewrite nth_put by lia.
    destruct (Nat.ltb_spec (off + k) o2); [reflexivity|].
    destruct (Nat.ltb_spec (off + k) (o2 + length x)); [lia|reflexivity].
Qed.

(** A subobject of the whole, written first, is a subobject of what was written. *)
Lemma sub_put_inside off len x c :
  off + len <= length x -> length x <= length c ->
  sub off len (put 0 x c) = sub off len x.
Proof.
  intros H1 H2. apply nth_ext.
  - rewrite !length_sub; [reflexivity|lia|rewrite length_put; lia].
  - intros k Hk. rewrite length_sub in Hk by (rewrite length_put; lia).
    rewrite !nth_sub by lia. rewrite nth_put by lia.
    destruct (Nat.ltb_spec (off + k) 0); [lia|].
    destruct (Nat.ltb_spec (off + k) (0 + length x)); [|lia].
    f_equal; lia.
Qed.

Lemma skipn_skipn_add (c : rep) a b : skipn a (skipn b c) = skipn (b + a) c.
Proof.
  revert c. induction b as [|b IH]; intros c; cbn; [reflexivity|].
  destruct c as [|x c]; [apply skipn_nil|apply IH].
Qed.

Lemma sub_sub o1 l1 o2 l2 c :
  o2 + l2 <= l1 -> sub o2 l2 (sub o1 l1 c) = sub (o1 + o2) l2 c.
Proof.
  intros H. unfold sub.
  rewrite skipn_firstn_comm, firstn_firstn, skipn_skipn_add.
  rewrite Nat.min_l by lia. reflexivity.
Qed.

Lemma sub_full c : sub 0 (length c) c = c.
Proof. unfold sub. cbn. apply firstn_all. Qed.

Lemma put_full x c : length x = length c -> put 0 x c = x.
Proof.
  intros H. unfold put. cbn. rewrite H, skipn_all, app_nil_r. reflexivity.
Qed.
