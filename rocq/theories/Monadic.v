(** * Monadic: property C25 *)

From Coq Require Import List NArith ZArith Bool Arith Lia.
From Verif Require Import Cells CellsFacts Machine Optional Program Spec Laws Refine Contract
  Bits Manip Sample ExampleTac SpecTac Exceptions.
Import ListNotations.

Local Arguments put : simpl never.
Local Arguments sub : simpl never.

(** The world threads through every call of user code, so "the world afterwards is
    [f]'s result on the world before" says that [f] was called exactly once and
    nothing else was called; "the world is unchanged" that nothing was called. *)

Theorem C25_and_then :
  forall W (E : env W) w p s k i c f o r s',
    env_ok E -> call_after E w p s (OAndThen k i c f) r s' -> opt_after E w p i o ->
    match o with
    | Some v =>
        let '((res, v'), w') := f v (world s) in
        world s' = w' /\ peek E i s' = Some (Some (if c then v else v')) /\
        match res with
        | ROk x => r = Ok ObUnit /\ peek E k s' = Some x
        | RThrow e => r = Throw e
        end
    | None => r = Ok ObUnit /\ world s' = world s /\ peek E i s' = Some None /\ peek E k s' = Some None
    end.
Proof.
  intros W E w p s k i c f o r s' HE C Ho.
  destruct (call_spec_at E HE _ _ _ _ _ _ C) as (xs & t & t' & sr & Ht & R & Hs & R' & Hr).
  pose proof (opt_after_at E _ _ _ _ _ _ Ho Ht) as Hi.
  rewrite (rel_world E _ _ R), (rel_world E _ _ R').
  cbn [sstep] in Hs. sunfold Hs. seval Hs. destruct o as [v|]; seval Hs.
  - destruct (f v (sworld t)) as [[res v'] w']; seval Hs.
    assert (G : forall t0, objs t0 i = Some (SOpt (Some (if c then v else v'))) -> sworld t0 = w' ->
       match res with
       | ROk x => match objs t0 k with
                  | None => match x with
                            | Some z => if storable E k z then (SOk ObUnit, MkS (upd (objs t0) k (Some (SOpt x))) (sworld t0)) else (SUndef, t0)
                            | None => (SOk ObUnit, MkS (upd (objs t0) k (Some (SOpt x))) (sworld t0))
                            end
                  | Some _ => (SUndef, t0)
                  end
       | RThrow e => (SThrow e, t0)
       end = (sr, t') ->
       sworld t' = w' /\ peek E i s' = Some (Some (if c then v else v')) /\
       match res with
       | ROk x => r = Ok ObUnit /\ peek E k s' = Some x
       | RThrow e => r = Throw e
       end).
    { clear Hs. intros t0 H0 Hw Hs. destruct res as [x|e].
      - destruct (objs t0 k) eqn:Hk; [sdone Hs Hr|]. assert (N : k <> i) by congruence.
        assert (G : (SOk ObUnit, MkS (upd (objs t0) k (Some (SOpt x))) (sworld t0)) = (sr, t')).
        { destruct x as [z|]; [destruct (storable E k z); [exact Hs|sdone Hs Hr]|exact Hs]. }
        injection G as <- <-. split; [exact Hw|]. split; [|split; [exact Hr|]];
          (eapply peek_rel; [exact R'|cbn]); [rewrite upd_other by exact N; exact H0|apply upd_same].
      - injection Hs as <- <-. split; [exact Hw|]. split; [|exact Hr].
        eapply peek_rel; [exact R'|exact H0]. }
    destruct c.
    + seval Hs. apply (G (MkS (objs t) w')); [exact Hi|reflexivity|]. clear G. cbn.
      destruct res as [x|e]; [|exact Hs]. cbn in Hs. destruct (objs t k); [exact Hs|].
      destruct x as [z|]; [destruct (storable E k z)|]; exact Hs.
    + seval Hs. destruct (storable E i v'); [|sdone Hs Hr]. seval Hs.
      apply (G (MkS (upd (objs t) i (Some (SOpt (Some v')))) w')); [cbn; apply upd_same|reflexivity|].
      clear G. cbn. destruct res as [x|e]; [|exact Hs]. cbn in Hs.
      destruct (upd (objs t) i (Some (SOpt (Some v'))) k); [exact Hs|].
      destruct x as [z|]; [destruct (storable E k z)|]; exact Hs.
  - destruct (objs t k) eqn:Hk; [sdone Hs Hr|]. assert (N : k <> i) by congruence. seval Hs.
    injection Hs as <- <-. split; [exact Hr|]. split; [reflexivity|].
    split; (eapply peek_rel; [exact R'|cbn]); [rewrite upd_other by exact N; exact Hi|apply upd_same].
Qed.

Theorem C25_transform :
  forall W (E : env W) w p s k i c f nt o r s',
    env_ok E -> call_after E w p s (OTransform k i c f nt) r s' -> opt_after E w p i o ->
    match o with
    | Some v =>
        let '((res, v'), w') := f v (world s) in
        world s' = w' /\ peek E i s' = Some (Some (if c then v else v')) /\
        match res with
        | ROk x => r = Ok ObUnit /\ peek E k s' = Some (Some x)
        | RThrow e => r = Throw e /\ mem s' k = None
        end
    | None => r = Ok ObUnit /\ world s' = world s /\ peek E i s' = Some None /\ peek E k s' = Some None
    end.
Proof.
  intros W E w p s k i c f nt o r s' HE C Ho.
  destruct (call_spec_at E HE _ _ _ _ _ _ C) as (xs & t & t' & sr & Ht & R & Hs & R' & Hr).
  pose proof (opt_after_at E _ _ _ _ _ _ Ho Ht) as Hi.
  rewrite (rel_world E _ _ R), (rel_world E _ _ R').
  cbn [sstep] in Hs. sunfold Hs. seval Hs.
  destruct o as [v|]; seval Hs; (destruct (objs t k) eqn:Hk; [sdone Hs Hr|]);
    assert (N : k <> i) by congruence; assert (N' : i <> k) by congruence; seval Hs.
  - destruct (f v (sworld t)) as [[res v'] w']; seval Hs. destruct c; seval Hs.
    + destruct res as [x|e]; seval Hs.
      * destruct (storable E k x); [|sdone Hs Hr]. seval Hs. injection Hs as <- <-.
        split; [reflexivity|]. split; [|split; [exact Hr|]]; (eapply peek_rel; [exact R'|cbn]);
          [rewrite upd_other by exact N; exact Hi|apply upd_same].
      * injection Hs as <- <-. split; [reflexivity|]. split; [eapply peek_rel; [exact R'|exact Hi]|].
        split; [exact Hr|]. eapply rel_fresh; [exact R'|exact Hk].
    + destruct (storable E i v'); [|sdone Hs Hr]. seval Hs. destruct res as [x|e]; seval Hs.
      * destruct (storable E k x); [|sdone Hs Hr]. seval Hs. injection Hs as <- <-.
        split; [reflexivity|]. split; [|split; [exact Hr|]]; (eapply peek_rel; [exact R'|cbn]);
          [rewrite upd_other by exact N; apply upd_same|apply upd_same].
      * injection Hs as <- <-. split; [reflexivity|].
        split; [eapply peek_rel; [exact R'|cbn; apply upd_same]|].
        split; [exact Hr|]. eapply rel_fresh; [exact R'|cbn; rewrite upd_other by exact N'; exact Hk].
  - injection Hs as <- <-. split; [exact Hr|]. split; [reflexivity|].
    split; (eapply peek_rel; [exact R'|cbn]); [rewrite upd_other by exact N; exact Hi|apply upd_same].
Qed.

(** or_else on an engaged optional copies ([mv = false]) or moves the payload and
    does not call [f]; on an empty one it calls [f] once. *)
Theorem C25_or_else :
  forall W (E : env W) w p s k i mv f o r s',
    env_ok E -> call_after E w p s (OOrElse k i mv f) r s' -> opt_after E w p i o ->
    match o with
    | Some v =>
        let '((res, v'), w') :=
          if mv then po_move (ops E i) v (world s)
          else let (x, w') := po_copy (ops E i) v (world s) in ((x, v), w') in
        world s' = w' /\ peek E i s' = Some (Some v') /\
        match res with
        | ROk x => r = Ok ObUnit /\ peek E k s' = Some (Some x)
        | RThrow e => r = Throw e /\ mem s' k = None
        end
    | None =>
        let (res, w') := f (world s) in
        world s' = w' /\ peek E i s' = Some None /\
        match res with
        | ROk x => r = Ok ObUnit /\ peek E k s' = Some x
        | RThrow e => r = Throw e
        end
    end.
Proof.
  intros W E w p s k i mv f o r s' HE C Ho.
  destruct (call_spec_at E HE _ _ _ _ _ _ C) as (xs & t & t' & sr & Ht & R & Hs & R' & Hr).
  pose proof (opt_after_at E _ _ _ _ _ _ Ho Ht) as Hi.
  rewrite (rel_world E _ _ R), (rel_world E _ _ R').
  cbn [sstep] in Hs. unfold sunit, s_or_else, same in Hs.
  destruct (Nat.eqb (e_tid E k) (e_tid E i)); [|unfold sundef, sbind in Hs; sdone Hs Hr].
  unfold sbind at 1 2 in Hs. unfold contents in Hs. rewrite Hi in Hs.
  destruct o as [v|].
  - destruct (objs t k) eqn:Hk.
    { unfold sbind, fresh in Hs. rewrite Hk in Hs. sdone Hs Hr. }
    assert (N : k <> i) by congruence. assert (N' : i <> k) by congruence.
    destruct mv; sunfold Hs; seval Hs.
    + destruct (po_move (ops E i) v (sworld t)) as [[res v'] w']; seval Hs.
      destruct (storable E i v'); [|sdone Hs Hr]. seval Hs. destruct res as [x|e]; seval Hs.
      * destruct (storable E k x); [|sdone Hs Hr]. seval Hs. injection Hs as <- <-.
        split; [reflexivity|]. split; [|split; [exact Hr|]]; (eapply peek_rel; [exact R'|cbn]);
          [rewrite upd_other by exact N; apply upd_same|apply upd_same].
      * injection Hs as <- <-. split; [reflexivity|].
        split; [eapply peek_rel; [exact R'|cbn; apply upd_same]|].
        split; [exact Hr|]. eapply rel_fresh; [exact R'|cbn; rewrite upd_other by exact N'; exact Hk].
    + destruct (po_copy (ops E i) v (sworld t)) as [res w']; seval Hs. destruct res as [x|e]; seval Hs.
      * destruct (storable E k x); [|sdone Hs Hr]. seval Hs. injection Hs as <- <-.
        split; [reflexivity|]. split; [|split; [exact Hr|]]; (eapply peek_rel; [exact R'|cbn]);
          [rewrite upd_other by exact N; exact Hi|apply upd_same].
      * injection Hs as <- <-. split; [reflexivity|].
        split; [eapply peek_rel; [exact R'|exact Hi]|].
        split; [exact Hr|]. eapply rel_fresh; [exact R'|exact Hk].
  - sunfold Hs. seval Hs. destruct (f (sworld t)) as [res w']; seval Hs. destruct res as [x|e]; seval Hs.
    + destruct (objs t k) eqn:Hk; [sdone Hs Hr|]. assert (N : k <> i) by congruence.
      assert (G : (SOk ObUnit, MkS (upd (objs t) k (Some (SOpt x))) w') = (sr, t')).
      { destruct x as [z|]; [destruct (storable E k z); [exact Hs|sdone Hs Hr]|exact Hs]. }
      injection G as <- <-. split; [reflexivity|]. split; [|split; [exact Hr|]];
        (eapply peek_rel; [exact R'|cbn]); [rewrite upd_other by exact N; exact Hi|apply upd_same].
    + injection Hs as <- <-. split; [reflexivity|]. split; [eapply peek_rel; [exact R'|exact Hi]|exact Hr].
Qed.

(** ** The laws *)

(** The optional that a successful monadic call creates exists afterwards. *)
Lemma new_opt W (E : env W) w p s o x s' k :
  env_ok E -> call_after E w p s o (Ok x) s' ->
  match o with OAndThen k' _ _ _ | OTransform k' _ _ _ _ => k' = k | _ => False end ->
  exists y, opt_after E w (p ++ [o]) k y.
Proof.
  intros HE C Hk.
  destruct (call_spec_at E HE _ _ _ _ _ _ C) as (xs & t & t' & sr & Ht & R & Hs & R' & Hr).
  destruct (call_std E _ _ _ _ _ _ _ _ _ _ C Ht Hs) as (ys & Hy).
  assert (G : exists y, objs t' k = Some (SOpt y)).
  { destruct sr as [b|e|]; [|discriminate|contradiction].
    assert (B : forall (z : option rep) (u u' : sstate W) c, become (storable E) k z u = (SOk c, u') ->
                  exists y, objs u' k = Some (SOpt y)).
    { intros z u u' c. unfold become, sset, sundef. destruct z as [z|]; [destruct (storable E k z)|]; intros H;
        try discriminate; injection H as <- <-; cbn; rewrite upd_same; eauto. }
    destruct o; try contradiction; subst; cbn [sstep] in Hs; unfold sunit, s_and_then, s_transform, s_new in Hs;
      repeat match type of Hs with
      | sbind ?m ?f ?u = _ =>
          unfold sbind at 1 in Hs; destruct (m u) as [[?|?|] ?] eqn:?; try discriminate
      end;
      unfold sret in *; try (injection Hs as <- <-);
      repeat match goal with
      | H : (match ?z with Some _ => _ | None => _ end) _ = _ |- _ => destruct z
      | H : sbind ?m ?f ?u = _ |- _ =>
          unfold sbind at 1 in H; destruct (m u) as [[?|?|] ?] eqn:?; try discriminate
      end; eauto. }
  destruct G as (y & Gy). exists y, ys, t'. split; assumption.
Qed.

(** A callable that gets a reference to const. *)
Definition on_const {W A} (f : rep -> W -> res A * W) : rep -> W -> (res A * rep) * W :=
  fun v w => let (r, w') := f v w in ((r, v), w').

(** [x >>= f], the sequential composition of two such callables. *)
Definition kleisli {W} (f g : rep -> W -> res (option rep) * W) : rep -> W -> res (option rep) * W :=
  fun v w => match f v w with
             | (ROk (Some x), w1) => g x w1
             | (ROk None, w1) => (ROk None, w1)
             | (RThrow e, w1) => (RThrow e, w1)
             end.
Definition compose {W} (f g : rep -> W -> res rep * W) : rep -> W -> res rep * W :=
  fun v w => match f v w with
             | (ROk x, w1) => g x w1
             | (RThrow e, w1) => (RThrow e, w1)
             end.

(** Left identity: optional(v).and_then(f) is f(v). *)
Theorem C25_left_identity :
  forall W (E : env W) w p s k i f v x s',
    env_ok E -> call_after E w p s (OAndThen k i true (on_const f)) (Ok x) s' ->
    opt_after E w p i (Some v) ->
    exists z, f v (world s) = (ROk z, world s') /\ peek E k s' = Some z.
Proof.
  intros W E w p s k i f v x s' HE C Ho. pose proof (C25_and_then _ _ _ _ _ _ _ _ _ _ _ _ HE C Ho) as H.
  unfold on_const in H. cbn beta in H. destruct (f v (world s)) as [[z|e] w'] eqn:Hf; cbn in H.
  - destruct H as (H1 & H2 & H3 & H4). exists z. subst w'. auto.
  - destruct H as (_ & _ & H). discriminate.
Qed.

(** Right identity: o.and_then([](auto x) { return optional(x); }) has the contents
    of o, and no effect. *)
Theorem C25_right_identity :
  forall W (E : env W) w p s k i o r s',
    env_ok E ->
    call_after E w p s (OAndThen k i true (on_const (fun v w => (ROk (Some v), w)))) r s' ->
    opt_after E w p i o ->
    r = Ok ObUnit /\ world s' = world s /\ peek E k s' = Some o /\ peek E i s' = Some o.
Proof.
  intros W E w p s k i o r s' HE C Ho. pose proof (C25_and_then _ _ _ _ _ _ _ _ _ _ _ _ HE C Ho) as H.
  destruct o as [v|]; cbn in H.
  - destruct H as (H1 & H2 & H3 & H4). auto.
  - destruct H as (H1 & H2 & H3 & H4). auto.
Qed.

(** Associativity: o.and_then(f).and_then(g) and
    o.and_then([](auto x) { return f(x).and_then(g); }) have the same result and
    the same effects. *)
Theorem C25_associativity :
  forall W (E : env W) w p k l i f g o s1 x s1' r2 s2' s r s',
    env_ok E -> opt_after E w p i o ->
    call_after E w p s1 (OAndThen k i true (on_const f)) (Ok x) s1' ->
    call_after E w (p ++ [OAndThen k i true (on_const f)]) s1' (OAndThen l k true (on_const g)) r2 s2' ->
    call_after E w p s (OAndThen l i true (on_const (kleisli f g))) r s' ->
    r = r2 /\ world s' = world s2' /\
    match r with Ok _ => peek E l s' = peek E l s2' | _ => True end.
Proof.
  intros W E w p k l i f g o s1 x s1' r2 s2' s r s' HE Ho C1 C2 C3.
  assert (s1 = s) as ->.
  { destruct C1 as (_ & (u1 & H1) & _), C3 as (_ & (u2 & H2) & _). congruence. }
  pose proof (C25_and_then _ _ _ _ _ _ _ _ _ _ _ _ HE C1 Ho) as H1.
  pose proof (C25_and_then _ _ _ _ _ _ _ _ _ _ _ _ HE C3 Ho) as H3.
  destruct (new_opt _ _ _ _ _ _ _ _ k HE C1 eq_refl) as (y & Hy).
  pose proof (C25_and_then _ _ _ _ _ _ _ _ _ _ _ _ HE C2 Hy) as H2.
  assert (Py : peek E k s1' = Some y).
  { apply (opt_after_peek E HE w _ s1' k y (proj1 C1)); [exact (proj1 (proj2 C2))|exact Hy]. }
  destruct o as [v|].
  - unfold on_const, kleisli in *. cbn beta in *.
    destruct (f v (world s)) as [[z|e] w1] eqn:Hf; cbn in H1; [|destruct H1 as (_ & _ & H1); discriminate].
    destruct H1 as (Hw1 & _ & _ & Hz). assert (y = z) as -> by congruence. subst w1.
    destruct z as [z|].
    + destruct (g z (world s1')) as [[y|e] w2] eqn:Hg; cbn in H2, H3.
      * destruct H2 as (A1 & A2 & -> & A4), H3 as (B1 & B2 & -> & B4). repeat split; congruence.
      * destruct H2 as (A1 & A2 & ->), H3 as (B1 & B2 & ->). repeat split; congruence.
    + cbn in H3. destruct H2 as (-> & A2 & A3 & A4), H3 as (B1 & B2 & -> & B4). repeat split; congruence.
  - destruct H1 as (_ & Hw1 & _ & Hz). assert (y = None) as -> by congruence.
    destruct H2 as (-> & A2 & A3 & A4), H3 as (-> & B2 & B3 & B4). repeat split; congruence.
Qed.

(** transform with the identity. *)
Theorem C25_functor_identity :
  forall W (E : env W) w p s k i nt o r s',
    env_ok E ->
    call_after E w p s (OTransform k i true (on_const (fun v w => (ROk v, w))) nt) r s' ->
    opt_after E w p i o ->
    r = Ok ObUnit /\ world s' = world s /\ peek E k s' = Some o /\ peek E i s' = Some o.
Proof.
  intros W E w p s k i nt o r s' HE C Ho. pose proof (C25_transform _ _ _ _ _ _ _ _ _ _ _ _ _ HE C Ho) as H.
  destruct o as [v|]; cbn in H.
  - destruct H as (H1 & H2 & H3 & H4). auto.
  - destruct H as (H1 & H2 & H3 & H4). auto.
Qed.

(** transform with a composition. *)
Theorem C25_functor_composition :
  forall W (E : env W) w p k l i f g nf ng nfg o s1 x s1' r2 s2' s r s',
    env_ok E -> opt_after E w p i o ->
    call_after E w p s1 (OTransform k i true (on_const f) nf) (Ok x) s1' ->
    call_after E w (p ++ [OTransform k i true (on_const f) nf]) s1' (OTransform l k true (on_const g) ng) r2 s2' ->
    call_after E w p s (OTransform l i true (on_const (compose f g)) nfg) r s' ->
    r = r2 /\ world s' = world s2' /\
    match r with Ok _ => peek E l s' = peek E l s2' | _ => True end.
Proof.
  intros W E w p k l i f g nf ng nfg o s1 x s1' r2 s2' s r s' HE Ho C1 C2 C3.
  assert (s1 = s) as ->.
  { destruct C1 as (_ & (u1 & H1) & _), C3 as (_ & (u2 & H2) & _). congruence. }
  pose proof (C25_transform _ _ _ _ _ _ _ _ _ _ _ _ _ HE C1 Ho) as H1.
  pose proof (C25_transform _ _ _ _ _ _ _ _ _ _ _ _ _ HE C3 Ho) as H3.
  destruct (new_opt _ _ _ _ _ _ _ _ k HE C1 eq_refl) as (y & Hy).
  pose proof (C25_transform _ _ _ _ _ _ _ _ _ _ _ _ _ HE C2 Hy) as H2.
  assert (Py : peek E k s1' = Some y).
  { apply (opt_after_peek E HE w _ s1' k y (proj1 C1)); [exact (proj1 (proj2 C2))|exact Hy]. }
  destruct o as [v|].
  - unfold on_const, compose in *. cbn beta in *.
    destruct (f v (world s)) as [[z|e] w1] eqn:Hf; cbn in H1; [|destruct H1 as (_ & _ & H1 & _); discriminate].
    destruct H1 as (Hw1 & _ & _ & Hz). assert (y = Some z) as -> by congruence. subst w1.
    destruct (g z (world s1')) as [[y|e] w2] eqn:Hg; cbn in H2, H3.
    + destruct H2 as (A1 & A2 & -> & A4), H3 as (B1 & B2 & -> & B4). repeat split; congruence.
    + destruct H2 as (A1 & A2 & -> & _), H3 as (B1 & B2 & -> & _). repeat split; congruence.
  - destruct H1 as (_ & Hw1 & _ & Hz). assert (y = None) as -> by congruence.
    destruct H2 as (-> & A2 & A3 & A4), H3 as (-> & B2 & B3 & B4). repeat split; congruence.
Qed.

(** A callable that counts its calls, increments the first member, and yields
    nothing for 5. *)
Definition bump (v : rep) (w : sworld_t) : res (option rep) * sworld_t :=
  let (r, w') := user tt w in
  match r, v with
  | ROk _, Atom z :: l => (ROk (if Z.eqb z 5 then None else Some (Atom (z + 1) :: l)), w')
  | ROk _, _ => (ROk None, w')
  | RThrow e, _ => (RThrow e, w')
  end.
Definition bump1 (v : rep) (w : sworld_t) : res rep * sworld_t :=
  let (r, w') := user tt w in
  match r, v with
  | ROk _, Atom z :: l => (ROk (Atom (z + 1) :: l), w')
  | ROk _, _ => (ROk v, w')
  | RThrow e, _ => (RThrow e, w')
  end.

Example C25_example dbg :
  (exists s1 s1' s2' s s',
    opt_after (sample dbg) quiet [OInPlace 0 (mkP 3 7)] 0 (Some [Atom 3; Atom 7]) /\
    call_after (sample dbg) quiet [OInPlace 0 (mkP 3 7)] s1 (OAndThen 10 0 true (on_const bump)) (Ok ObUnit) s1' /\
    call_after (sample dbg) quiet [OInPlace 0 (mkP 3 7); OAndThen 10 0 true (on_const bump)] s1'
               (OAndThen 30 10 true (on_const bump)) (Ok ObUnit) s2' /\
    call_after (sample dbg) quiet [OInPlace 0 (mkP 3 7)] s
               (OAndThen 30 0 true (on_const (kleisli bump bump))) (Ok ObUnit) s' /\
    peek (sample dbg) 30 s' = Some (Some [Atom 5; Atom 7])) /\
  (exists s1 s1' s2' s s',
    call_after (sample dbg) quiet [OInPlace 0 (mkP 3 7)] s1 (OTransform 10 0 true (on_const bump1) false) (Ok ObUnit) s1' /\
    call_after (sample dbg) quiet [OInPlace 0 (mkP 3 7); OTransform 10 0 true (on_const bump1) false] s1'
               (OTransform 30 10 true (on_const bump1) false) (Ok ObUnit) s2' /\
    call_after (sample dbg) quiet [OInPlace 0 (mkP 3 7)] s
               (OTransform 30 0 true (on_const (compose bump1 bump1)) false) (Ok ObUnit) s') /\
  (exists s s',
    call_after (sample dbg) quiet [ODefault 0] s (OOrElse 1 0 true (fun w => (ROk (Some [Atom 1; Atom 1]), w)))
               (Ok ObUnit) s').
Proof.
  split; [|split].
  - eexists _, _, _, _, _. split; [ex_opt|]. split; [ex_call|]. split; [ex_call|]. split; [ex_call|]. run_it.
  - eexists _, _, _, _, _. split; [ex_call|]. split; [ex_call|]. ex_call.
  - eexists _, _. ex_call.
Qed.
