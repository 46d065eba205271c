(** C09: collection from a built tree keeps every primitive with a visible point. *)
From Coq Require Import ZArith List Lia Bool Reals Lra.
From Flocq Require Import Core.Core IEEE754.BinarySingleNaN IEEE754.Binary IEEE754.Bits.
From Verif.Model Require Import Outcome Scalar Vec Simd Aabb Packed Bvh BvhSplit.
From Verif.Spec Require Import BvhSpec GeomSpec BvhGeomSpec.
From Verif.Proofs Require Import OrdScalar ArrayLemmas BvhLoops BvhTree BvhBuild BvhArrays AabbOrder
  F32Round Frustum BvhBoxes.
Import ListNotations.
Local Open Scope Z_scope.

Section Visible.
  Context {B : Type}.
  (** a slot all of whose enclosing nodes are accepted is in a visited leaf *)
  Lemma visited_leaf : forall (nodes : list (node B)) accept k id, under nodes id k ->
    (forall id' nd, under nodes id' k -> at_ nodes id' nd -> accept nd = true) ->
    (forall id' left, innerAt nodes id' left -> (exists nd, at_ nodes left nd) /\ (exists nd, at_ nodes (left + 1) nd)) ->
    visited nodes accept id ->
    exists id' f c, visited nodes accept id' /\ leafAt nodes id' f c /\ f <= k < f + c.
  Proof.
    intros nodes accept k id U Hacc Hch. induction U; intros V.
    - eauto 10.
    - apply IHU; auto. destruct (Hch _ _ H) as ((nd & Ha) & _).
      eapply visited_left; eauto.
    - apply IHU; auto. destruct (Hch _ _ H) as (_ & (nd & Ha)).
      eapply visited_right; eauto.
  Qed.
End Visible.

Lemma finiteBox3_empty : finiteBox3 emptyBox.
Proof. repeat split. Qed.
Lemma simdmin_fin : forall p (a b : f32), fin a -> fin b -> fin (simdmin p a b).
Proof.
  intros p a b Ha Hb. destruct (simdmin_cases p a b (fin_num _ Ha) (fin_num _ Hb)) as [[-> _]|[-> _]]; assumption.
Qed.
Lemma simdmax_fin : forall p (a b : f32), fin a -> fin b -> fin (simdmax p a b).
Proof.
  intros p a b Ha Hb. destruct (simdmax_cases p a b (fin_num _ Ha) (fin_num _ Hb)) as [[-> _]|[-> _]]; assumption.
Qed.
Lemma extendAll_finite : forall p l a, finiteBox3 a -> Forall finiteBox3 l -> finiteBox3 (extendAll p a l).
Proof.
  induction l as [|x l IH]; intros a Ha Hl; [exact Ha|]. inversion Hl; subst. cbn.
  apply IH; [|assumption].
  destruct Ha as ((A1 & A2 & A3) & (A4 & A5 & A6)), H1 as ((B1 & B2 & B3) & (B4 & B5 & B6)).
  unfold extendBox, vmin, vmax, map2_4, finiteBox3, finite3. cbn [bmin bmax vx vy vz].
  repeat split; apply simdmin_fin || apply simdmax_fin; assumption.
Qed.
Lemma finite_numBox3 : forall b, finiteBox3 b -> numBox3 b.
Proof.
  intros b ((A1 & A2 & A3) & (A4 & A5 & A6)). unfold numBox3, num3.
  repeat split; apply fin_num; assumption.
Qed.

Section Collect.
  Variable p : path.
  Variable items : Z -> outcome (list (aabb f32)).
  Variable addPrim : aabb f32 -> Z -> outcome (aabb f32).
  Hypothesis Hadd : forall b q, addPrim b q = omap (fun l => extendAll p b l) (items q).
  Hypothesis Hfin : forall q it, items q = Ok it -> Forall finiteBox3 it.
  Variables (root : aabb f32) (n : Z).
  Hypothesis Hn : 1 <= n <= 2 ^ 31.
  Hypothesis Hroot : finiteBox3 root.

  Lemma Hnum : forall q it, items q = Ok it -> Forall numBox3 it.
  Proof. intros q it E. eapply Forall_impl; [exact finite_numBox3|eauto]. Qed.

  Lemma node_finite : forall nodes prims t id nd, finished emptyBox addPrim root n nodes prims t ->
    at_ nodes id nd -> finiteBox3 (nbox nd).
  Proof.
    intros nodes prims t id nd HF Ha. assert (Hb := at_bound _ _ _ _ Ha).
    destruct (Z.eq_dec id 0) as [->|Hid].
    - destruct (finished_boxes _ _ _ _ Hn _ _ _ HF) as (H0 & _). rewrite (H0 _ Ha). exact Hroot.
    - destruct (box_below p items addPrim Hadd Hnum root n Hn _ _ _ id nd HF ltac:(lia) Ha) as (l & -> & HI & _).
      apply extendAll_finite; [exact finiteBox3_empty|]. apply Forall_forall. intros o Ho. apply HI in Ho.
      destruct Ho as (k & q & it & _ & _ & E & Hin). specialize (Hfin _ _ E). rewrite Forall_forall in Hfin. auto.
  Qed.

  Theorem collect_visible : forall nodes prims t planes cap k q pt,
    finished emptyBox addPrim root n nodes prims t -> n <= cap ->
    Forall finite4 planes -> finite3 pt ->
    at_ prims k q ->
    (forall id nd, under nodes id k -> at_ nodes id nd -> inBox (nbox nd) pt) ->
    (forall pl, In pl planes -> slt (planeDistance p pl pt) f0 = false) ->
    exists out, collectInFrustum nodes prims cap (isBehindFrustum p planes) = Ok out /\ In q out.
  Proof.
    intros nodes prims t planes cap k q pt HF Hcap Hpl Hpt Hk Hin Hvis.
    destruct (finished_collect _ _ _ _ Hn _ _ _ (isBehindFrustum p planes) cap HF Hcap) as (out & Eo & (_ & HC) & _).
    exists out. split; [exact Eo|]. apply HC.
    set (accept := fun nd : node (aabb f32) => negb (isBehindFrustum p planes (nbox nd))) in *.
    assert (Hacc : forall id nd, under nodes id k -> at_ nodes id nd -> accept nd = true).
    { intros id nd Hu Ha. unfold accept. apply negb_true_iff.
      destruct (isBehindFrustum p planes (nbox nd)) eqn:E; [|reflexivity]. exfalso.
      destruct (isBehindFrustum_F32 p planes (nbox nd) pt Hpl (node_finite _ _ _ _ _ HF Ha) Hpt (Hin _ _ Hu Ha) E)
        as (pl & Hp & Hs). rewrite (Hvis pl Hp) in Hs. discriminate. }
    destruct (finished_permutation _ _ _ _ Hn _ _ _ HF) as (HPl & _ & _).
    assert (HT := finished_tree _ _ _ _ _ _ _ HF). destruct HT as (HN & _ & Hlt & _).
    assert (HF' := HF). destruct HF' as (P & W & R0 & PI & LN).
    assert (Hkn := at_bound _ _ _ _ Hk).
    assert (Hu0 : under nodes 0 k).
    { rewrite <- R0. eapply range_under; [exact W|lia]. }
    destruct (at_exists _ nodes 0 ltac:(lia)) as (nd0 & Ha0).
    destruct (visited_leaf nodes accept k 0 Hu0 Hacc) as (id & f & c & V & L & Hr).
    - intros id' left Hi. destruct (Hlt _ _ Hi) as (H1 & H2). destruct Hi as (x & Hx & _).
      apply at_bound in Hx. split; apply at_exists; lia.
    - eapply visited_root; [exact Ha0|]. eapply Hacc; eassumption.
    - exists id, f, c, k. auto.
  Qed.
End Collect.

Theorem collectBoxes_visible : forall p boxes root given nodes prims planes cap q o pt,
  1 <= Z.of_nat (length boxes) <= 2 ^ 31 -> Forall finiteBox3 boxes -> finiteBox3 root ->
  recreateBoxes p boxes root given = Ok (nodes, prims) ->
  Z.of_nat (length boxes) <= cap -> Forall finite4 planes ->
  at_ boxes q o -> cornersInside root o ->
  finite3 pt -> inBox o pt -> (forall pl, In pl planes -> slt (planeDistance p pl pt) f0 = false) ->
  exists out, collectInFrustum nodes prims cap (isBehindFrustum p planes) = Ok out /\ In q out.
Proof.
  intros p boxes root given nodes prims planes cap q o pt Hn Hfin Hroot HR Hcap Hpl Ho Hro Hpt Hin Hvis.
  destruct (recreateBoxes_finished _ _ _ _ _ _ Hn HR) as (t & HF).
  destruct (finished_permutation _ _ _ _ Hn _ _ _ HF) as (HPl & _ & HPi).
  assert (Hq : In q prims) by (apply HPi; eapply at_bound, Ho).
  apply In_at in Hq. destruct Hq as (k & Hk).
  assert (HnumB : Forall numBox3 boxes) by (eapply Forall_impl; [exact finite_numBox3|exact Hfin]).
  destruct (recreateBoxes_boxes p boxes root given nodes prims Hn HnumB HR) as (B0 & B1 & _).
  apply collect_visible with (items := boxItems boxes) (addPrim := addBox p boxes) (root := root)
    (n := Z.of_nat (length boxes)) (t := t) (k := k) (pt := pt); try assumption.
  - apply addBox_items.
  - intros q' it E. unfold boxItems in E. destruct (readAt boxes q') as [o'| | |] eqn:Er; try discriminate.
    injection E as <-. constructor; [|constructor]. apply readAt_Ok in Er. rewrite Forall_forall in Hfin.
    apply Hfin, In_at. eauto.
  - intros id nd Hu Ha.
    assert (Hc : cornersInside (nbox nd) o).
    { destruct (Z.eq_dec id 0) as [->|Hid]; [rewrite (B0 _ Ha); exact Hro|].
      assert (Hb := at_bound _ _ _ _ Ha). eapply B1; try eassumption. lia. }
    unfold inBox, in3, cornersInside in *. lra.
Qed.

Lemma triItems_finite : forall im vm vs is q it,
  (forall o v, vm o = Ok v -> fin (x3 v) /\ fin (y3 v) /\ fin (z3 v)) ->
  triItems im vm vs is q = Ok it -> Forall finiteBox3 it.
Proof.
  intros im vm vs is q it Hv E.
  assert (V : forall j v, vertexOf im vm vs is q j = Ok v -> finiteBox3 (pointBox v)).
  { intros j v Ev. unfold vertexOf in Ev. cbv zeta in Ev.
    destruct (bind_Ok _ _ _ _ _ Ev) as (i & _ & Ev'). destruct (bind_Ok _ _ _ _ _ Ev') as (w & Ew & Ev'').
    injection Ev'' as <-. apply Hv in Ew. unfold finiteBox3, finite3. cbn. tauto. }
  unfold triItems in E.
  destruct (bind_Ok _ _ _ _ _ E) as (v0 & E0 & E'). clear E.
  destruct (bind_Ok _ _ _ _ _ E') as (v1 & E1 & E). clear E'.
  destruct (bind_Ok _ _ _ _ _ E) as (v2 & E2 & E'). clear E. injection E' as <-.
  repeat constructor; eapply V; eassumption.
Qed.

Theorem collectTriangles_visible : forall p im vm root ic vs is given nodes prims planes cap q a b c pt,
  1 <= ic / 3 <= 2 ^ 31 -> offsetsFit im (ic / 3) vs is ->
  (forall o v, vm o = Ok v -> fin (x3 v) /\ fin (y3 v) /\ fin (z3 v)) -> finiteBox3 root ->
  recreateTriangles p im vm root ic vs is given = Ok (nodes, prims) ->
  ic / 3 <= cap -> Forall finite4 planes -> 0 <= q < ic / 3 ->
  triVertex im vm vs is q 0 a -> triVertex im vm vs is q 1 b -> triVertex im vm vs is q 2 c ->
  (forall v, v = a \/ v = b \/ v = c -> inBox root (V4 (x3 v) (y3 v) (z3 v) f0)) ->
  finite3 pt -> inHull a b c pt -> (forall pl, In pl planes -> slt (planeDistance p pl pt) f0 = false) ->
  exists out, collectInFrustum nodes prims cap (isBehindFrustum p planes) = Ok out /\ In q out.
Proof.
  intros p im vm root ic vs is given nodes prims planes cap q a b c pt Hn Hoff Hv Hroot HR Hcap Hpl Hqn Va Vb Vc Hro Hpt Hh Hvis.
  destruct (recreateTriangles_finished _ _ _ _ _ _ _ _ _ _ Hn HR) as (His & t & HF).
  destruct (finished_permutation _ _ _ _ Hn _ _ _ HF) as (HPl & _ & HPi).
  assert (Hq : In q prims) by (apply HPi, Hqn).
  apply In_at in Hq. destruct Hq as (k & Hk).
  assert (HnumV : forall o v, vm o = Ok v -> num (x3 v) /\ num (y3 v) /\ num (z3 v)).
  { intros o v E. apply Hv in E. destruct E as (? & ? & ?). repeat split; apply fin_num; assumption. }
  destruct (recreateTriangles_boxes p im vm root ic vs is given nodes prims Hn Hoff HnumV HR) as (B0 & B1 & _).
  apply collect_visible with (items := triItems im vm vs is) (addPrim := addTriangle p im vm vs is) (root := root)
    (n := ic / 3) (t := t) (k := k) (pt := pt); try assumption.
  - apply addTriangle_items.
  - intros q' it E. eapply triItems_finite; eassumption.
  - intros id nd Hu Ha. apply Hh. intros v Hvv.
    destruct (Z.eq_dec id 0) as [->|Hid]; [rewrite (B0 _ Ha); apply Hro, Hvv|].
    assert (Hb := at_bound _ _ _ _ Ha).
    destruct Hvv as [->|[->| ->]]; [eapply B1 with (j := 0)|eapply B1 with (j := 1)|eapply B1 with (j := 2)];
      try eassumption; lia.
Qed.
