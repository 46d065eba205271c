(** C01, C02, C07, C08 for the two overloads of Bvh::recreate, and the counterexamples. *)
From Coq Require Import ZArith List Lia Bool Reals Lra.
From Flocq Require Import Core.Core IEEE754.BinarySingleNaN IEEE754.Binary IEEE754.Bits.
From Verif.Model Require Import Outcome Scalar Vec Simd Aabb Packed Bvh BvhSplit.
From Verif.Spec Require Import BvhSpec GeomSpec BvhGeomSpec.
From Verif.Proofs Require Import OrdScalar ArrayLemmas BvhLoops BvhTree BvhBuild BvhArrays AabbOrder
  F32Round Frustum BvhBoxes.
Import ListNotations.
Local Open Scope Z_scope.

Lemma built_finished : forall p n nodes prims, 1 <= n <= 2 ^ 31 -> built p n nodes prims ->
  exists add root t, finished emptyBox add root n nodes prims t.
Proof.
  intros p n nodes prims Hn [(boxes & root & given & -> & H)|(im & vm & root & ic & vs & is & given & -> & H)].
  - destruct (recreateBoxes_finished _ _ _ _ _ _ Hn H) as (t & HF). eauto.
  - destruct (recreateTriangles_finished _ _ _ _ _ _ _ _ _ _ Hn H) as (_ & t & HF). eauto.
Qed.

Theorem built_partition : forall p n nodes prims, 1 <= n <= 2 ^ 31 -> built p n nodes prims ->
  isPermutationOfFirst prims n /\ leavesPartition nodes n.
Proof.
  intros p n nodes prims Hn H. destruct (built_finished _ _ _ _ Hn H) as (add & root & t & HF).
  split; [eapply finished_permutation|eapply finished_leaves]; eassumption.
Qed.
Theorem built_tree : forall p n nodes prims, 1 <= n <= 2 ^ 31 -> built p n nodes prims ->
  fullBinaryTree nodes n.
Proof.
  intros p n nodes prims Hn H. destruct (built_finished _ _ _ _ Hn H) as (add & root & t & HF).
  eapply finished_tree; eassumption.
Qed.
Theorem built_traverse : forall p n nodes prims accept, 1 <= n <= 2 ^ 31 -> built p n nodes prims ->
  exists calls, traverse nodes accept = Ok calls /\ callsAreAcceptedLeaves nodes accept calls.
Proof.
  intros p n nodes prims accept Hn H. destruct (built_finished _ _ _ _ Hn H) as (add & root & t & HF).
  eapply finished_traverse; eassumption.
Qed.
Theorem built_collect : forall p n nodes prims behind cap, 1 <= n <= 2 ^ 31 -> built p n nodes prims -> n <= cap ->
  exists out, collectInFrustum nodes prims cap behind = Ok out /\
    collectedExactly nodes prims (fun nd => negb (behind (nbox nd))) out /\ Z.of_nat (length out) <= n.
Proof.
  intros p n nodes prims behind cap Hn H Hc. destruct (built_finished _ _ _ _ Hn H) as (add & root & t & HF).
  eapply finished_collect; eassumption.
Qed.

(** ** Examples and counterexamples *)
Definition i32 (z : Z) : f32 := slit z 0.
Definition mkb (a b c d e f : f32) : aabb f32 := mkAabb (V4 a b c f0) (V4 d e f f0).
Definition ibox (a b c d e f : Z) : aabb f32 := mkb (i32 a) (i32 b) (i32 c) (i32 d) (i32 e) (i32 f).

(** four boxes giving a tree of five nodes *)
Definition exBoxes : list (aabb f32) :=
  [ibox 0 0 0 1 1 1; ibox 2 0 0 3 1 1; ibox 5 0 1 6 1 3; ibox 9 0 0 10 1 1].
Definition exRoot : aabb f32 := ibox 0 0 0 10 1 3.
Definition shape (r : outcome (list (node (aabb f32)) * list Z)) : option (list (Z * Z) * list Z) :=
  match r with Ok (nodes, prims) => Some (map (fun nd => (nlink nd, ncount nd)) nodes, prims) | _ => None end.
Lemma exShape : shape (recreateBoxes SSE41 exBoxes exRoot None) =
  Some ([(1, 0); (0, 1); (3, 0); (1, 1); (2, 2)], [0; 1; 3; 2]).
Proof. vm_compute. reflexivity. Qed.

(** two triangles: indices 0 1 2 1 2 3 (two bytes each), vertices twelve bytes apart *)
Definition exIndex (o : Z) : outcome Z := readAt [0; 1; 2; 1; 2; 3] (o / 2).
Definition exVertex (o : Z) : outcome (vec3 f32) :=
  readAt [V3 (i32 0) (i32 0) (i32 0); V3 (i32 1) (i32 0) (i32 0); V3 (i32 0) (i32 1) (i32 0);
          V3 (i32 9) (i32 9) (i32 3)] (o / 12).

(** boxes one ulp apart: the split plane rounds onto the smaller centroid *)
Definition e1 : f32 := slit 8388609 (-23).
Definition badBoxes : list (aabb f32) :=
  [ibox 1 0 0 1 1 1; mkb e1 (i32 0) (i32 0) e1 (i32 2) (i32 2)].
Definition badRoot : aabb f32 := mkb (i32 1) (i32 0) (i32 0) e1 (i32 2) (i32 2).
Lemma badBuild : forall p, recreateBoxes p badBoxes badRoot None = UB.
Proof. intros []; vm_compute; reflexivity. Qed.

Definition centroidsOf (boxes : list (aabb f32)) (q : Z) : outcome (vec4 f32) :=
  omap (fun b => getPosition b) (readAt boxes q).

Lemma ext_le_i32 : forall a b, sle (a : f32) b = true -> num a -> num b -> (ext a <= ext b)%R.
Proof. intros a b H Ha Hb. apply sle_iff in H; assumption. Qed.

Lemma badBuild_spec : exists boxes root,
  Forall finiteBox3 boxes /\ (forall b, In b boxes -> cornersInside root b) /\
  (1 <= length boxes)%nat /\
  forall p, recreateBoxes p boxes root None = UB.
Proof.
  exists badBoxes, badRoot. split; [repeat constructor|]. split.
  - intros b [<-|[<-|[]]]; repeat split; apply ext_le_i32; vm_compute; reflexivity.
  - split; [cbn; lia|]. exact badBuild.
Qed.

Lemma badCost_spec : exists boxes,
  Forall finiteBox3 boxes /\ forall p,
  (exists axis split cost,
     findBestSplitPlane p (centroidsOf boxes) (addBox p boxes) 0 2 [0; 1] = Ok (axis, split, cost) /\
     (ext cost < 0)%R) /\
  (forall b, In b boxes -> (0 <= ext (calcAreaHalf p b))%R).
Proof.
  exists badBoxes. split; [repeat constructor|]. intros p. split.
  - assert (H : match findBestSplitPlane p (centroidsOf badBoxes) (addBox p badBoxes) 0 2 [0; 1] with
                | Ok (axis, split, cost) => slt cost f0 = true | _ => False end)
      by (destruct p; vm_compute; reflexivity).
    destruct (findBestSplitPlane p (centroidsOf badBoxes) (addBox p badBoxes) 0 2 [0; 1]) as [[[axis split] cost]| | |];
      try contradiction.
    exists axis, split, cost. split; [reflexivity|]. apply slt_num in H. rewrite ext_f0 in H. apply H.
  - intros b Hb. rewrite <- ext_f0. apply ext_le_i32; destruct Hb as [<-|[<-|[]]]; destruct p; vm_compute; reflexivity.
Qed.

Lemma binCounts_spec : forall p, binCount (emptyBox) = - 8388609 /\
  exists bins, binLoop (centroidsOf exBoxes) (addBox p exBoxes) [0; 1; 2; 3] 0 0 4 (slit 1 (-1))
                 (slit 8 0 / slit 9 0)%sc (repeat emptyBox 8) = Ok bins /\
               map binCount bins = [1; 1; -8388609; -8388609; 1; -8388609; -8388609; 1].
Proof.
  intros p. split; [vm_compute; reflexivity|].
  assert (H : match binLoop (centroidsOf exBoxes) (addBox p exBoxes) [0; 1; 2; 3] 0 0 4 (slit 1 (-1))
                 (slit 8 0 / slit 9 0)%sc (repeat emptyBox 8) with
              | Ok bins => map binCount bins = [1; 1; -8388609; -8388609; 1; -8388609; -8388609; 1] | _ => False end)
    by (destruct p; vm_compute; reflexivity).
  destruct (binLoop _ _ _ _ _ _ _ _ _) as [bins| | |]; try contradiction. eauto.
Qed.

Lemma nodeArraySize_zero : nodeArraySize (2 / 3) = 4294967295 /\
  nodeArraySize (Z.of_nat (length (@nil (aabb f32)))) = 4294967295.
Proof. split; vm_compute; reflexivity. Qed.
Lemma nodeArraySize_pos : forall n, 1 <= n <= 2 ^ 31 -> nodeArraySize n = 2 * n - 1.
Proof.
  intros n Hn. unfold nodeArraySize, wrap. rewrite Zminus_mod_idemp_l. rewrite Z.mod_small by lia. lia.
Qed.

(** an instance of the premises of the termination theorem that always splits above the
    first centroid of the node *)
Definition exSplit (f l : Z) (prims : list Z) : outcome (Z * R * R) :=
  omap (fun q => (0, (IZR q + 1)%R, 0%R)) (readAt prims f).
Lemma exSplit_separates : forall n, 1 <= n ->
  splitsSeparate (S := ScalarR) (fun q _ => Ok (IZR q)) exSplit (fun _ _ => 1%R) tt (fun _ _ => Ok tt) tt n.
Proof.
  intros n Hn prims f c b P Hf Hc Hfc _.
  destruct (at_exists _ prims f) as (q & Hq).
  { rewrite <- (Permutation.Permutation_length P), iota_length by lia. lia. }
  exists 0, (IZR q + 1)%R, 0%R. split.
  - unfold exSplit. apply readAt_Ok in Hq. rewrite Hq. reflexivity.
  - split; [lia|]. right. right. exists f, q. split; [lia|]. split; [exact Hq|].
    exists (IZR q). split; [reflexivity|]. cbn. apply Rlt_bool_true. lra.
Qed.

Lemma shape_Ok : forall r l ps, shape r = Some (l, ps) ->
  exists nodes, r = Ok (nodes, ps) /\ map (fun nd => (nlink nd, ncount nd)) nodes = l.
Proof. intros [[nodes prims]| | |] l ps H; try discriminate. cbn in H. injection H as <- <-. eauto. Qed.
Lemma exBuilt : exists nodes, built SSE41 4 nodes [0; 1; 3; 2] /\
  map (fun nd => (nlink nd, ncount nd)) nodes = [(1, 0); (0, 1); (3, 0); (1, 1); (2, 2)].
Proof.
  destruct (shape_Ok _ _ _ exShape) as (nodes & E & H). exists nodes. split; [|exact H].
  left. exists exBoxes, exRoot, None. split; [reflexivity|exact E].
Qed.
