(** C01 - C10: the bounding volume hierarchy. *)
From Coq Require Import ZArith List Bool Lia Reals Lra.
From Flocq Require Import IEEE754.Binary IEEE754.Bits.
From Verif.Model Require Import Outcome Scalar Vec Simd Aabb Packed Bvh BvhSplit.
From Verif.Spec Require Import BvhSpec GeomSpec BvhGeomSpec.
From Verif.Proofs Require Import OrdScalar BvhLoops BvhBuild BvhBoxes BvhFrustum BvhResults.
Import ListNotations.
Local Open Scope Z_scope.

(** ** C01 *)
Theorem C01_leaves_partition : forall p n nodes prims, 1 <= n <= 2 ^ 31 -> built p n nodes prims ->
  isPermutationOfFirst prims n /\ leavesPartition nodes n.
Proof. exact built_partition. Qed.
Print Assumptions C01_leaves_partition.
Example C01_leaves_partition_ex : exists nodes, built SSE41 4 nodes [0; 1; 3; 2] /\
  map (fun nd => (nlink nd, ncount nd)) nodes = [(1, 0); (0, 1); (3, 0); (1, 1); (2, 2)].
Proof. exact exBuilt. Qed.

(** ** C02 *)
Theorem C02_full_binary_tree : forall p n nodes prims, 1 <= n <= 2 ^ 31 -> built p n nodes prims ->
  fullBinaryTree nodes n.
Proof. exact built_tree. Qed.
Print Assumptions C02_full_binary_tree.
Example C02_full_binary_tree_ex :
  shape (recreateTriangles SSE41 exIndex exVertex (ibox 0 0 0 9 9 3) 6 12 2 None) = Some ([(0, 2)], [0; 1]).
Proof. vm_compute. reflexivity. Qed.

(** ** C03 *)
Theorem C03_box_overload : forall p boxes root given nodes prims,
  1 <= Z.of_nat (length boxes) <= 2 ^ 31 -> Forall numBox3 boxes ->
  recreateBoxes p boxes root given = Ok (nodes, prims) ->
  (forall nd, at_ nodes 0 nd -> nbox nd = root) /\
  (forall id nd k q o, 1 <= id -> at_ nodes id nd -> under nodes id k -> at_ prims k q -> at_ boxes q o ->
     cornersInside (nbox nd) o) /\
  (forall id nd left child ch, 1 <= id -> at_ nodes id nd -> innerAt nodes id left ->
     child = left \/ child = left + 1 -> at_ nodes child ch -> cornersInside (nbox nd) (nbox ch)).
Proof. exact recreateBoxes_boxes. Qed.
Print Assumptions C03_box_overload.
Example C03_box_overload_ex :
  Forall numBox3 exBoxes /\ Forall finiteBox3 exBoxes /\
  shape (recreateBoxes GEN exBoxes exRoot None) = Some ([(1, 0); (0, 1); (3, 0); (1, 1); (2, 2)], [0; 1; 3; 2]).
Proof.
  split; [|split].
  - repeat constructor.
  - repeat constructor.
  - vm_compute. reflexivity.
Qed.

(** no smaller box would do *)
Theorem C03_box_overload_tight : forall p boxes root given nodes prims,
  1 <= Z.of_nat (length boxes) <= 2 ^ 31 -> Forall finiteBox3 boxes ->
  recreateBoxes p boxes root given = Ok (nodes, prims) ->
  forall id nd c, 1 <= id -> at_ nodes id nd ->
  (forall k q o, under nodes id k -> at_ prims k q -> at_ boxes q o -> cornersInside c o) ->
  cornersInside c (nbox nd).
Proof. exact recreateBoxes_least. Qed.
Print Assumptions C03_box_overload_tight.

Theorem C03_triangle_overload : forall p im vm root ic vs is given nodes prims,
  1 <= ic / 3 <= 2 ^ 31 -> offsetsFit im (ic / 3) vs is ->
  (forall o v, vm o = Ok v -> num (x3 v) /\ num (y3 v) /\ num (z3 v)) ->
  recreateTriangles p im vm root ic vs is given = Ok (nodes, prims) ->
  (forall nd, at_ nodes 0 nd -> nbox nd = root) /\
  (forall id nd k q j v, 1 <= id -> at_ nodes id nd -> under nodes id k -> at_ prims k q ->
     0 <= j < 3 -> triVertex im vm vs is q j v -> inBox (nbox nd) (V4 (x3 v) (y3 v) (z3 v) f0)) /\
  (forall id nd left child ch, 1 <= id -> at_ nodes id nd -> innerAt nodes id left ->
     child = left \/ child = left + 1 -> at_ nodes child ch -> cornersInside (nbox nd) (nbox ch)).
Proof. exact recreateTriangles_boxes. Qed.
Print Assumptions C03_triangle_overload.
Example C03_triangle_overload_ex :
  shape (recreateTriangles GEN exIndex exVertex (ibox 0 0 0 9 9 3) 6 12 2 None) = Some ([(0, 2)], [0; 1]) /\
  triVertex exIndex exVertex 12 2 1 2 (V3 (i32 9) (i32 9) (i32 3)) /\ offsetsFit exIndex (6 / 3) 12 2.
Proof.
  split; [vm_compute; reflexivity|]. split.
  - exists 3. split; reflexivity.
  - split; [vm_compute; discriminate|]. intros o i H.
    unfold exIndex, readAt in H. destruct (inRange _ _); [|discriminate].
    destruct (Z.to_nat (o / 2)) as [|[|[|[|[|[|?]]]]]]; cbn in H; try discriminate; try (injection H as <-; lia).
    destruct n; discriminate.
Qed.

(** ** C04 *)
Theorem C04_build_terminates : forall (F : Type) (S : Scalar F) (B : Type)
  (centroid : Z -> Z -> outcome F) (findSplit : Z -> Z -> list Z -> outcome (Z * F * F))
  (nodeCost : B -> Z -> F) (boxInit : B) (boxAdd : B -> Z -> outcome B) (root : B) (n : Z),
  1 <= n <= 2 ^ 31 ->
  (forall q axis, 0 <= q < n -> 0 <= axis < 3 -> exists c, centroid q axis = Ok c) ->
  (forall b q, 0 <= q < n -> exists b', boxAdd b q = Ok b') ->
  splitsSeparate centroid findSplit nodeCost boxInit boxAdd root n ->
  exists nodes prims,
    recreate centroid findSplit nodeCost boxInit boxAdd root n = Ok (nodes, prims).
Proof. exact @recreate_total. Qed.
Print Assumptions C04_build_terminates.
Example C04_build_terminates_ex : forall n, 1 <= n ->
  splitsSeparate (S := ScalarR) (fun q _ => Ok (IZR q)) exSplit (fun _ _ => 1%R) tt (fun _ _ => Ok tt) tt n.
Proof. exact exSplit_separates. Qed.

(** ** C05 *)
Theorem C05_memory_safe_refuted : exists boxes root,
  Forall finiteBox3 boxes /\ (forall b, In b boxes -> cornersInside root b) /\
  (1 <= length boxes)%nat /\
  forall p, recreateBoxes p boxes root None = UB.
Proof. exact badBuild_spec. Qed.
Print Assumptions C05_memory_safe_refuted.

(** ** C06 *)
Theorem C06_split_count_refuted : exists boxes,
  Forall finiteBox3 boxes /\ forall p,
  (exists axis split cost,
     findBestSplitPlane p (centroidsOf boxes) (addBox p boxes) 0 2 [0; 1] = Ok (axis, split, cost) /\
     (ext cost < 0)%R) /\
  (forall b, In b boxes -> (0 <= ext (calcAreaHalf p b))%R).
Proof. exact badCost_spec. Qed.
Print Assumptions C06_split_count_refuted.

Theorem C06_empty_bin_counts : forall p, binCount (emptyBox) = - 8388609 /\
  exists bins, binLoop (centroidsOf exBoxes) (addBox p exBoxes) [0; 1; 2; 3] 0 0 4 (slit 1 (-1))
                 (slit 8 0 / slit 9 0)%sc (repeat emptyBox 8) = Ok bins /\
               map binCount bins = [1; 1; -8388609; -8388609; 1; -8388609; -8388609; 1].
Proof. exact binCounts_spec. Qed.
Print Assumptions C06_empty_bin_counts.

(** ** C07 *)
Theorem C07_traverse : forall p n nodes prims accept, 1 <= n <= 2 ^ 31 -> built p n nodes prims ->
  exists calls, traverse nodes accept = Ok calls /\ callsAreAcceptedLeaves nodes accept calls.
Proof. exact built_traverse. Qed.
Print Assumptions C07_traverse.
Example C07_traverse_ex :
  match recreateBoxes SSE41 exBoxes exRoot None with
  | Ok (nodes, _) => traverse nodes (fun nd => negb (nlink nd =? 1) || (ncount nd =? 0))
  | _ => UB
  end = Ok [(0, 1); (2, 2)].
Proof. vm_compute. reflexivity. Qed.

(** ** C08 *)
Theorem C08_collect_exact : forall p n nodes prims behind cap, 1 <= n <= 2 ^ 31 -> built p n nodes prims -> n <= cap ->
  exists out, collectInFrustum nodes prims cap behind = Ok out /\
    collectedExactly nodes prims (fun nd => negb (behind (nbox nd))) out /\ Z.of_nat (length out) <= n.
Proof. exact built_collect. Qed.
Print Assumptions C08_collect_exact.
Example C08_collect_exact_ex :
  (* one plane x <= 5.5 *)
  match recreateBoxes SSE41 exBoxes exRoot None with
  | Ok (nodes, prims) =>
      collectInFrustum nodes prims 4 (isBehindFrustum SSE41 [V4 (- f1)%sc f0 f0 (slit 11 (-1))])
  | _ => UB
  end = Ok [0; 1; 3; 2] /\
  (* one plane x <= 1.5 *)
  match recreateBoxes SSE41 exBoxes exRoot None with
  | Ok (nodes, prims) =>
      collectInFrustum nodes prims 4 (isBehindFrustum SSE41 [V4 (- f1)%sc f0 f0 (slit 3 (-1))])
  | _ => UB
  end = Ok [0].
Proof. split; vm_compute; reflexivity. Qed.

(** ** C09 *)
Theorem C09_boxes_never_dropped : forall p boxes root given nodes prims planes cap q o pt,
  1 <= Z.of_nat (length boxes) <= 2 ^ 31 -> Forall finiteBox3 boxes -> finiteBox3 root ->
  recreateBoxes p boxes root given = Ok (nodes, prims) ->
  Z.of_nat (length boxes) <= cap -> Forall finite4 planes ->
  at_ boxes q o -> cornersInside root o ->
  finite3 pt -> inBox o pt -> (forall pl, In pl planes -> slt (planeDistance p pl pt) f0 = false) ->
  exists out, collectInFrustum nodes prims cap (isBehindFrustum p planes) = Ok out /\ In q out.
Proof. exact collectBoxes_visible. Qed.
Print Assumptions C09_boxes_never_dropped.
Example C09_boxes_never_dropped_ex :
  let pl := V4 (- f1)%sc f0 f0 (slit 3 (-1)) in
  let pt := V4 f1 f1 f1 f1 in
  at_ exBoxes 0 (ibox 0 0 0 1 1 1) /\ finite4 pl /\ slt (planeDistance SSE41 pl pt) f0 = false /\
  finite3 pt /\ finiteBox3 exRoot.
Proof. repeat split; cbn; lia. Qed.

Theorem C09_triangles_never_dropped : forall p im vm root ic vs is given nodes prims planes cap q a b c pt,
  1 <= ic / 3 <= 2 ^ 31 -> offsetsFit im (ic / 3) vs is ->
  (forall o v, vm o = Ok v -> is_finite 24 128 (x3 v) = true /\ is_finite 24 128 (y3 v) = true /\
                              is_finite 24 128 (z3 v) = true) ->
  finiteBox3 root ->
  recreateTriangles p im vm root ic vs is given = Ok (nodes, prims) ->
  ic / 3 <= cap -> Forall finite4 planes -> 0 <= q < ic / 3 ->
  triVertex im vm vs is q 0 a -> triVertex im vm vs is q 1 b -> triVertex im vm vs is q 2 c ->
  (forall v, v = a \/ v = b \/ v = c -> inBox root (V4 (x3 v) (y3 v) (z3 v) f0)) ->
  finite3 pt -> inHull a b c pt -> (forall pl, In pl planes -> slt (planeDistance p pl pt) f0 = false) ->
  exists out, collectInFrustum nodes prims cap (isBehindFrustum p planes) = Ok out /\ In q out.
Proof. exact collectTriangles_visible. Qed.
Print Assumptions C09_triangles_never_dropped.

(** ** C10 *)
Theorem C10_zero_primitives_refuted : nodeArraySize (2 / 3) = 4294967295 /\
  nodeArraySize (Z.of_nat (length (@nil (aabb f32)))) = 4294967295.
Proof. exact nodeArraySize_zero. Qed.
Print Assumptions C10_zero_primitives_refuted.
Theorem C10_node_array_size : forall n, 1 <= n <= 2 ^ 31 -> nodeArraySize n = 2 * n - 1.
Proof. exact nodeArraySize_pos. Qed.
Print Assumptions C10_node_array_size.
