(** C06 (full bins), C112, C113: the split-plane search of the BVH build and the splits of the
    finished tree, in binary32. *)
From Coq Require Import ZArith List Bool Lia Reals Lra Permutation.
From Flocq Require Import Core.Core IEEE754.Binary IEEE754.Bits.
From Verif.Model Require Import Outcome Scalar Vec Simd Aabb Packed Bvh BvhSplit.
From Verif.Spec Require Import BvhSpec GeomSpec BvhGeomSpec SahSpec.
From Verif.Proofs Require Import BvhResults SahProofs SahCosts SahWitness BvhDecide.
Import ListNotations.
Local Open Scope Z_scope.

(** ** C06: the counts are right when no bin is empty and no box uses its fourth lane *)
Theorem C06_full_bins_actual : forall p boxes, Forall (fun b : aabb f32 => vw (bmax b) = f0) boxes ->
  forall cen qs a mn mx bins, Z.of_nat (length qs) < 255 * 2 ^ 23 ->
  binsOf cen (addBox p boxes) qs a mn mx bins ->
  (forall j, 0 <= j < 8 -> exists q, In q qs /\ inBin cen mn mx a j q = true) ->
  forall i, 0 <= i < 7 ->
    counters (firstn (Z.to_nat (i + 1)) bins) = Z.of_nat (length (filter (upToBin cen mn mx a i) qs)) /\
    counters (skipn (Z.to_nat (i + 1)) bins) =
      Z.of_nat (length (filter (fun q => negb (upToBin cen mn mx a i q)) qs)).
Proof. exact full_bins_count. Qed.
Print Assumptions C06_full_bins_actual.
Example C06_full_bins_actual_ex : Forall (fun b : aabb f32 => vw (bmax b) = f0) row /\ forall p,
  (exists bins, binsOf (centroidsOf row) (addBox p row) rowIds 0 (slit 1 0) (slit 15 0) bins /\
     map binCount bins = [1; 1; 1; 1; 1; 1; 1; 1]) /\
  (forall j, 0 <= j < 8 -> exists q, In q rowIds /\ inBin (centroidsOf row) (slit 1 0) (slit 15 0) 0 j q = true).
Proof. split; [repeat constructor|]. intros p. split; [apply row_bins|exact row_full]. Qed.
Theorem C06_bin_count_actual : forall p boxes, Forall (fun b : aabb f32 => vw (bmax b) = f0) boxes ->
  forall qs b, qs <> [] -> Z.of_nat (length qs) < 255 * 2 ^ 23 ->
  boxOf (addBox p boxes) qs emptyBox = Ok b -> binCount b = Z.of_nat (length qs).
Proof. exact boxOf_count. Qed.
Print Assumptions C06_bin_count_actual.
Theorem C06_counter_store : forall z, - 2 ^ 31 <= z < 2 ^ 31 -> intView (ofIntView z) = z.
Proof. exact intView_back. Qed.
Print Assumptions C06_counter_store.
Theorem C06_counter_range : forall x : f32, - 2 ^ 31 <= intView x < 2 ^ 31 /\ (intView x - bits_of_b32 x) mod 2 ^ 32 = 0.
Proof. exact intView_range. Qed.
Print Assumptions C06_counter_range.
Example C06_counter_ex : intView (ofIntView (-5)) = -5 /\ intView (slit 1 0) = 1065353216.
Proof. split; vm_compute; reflexivity. Qed.

(** ** C112 *)
Theorem C112_search_best : forall p cen add prims first last r,
  0 <= first <= last -> last <= Z.of_nat (length prims) -> Z.of_nat (length prims) < 2 ^ 32 ->
  findBestSplitPlane p cen add first last prims = Ok r ->
  bestOf p cen add (entries prims first (last - first)) r.
Proof. exact search_best. Qed.
Print Assumptions C112_search_best.
(** the plane x = 8 of cost 288 = 4 (8*2 + 8*2 + 2*2) + 4 (8*2 + 8*2 + 2*2) *)
Example C112_search_best_ex : forall p,
  planeBits (findBestSplitPlane p (centroidsOf row) (addBox p row) 0 8 rowIds) =
  Some (0, bits_of_b32 (slit 8 0), bits_of_b32 (slit 288 0)).
Proof. intros []; vm_compute; reflexivity. Qed.

Theorem C112_bounds : forall vs : list f32, vs <> [] -> Forall (fun v : f32 => is_finite 24 128 v = true) vs ->
  (In (least vs) vs /\ forall v, In v vs -> (B2R 24 128 (least vs) <= B2R 24 128 v)%R) /\
  (In (greatest vs) vs /\ forall v, In v vs -> (B2R 24 128 v <= B2R 24 128 (greatest vs))%R).
Proof. exact bounds_exact. Qed.
Print Assumptions C112_bounds.
Example C112_bounds_ex : let vs := [slit 3 0; slit (-7) 0; slit 5 0] : list f32 in
  vs <> [] /\ Forall (fun v : f32 => is_finite 24 128 v = true) vs /\
  bits_of_b32 (least vs) = bits_of_b32 (slit (-7) 0) /\ bits_of_b32 (greatest vs) = bits_of_b32 (slit 5 0).
Proof. split; [discriminate|]. split; [repeat constructor|]. split; vm_compute; reflexivity. Qed.

Theorem C112_area : forall p b, boundedBox b ->
  let '(X, Y, Z) := extents b in
  let E := (X * Y + X * Z + Y * Z)%R in
  is_finite 24 128 (calcAreaHalf p b) = true /\
  (Rabs (B2R 24 128 (calcAreaHalf p b) - E) <= bpow radix2 (-21) * E + bpow radix2 (-148))%R.
Proof. exact area_accuracy. Qed.
Print Assumptions C112_area.
Example C112_area_ex : (boundedBox exRoot /\ (let '(X, Y, Z) := extents exRoot in X * Y + X * Z + Y * Z)%R = 43%R) /\
  forall p, bits_of_b32 (calcAreaHalf p exRoot) = bits_of_b32 (slit 43 0).
Proof. split; [exact exRoot_bounded|]. intros []; vm_compute; reflexivity. Qed.

Theorem C112_node_cost : forall p b n, boundedBox b ->
  (forall x, x = vx (bmin b) \/ x = vy (bmin b) \/ x = vz (bmin b) \/
             x = vx (bmax b) \/ x = vy (bmax b) \/ x = vz (bmax b) ->
     (Rabs (B2R 24 128 x) <= bpow radix2 40)%R) ->
  1 <= n < 2 ^ 32 ->
  let '(X, Y, Z) := extents b in
  let E := (X * Y + X * Z + Y * Z)%R in
  is_finite 24 128 (nodeCostF p b n) = true /\
  (Rabs (B2R 24 128 (nodeCostF p b n) - E * IZR n) <= bpow radix2 (-20) * (E * IZR n) + bpow radix2 (-147) * IZR n)%R.
Proof. exact nodeCost_accuracy. Qed.
Print Assumptions C112_node_cost.
Example C112_node_cost_ex : forall p, bits_of_b32 (nodeCostF p exRoot 4) = bits_of_b32 (slit 172 0).
Proof. intros []; vm_compute; reflexivity. Qed.

Theorem C112_triangle_centroid : forall im vm vs is n q a b c,
  0 <= q < n -> offsetsFit im n vs is -> 1 <= is ->
  triVertex im vm vs is q 0 a -> triVertex im vm vs is q 1 b -> triVertex im vm vs is q 2 c ->
  (forall x, x = x3 a \/ x = y3 a \/ x = z3 a \/ x = x3 b \/ x = y3 b \/ x = z3 b \/
             x = x3 c \/ x = y3 c \/ x = z3 c ->
     is_finite 24 128 x = true /\ (Rabs (B2R 24 128 x) <= bpow radix2 120)%R) ->
  exists m, triangleCentroid im vm vs is q = Ok m /\
    meanOf (x3 a) (x3 b) (x3 c) (vx m) /\ meanOf (y3 a) (y3 b) (y3 c) (vy m) /\ meanOf (z3 a) (z3 b) (z3 c) (vz m).
Proof. exact triangle_centroid. Qed.
Print Assumptions C112_triangle_centroid.
Example C112_triangle_centroid_ex :
  match triangleCentroid exIndex exVertex 12 2 1 with
  | Ok m => (bits_of_b32 (vx m), bits_of_b32 (vz m)) = (bits_of_b32 (slit 10 0 / slit 3 0)%sc + 1, bits_of_b32 (slit 1 0))
  | _ => False
  end.
Proof. vm_compute. reflexivity. Qed.

(** ** C113 *)
Theorem C113_boxes : forall p boxes root given nodes prims,
  1 <= Z.of_nat (length boxes) <= 2 ^ 31 -> recreateBoxes p boxes root given = Ok (nodes, prims) ->
  sahTree p (boxCentroids boxes given) (addBox p boxes) nodes prims.
Proof. exact recreateBoxes_sah. Qed.
Print Assumptions C113_boxes.
Example C113_boxes_ex : forall p,
  shape (recreateBoxes p row (ibox 0 0 0 16 2 2) None) =
  Some ([(1, 0); (3, 0); (7, 0); (0, 1); (5, 0); (1, 1); (2, 2); (4, 1); (9, 0); (5, 1); (6, 2)],
        [0; 1; 3; 2; 4; 5; 6; 7]).
Proof. intros []; vm_compute; reflexivity. Qed.
Theorem C113_triangles : forall p im vm root ic vs is given nodes prims,
  1 <= ic / 3 <= 2 ^ 31 -> recreateTriangles p im vm root ic vs is given = Ok (nodes, prims) ->
  sahTree p (triCentroids im vm vs is given) (addTriangle p im vm vs is) nodes prims.
Proof. exact recreateTriangles_sah. Qed.
Print Assumptions C113_triangles.
Example C113_triangles_ex :
  shape (recreateTriangles SSE41 exIndex exVertex (ibox 0 0 0 9 9 3) 6 12 2 None) = Some ([(0, 2)], [0; 1]).
Proof. vm_compute. reflexivity. Qed.
