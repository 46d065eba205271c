(** C140 and C141: points against triangles in binary32.  [coarseV], [exactDiff], [lifted], [area4] and [cornersNear] are in
    Spec/TriErrSpec.v, [realT] and [within3] in Spec/SatErrSpec.v, [inTriangle] and [combination] in Spec/EuclidSpec.v. *)
From Coq Require Import ZArith Bool List Reals.
From Flocq Require Import Core.Core.
From Verif.Model Require Import Outcome Scalar Vec Simd Aabb Geometry.
From Verif.Spec Require Import GeomSpec EuclidSpec SatErrSpec TriErrSpec.
From Verif.Proofs Require Import OrdScalar F32Round AabbWitness TriErr BaryErr.
Local Open Scope R_scope.

(** ** C140 *)
(** the centroid of a triangle is reported outside *)
Theorem C140_refuted : exists (t : triangle f32) (q : vec4 f32), coarseV (t0 t) /\ coarseV (t1 t) /\ coarseV (t2 t) /\ coarseV q /\
  combination (realT t) (1 / 3) (1 / 3) (1 / 3) (realV q) /\ nonzeroS (normalS (realT t)) /\ forall p, isInsideTriangle p t q = false.
Proof. exact centroid_outside. Qed.
Print Assumptions C140_refuted.
(** a point of the triangle is accepted, slivers included, when its differences to the corners are floats *)
Theorem C140_exact_actual : forall p (t : triangle f32) (q : vec4 f32), exactDiff (t0 t) q -> exactDiff (t1 t) q -> exactDiff (t2 t) q ->
  inTriangle (realT t) (realV q) -> isInsideTriangle p t q = true.
Proof. exact exact_inside. Qed.
Print Assumptions C140_exact_actual.
Example C140_exact_ex : let q := v4 2 2 0 in exactDiff (t0 exT) q /\ exactDiff (t1 exT) q /\ exactDiff (t2 exT) q /\ inTriangle (realT exT) (realV q).
Proof. exact exact_example. Qed.
(** any point is decided by the weights of its projection when these and the area are large enough *)
Theorem C140_margin_actual : forall p (t : triangle f32) (q : vec4 f32) u v w k M,
  coarseV (t0 t) -> coarseV (t1 t) -> coarseV (t2 t) -> coarseV q -> cornersNear M (realT t) (realV q) ->
  lifted (realT t) u v w k (realV q) ->
  let slack := 136 / 16777216 * M ^ 4 + 12 * M ^ 2 * k ^ 2 * area4 (realT t) in
  slack < Rabs (u * v) * area4 (realT t) -> slack < Rabs (u * w) * area4 (realT t) ->
  (isInsideTriangle p t q = true <-> 0 <= u /\ 0 <= v /\ 0 <= w).
Proof. exact inside_near. Qed.
Print Assumptions C140_margin_actual.

(** ** C141 *)
Theorem C141_bary : forall p (t : triangle f32) (q : vec4 f32) u v w k M,
  coarseV (t0 t) -> coarseV (t1 t) -> coarseV (t2 t) -> coarseV q ->
  within3 M (minusS (realV (t1 t)) (realV (t0 t))) -> within3 M (minusS (realV (t2 t)) (realV (t0 t))) -> within3 M (minusS (realV q) (realV (t0 t))) ->
  lifted (realT t) u v w k (realV q) -> 0 < area4 (realT t) -> M ^ 4 <= 4096 * area4 (realT t) ->
  let e := M ^ 4 / area4 (realT t) / 16777216 in let c := calcBarycentric p t q in
  Rabs (val (vy c) - v) <= 250 * e * (1 + Rabs v) /\ Rabs (val (vz c) - w) <= 250 * e * (1 + Rabs w) /\
  Rabs (val (vx c) - u) <= 544 * e * (1 + Rabs v + Rabs w) /\ val (vw c) = 0 /\ fin (vx c) /\ fin (vy c) /\ fin (vz c) /\ fin (vw c).
Proof. exact bary_near. Qed.
Print Assumptions C141_bary.
(** meets the hypotheses of C140_margin_actual (M = 6, and both products of weights are 1/8) and of C141_bary (M = 8) *)
Example C140_C141_ex : let q := v4 2 2 1 in let R := realT exT in
  coarseV (t0 exT) /\ coarseV (t1 exT) /\ coarseV (t2 exT) /\ coarseV q /\ cornersNear 6 R (realV q) /\ lifted R (/ 2) (/ 4) (/ 4) (/ 64) (realV q) /\
  area4 R = 4096 /\
  136 / 16777216 * 6 ^ 4 + 12 * 6 ^ 2 * (/ 64) ^ 2 * area4 R < Rabs (/ 2 * / 4) * area4 R /\
  within3 8 (minusS (t1 R) (t0 R)) /\ within3 8 (minusS (t2 R) (t0 R)) /\ within3 8 (minusS (realV q) (t0 R)) /\ 8 ^ 4 <= 4096 * area4 R.
Proof. exact tri_example. Qed.
