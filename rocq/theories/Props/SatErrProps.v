(** C139: the triangle-box test in binary32.  [touches] is in Spec/EuclidSpec.v, [griddedV], [widen], [within3], [stout] and
    [realT] in Spec/SatErrSpec.v. *)
From Coq Require Import ZArith Bool List Reals.
From Flocq Require Import Core.Core.
From Verif.Model Require Import Outcome Scalar Vec Simd Aabb Geometry.
From Verif.Spec Require Import GeomSpec EuclidSpec SatErrSpec.
From Verif.Proofs Require Import OrdScalar F32Round AabbWitness SatErr.
Local Open Scope R_scope.

(** ** C139 *)
(** a triangle with a corner in the centre of a box of half size 25000 is rejected *)
Theorem C139_refuted : exists (pos ext : vec4 f32) (t : triangle f32),
  griddedV pos /\ griddedV ext /\ griddedV (t0 t) /\ griddedV (t1 t) /\ griddedV (t2 t) /\
  vx (realV ext) = 25000 /\ vy (realV ext) = 25000 /\ vz (realV ext) = 25000 /\
  touches (realV pos) (V4 0 0 0 0) (realT t) /\ forall p, isAabbIntersected p pos ext t = false.
Proof. exact sliver_missed. Qed.
Print Assumptions C139_refuted.
(** triangles that are no slivers are decided up to a thin shell around the box *)
Theorem C139_actual : forall p (pos ext : vec4 f32) (t : triangle f32) M K,
  griddedV pos -> griddedV ext -> griddedV (t0 t) -> griddedV (t1 t) -> griddedV (t2 t) -> nonneg3 (realV ext) ->
  within3 M (realV ext) -> within3 M (minusS (realV (t0 t)) (realV pos)) -> within3 M (minusS (realV (t1 t)) (realV pos)) -> within3 M (minusS (realV (t2 t)) (realV pos)) ->
  stout K (realV (vsub (t0 t) pos)) (realV (vsub (t1 t) pos)) (realV (vsub (t2 t) pos)) -> 0 <= K <= 1048576 ->
  let delta := 9 * (1 + K) * M / 16777216 in
  (touches (realV pos) (widen (- delta) (realV ext)) (realT t) -> isAabbIntersected p pos ext t = true) /\
  (isAabbIntersected p pos ext t = true -> touches (realV pos) (widen delta (realV ext)) (realT t)).
Proof. exact triangle_near. Qed.
Print Assumptions C139_actual.
Example C139_ex : let pos := v4 0 0 0 in let ext := v4 2 2 2 in let t := mkTriangle (v4 3 0 0) (v4 0 3 0) (v4 0 0 3) in
  griddedV pos /\ griddedV ext /\ griddedV (t0 t) /\ griddedV (t1 t) /\ griddedV (t2 t) /\ nonneg3 (realV ext) /\
  within3 3 (realV ext) /\ within3 3 (minusS (realV (t0 t)) (realV pos)) /\ within3 3 (minusS (realV (t1 t)) (realV pos)) /\ within3 3 (minusS (realV (t2 t)) (realV pos)) /\
  stout 1 (realV (vsub (t0 t) pos)) (realV (vsub (t1 t) pos)) (realV (vsub (t2 t) pos)) /\
  touches (realV pos) (widen (- (9 * (1 + 1) * 3 / 16777216)) (realV ext)) (realT t).
Proof. exact triangle_example. Qed.
