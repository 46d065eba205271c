(** Model matrices in binary32. *)
From Coq Require Import ZArith Bool List Reals Lra.
From Flocq Require Import Core.Core.
From Verif.Model Require Import Scalar Vec Simd Lanes Quaternion Matrix Transform.
From Verif.Spec Require Import ModelErrSpec.
From Verif.Proofs Require Import OrdScalar F32Round ModelErr QuatWitness ModelWitness.
Import ListNotations.
Local Open Scope R_scope.

(** * C145 *)
Theorem C145_matrix : forall p (pos q s : vec4 f32), inRange pos -> moderate (l4 q) -> inRange s ->
  let m := calcModel p pos q s in let u := unitized (valQ q) in
  colNear (c0 m) (vx s) (turned u axisX) /\ colNear (c1 m) (vy s) (turned u axisY) /\ colNear (c2 m) (vz s) (turned u axisZ) /\
  allFin (l4 (c3 m)) /\ reals (l4 (c3 m)) = reals (l43 pos) ++ [1].
Proof. exact model_matrix. Qed.
Print Assumptions C145_matrix.
Theorem C145_places : forall p (pos q s v : vec4 f32), inRange pos -> moderate (l4 q) -> inRange s -> inRange v ->
  let r := mulV p (calcModel p pos q s) (withW v f1) in let e := placed (valQ pos) (unitized (valQ q)) (valQ s) (valQ v) in
  laneNear (vx r) (vx e) (val (vx pos)) s v /\ laneNear (vy r) (vy e) (val (vy pos)) s v /\ laneNear (vz r) (vz e) (val (vz pos)) s v /\
  fin (vw r) /\ val (vw r) = 1.
Proof. exact model_places. Qed.
Print Assumptions C145_places.
(** a rotation, an uneven scale that also mirrors, and a position meet the hypotheses *)
Example C145_ex : moderate (l4 exQ) /\ inRange exS /\ inRange exV /\ val (vx exS) = 2 /\ val (vy exS) = / 2 /\ val (vz exS) = -3.
Proof. exact (conj exQ_moderate exS_ok). Qed.
