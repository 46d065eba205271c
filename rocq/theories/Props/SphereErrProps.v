(** C138: sphere tests.  [distS] is in Spec/EuclidSpec.v, [fair] (finite lanes of magnitude at most 2^40) in
    Spec/ClosestErrSpec.v, [inBox] and [nonEmpty] in Spec/GeomSpec.v. *)
From Coq Require Import ZArith Bool List Reals.
From Flocq Require Import Core.Core.
From Verif.Model Require Import Outcome Scalar Vec Simd Aabb Geometry.
From Verif.Spec Require Import GeomSpec EuclidSpec ClosestErrSpec.
From Verif.Proofs Require Import OrdScalar F32Round AabbWitness SphereErr.
Local Open Scope R_scope.

(** ** C138 *)
Theorem C138_inside : forall p (s q : vec4 f32), fair (l4 s) -> fair (l43 q) -> bpow radix2 (-40) <= val (vw s) ->
  (isInsideSphere p s q = true -> distS (realV s) (realV q) < val (vw s) * (1 + 4 / 16777216)) /\
  (distS (realV s) (realV q) <= val (vw s) * (1 - 4 / 16777216) -> isInsideSphere p s q = true).
Proof. exact isInsideSphere_near. Qed.
Print Assumptions C138_inside.
Theorem C138_spheres : forall p (a b : vec4 f32), fair (l4 a) -> fair (l4 b) -> 0 <= val (vw a) -> 0 <= val (vw b) ->
  bpow radix2 (-40) <= val (vw a) + val (vw b) ->
  (isIntersectedSpheres p a b = true -> distS (realV a) (realV b) < (val (vw a) + val (vw b)) * (1 + 5 / 16777216)) /\
  (distS (realV a) (realV b) <= (val (vw a) + val (vw b)) * (1 - 5 / 16777216) -> isIntersectedSpheres p a b = true).
Proof. exact isIntersectedSpheres_near. Qed.
Print Assumptions C138_spheres.
Theorem C138_box : forall p (s : vec4 f32) (b : aabb f32), fair (l4 s) -> fair (l43 (bmin b)) -> fair (l43 (bmax b)) ->
  nonEmpty (realBox b) -> bpow radix2 (-40) <= val (vw s) ->
  (isIntersectedSphereBox p s b = true -> exists q, inBox (realBox b) q /\ distS (realV s) q < val (vw s) * (1 + 4 / 16777216)) /\
  ((exists q, inBox (realBox b) q /\ distS (realV s) q <= val (vw s) * (1 - 4 / 16777216)) -> isIntersectedSphereBox p s b = true).
Proof. exact isIntersectedSphereBox_near. Qed.
Print Assumptions C138_box.
(** why the range is bounded: a sphere of radius 2^-80 does not contain its centre, one of radius 2^65 not a point at half the radius *)
Theorem C138_range :
  (exists s : vec4 f32, fair (l4 s) /\ 0 < val (vw s) /\ forall p, isInsideSphere p s s = false) /\
  (exists s q : vec4 f32, allFin (l4 s) /\ allFin (l43 q) /\ 0 < val (vw s) /\ 2 * distS (realV s) (realV q) = val (vw s) /\ forall p, isInsideSphere p s q = false).
Proof. exact square_lost. Qed.
Print Assumptions C138_range.
Example C138_ex : forall p, let s := V4 (fi 1) (fi 2) (fi 3) (fi 5) in let q := v4 4 4 3 in let b := bx 4 4 3 7 9 8 in
  fair (l4 s) /\ fair (l43 q) /\ bpow radix2 (-40) <= val (vw s) /\ fair (l43 (bmin b)) /\ fair (l43 (bmax b)) /\ nonEmpty (realBox b) /\
  isInsideSphere p s q = true /\ isIntersectedSphereBox p s b = true /\ isIntersectedSpheres p s (V4 (fi 9) (fi 2) (fi 3) (fi 2)) = false.
Proof. exact sphere_example. Qed.
