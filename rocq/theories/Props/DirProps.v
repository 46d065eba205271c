(** The named directions. *)
From Coq Require Import ZArith Bool List Reals Lra Lia.
From Flocq Require Import Core.Core IEEE754.Binary.
From Verif.Model Require Import Scalar Vec Simd Matrix Transform Aabb Geometry Directions.
From Verif.Spec Require Import DirSpec.
From Verif.Proofs Require Import OrdScalar F32Round DirProofs.
Local Open Scope R_scope.

(** * C147 *)
Theorem C147_names : forall p d, lanesAre (dirVec d) (unitOf d) /\
  lanesAre (dirPlane p d) (unitOf d) /\ (fin (vw (dirPlane p d)) /\ val (vw (dirPlane p d)) = 0) /\
  lanesAre (rdir (dirRay p d)) (unitOf d) /\ lanesAre (rorigin (dirRay p d)) (fun _ => 0).
Proof. exact names_agree. Qed.
Print Assumptions C147_names.
Theorem C147_planes : forall p v, place v -> forall d,
  (fin (planeDistance p (dirPlane p d) v) /\ val (planeDistance p (dirPlane p d) v) = along d v) /\
  lanesAre (closestPointPlane p (dirPlane p d) v) (fun i => if Nat.eqb i (axisOf d) then 0 else val (coord i v)).
Proof. exact planes_exact. Qed.
Print Assumptions C147_planes.
Theorem C147_rays : forall p v, place v -> forall d,
  lanesAre (closestPointRay p (dirRay p d) v) (fun i => unitOf d i * Rmax (along d v) 0).
Proof. exact ray_near. Qed.
Print Assumptions C147_rays.
Theorem C147_hand : forall p, lanesAre (cross3 p (dirVec Right) (dirVec Top)) (unitOf Front) /\
  lanesAre (cross3 p (dirVec Top) (dirVec Front)) (unitOf Right) /\ lanesAre (cross3 p (dirVec Front) (dirVec Right)) (unitOf Top).
Proof. exact crossed. Qed.
Print Assumptions C147_hand.
Theorem C147_view : forall p, isIdentity (lookAt p (dup4 f0) (dirVec Front) (dirVec Top)) /\
  isIdentity (rotateLook p (dup4 f0) (dirVec Front) (dirVec Top)) /\ isIdentity (rotateFront p (dirVec Front) (dirVec Top)).
Proof. exact looking_front. Qed.
Print Assumptions C147_view.
(** the point (-1, 1, 0) is finite, above Plane::top and to the left *)
Example C147_ex : let v := V4 (slit (-1) 0) f1 f0 f0 : vec4 f32 in place v /\ along Top v = 1 /\ along Right v = -1 /\ along Left v = 1.
Proof. exact ex_place. Qed.
