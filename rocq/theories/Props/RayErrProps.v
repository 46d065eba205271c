(** C130: rays against boxes in binary32.  [invertedRay32], [offFaces], [movedCorner] (faces moved by at most
    3.001/2^24 of their distance from the origin) and [inGrown]/[inShrunk] are in Spec/RayErrSpec.v. *)
From Coq Require Import ZArith Bool Reals.
From Flocq Require Import IEEE754.Binary IEEE754.Bits.
From Verif.Model Require Import Outcome Scalar Vec Simd Aabb.
From Verif.Spec Require Import GeomSpec BvhGeomSpec RaySpec CullSpec RayErrSpec.
From Verif.Proofs Require Import OrdScalar F32Round AabbWitness RayErr.
Local Open Scope R_scope.

Theorem C130_moved_box : forall p (b : aabb f32) r d, pointIn60 (bmin b) -> pointIn60 (bmax b) -> pointIn60 (rorigin r) ->
  validBox b -> invertedRay32 r d -> moves d -> offFaces r d b ->
  let tt := raycast2I p b r in
  exists b' : aabb R, nonEmpty b' /\ movedCorner (rorigin r) d (bmin b) (bmin b') /\ movedCorner (rorigin r) d (bmax b) (bmax b') /\
  fin (x2 tt) /\ fin (y2 tt) /\
  (forall t, 0 <= t <= maxFinite -> (inBox b' (pointAt (realV (rorigin r)) (realV d) t) <-> val (x2 tt) <= t <= val (y2 tt))) /\
  (isHit tt = true <-> exists t, 0 <= t <= maxFinite /\ inBox b' (pointAt (realV (rorigin r)) (realV d) t)) /\
  (isHit tt = false -> tt = V2 fltMax (- fltMax)%sc) /\ raycast1I p b r = x2 tt.
Proof. exact ray_moved_box. Qed.
Print Assumptions C130_moved_box.
Theorem C130_grown_and_shrunk : forall p (b : aabb f32) r d, pointIn60 (bmin b) -> pointIn60 (bmax b) -> pointIn60 (rorigin r) ->
  validBox b -> invertedRay32 r d -> moves d -> offFaces r d b ->
  let x := pointAt (realV (rorigin r)) (realV d) in let tt := raycast2I p b r in
  (raycastI p b r = true -> exists t, 0 <= t /\ inBoxBy inGrown b (rorigin r) d (x t)) /\
  (forall t, 0 <= t <= maxFinite -> inBoxBy inShrunk b (rorigin r) d (x t) -> raycastI p b r = true) /\
  (forall t, 0 <= t -> val (x2 tt) <= t <= val (y2 tt) -> inBoxBy inGrown b (rorigin r) d (x t)) /\
  (forall t, 0 <= t <= maxFinite -> inBoxBy inShrunk b (rorigin r) d (x t) -> val (x2 tt) <= t <= val (y2 tt)).
Proof. exact ray_grown. Qed.
Print Assumptions C130_grown_and_shrunk.
(** setDirection(f32x4::one / d, false) makes such a ray and flags no axis, not even one along which d is 0 *)
Theorem C130_inverted : forall p (r : ray f32) (d : vec4 f32),
  (forall f, f = vx \/ f = vy \/ f = vz -> fin (f d) /\ (val (f d) = 0 \/ / 2 ^ 60 <= Rabs (val (f d)) <= 2 ^ 60)) ->
  let r' := setDirection p r (vdiv (dup4 f1) d) false in
  invertedRay32 r' d /\ rorigin r' = rorigin r /\ rparallel r' = V4 0%Z 0%Z 0%Z (vw (rparallel r')).
Proof. exact inverted_by_hand. Qed.
Print Assumptions C130_inverted.
(** why [offFaces] is assumed: such a ray running in a face touches the box and is reported as a miss *)
Theorem C130_in_face : forall p, exists (b : aabb f32) (r : ray f32) d t,
  r = setDirection p (newRay p (v4 0 0 0) d false) (vdiv (dup4 f1) d) false /\
  pointIn60 (bmin b) /\ pointIn60 (bmax b) /\ pointIn60 (rorigin r) /\ validBox b /\ invertedRay32 r d /\ moves d /\
  0 <= t /\ inBox (realBox b) (pointAt (realV (rorigin r)) (realV d) t) /\ raycastI p b r = false.
Proof. exact face_ray. Qed.
Print Assumptions C130_in_face.
Example C130_ex : forall p, exists (b : aabb f32) (r : ray f32) d,
  r = setDirection p (newRay p (v4 (-5) 0 0) d false) (vdiv (dup4 f1) d) false /\ d = v4 3 1 0 /\ b = bx 1 1 (-1) 4 4 1 /\
  pointIn60 (bmin b) /\ pointIn60 (bmax b) /\ pointIn60 (rorigin r) /\ validBox b /\ invertedRay32 r d /\ moves d /\
  offFaces r d b /\ raycastI p b r = true /\ seq (x2 (raycast2I p b r)) (fi 2) = true /\ seq (y2 (raycast2I p b r)) (fi 3) = true.
Proof. exact ray_example. Qed.
