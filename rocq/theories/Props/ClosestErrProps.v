(** C131, C132: closest points.  [isNearest], [onSegment], [onLine], [onRay], [onPlane], [onSphere] and [distS] are in
    Spec/EuclidSpec.v, [fair], [lanesNear], [lenS] and [atParam] in Spec/ClosestErrSpec.v. *)
From Coq Require Import ZArith Bool List Reals.
From Flocq Require Import Core.Core.
From Verif.Model Require Import Outcome Scalar Vec Simd Aabb Geometry LineMore.
From Verif.Spec Require Import GeomSpec EuclidSpec ClosestErrSpec.
From Verif.Proofs Require Import OrdScalar F32Round AabbWitness Euclid LineMoreProofs ClosestErr ClosestWitness.
Local Open Scope R_scope.

(** ** C131: "t: distance to the closest point" *)
Theorem C131_distance_refuted : forall p, exists (a b x x' : vec4 R) q q' t t', nonzeroS (minusS b a) /\
  closestPointSegmentT p a b x = (q, t) /\ t <> distS x q /\ t <> distS a q /\
  closestPointSegmentT p a b x' = (q', t') /\ t' < 0.
Proof. exact param_not_distance. Qed.
Print Assumptions C131_distance_refuted.
(** t is the parameter of the foot of the perpendicular on the whole line; the point itself is clamped *)
Theorem C131_parameter_actual : forall p a b x q t, nonzeroS (minusS b a) -> closestPointSegmentT p a b x = (q, t) ->
  isNearest (onSegment a b) x q /\
  (forall f, atParam a b t f -> isNearest (onLine a b) x f /\ distS a f = Rabs t * distS a b) /\
  atParam a b (Rmax 0 (Rmin t 1)) q /\
  (0 <= t <= 1 -> isNearest (onLine a b) x q /\ distS a q = t * distS a b) /\
  (t <= 0 -> eq3 q a) /\ (1 <= t -> eq3 q b).
Proof. exact reported_param. Qed.
Print Assumptions C131_parameter_actual.
Example C131_ex : forall p,
  eqv (fst (closestPointSegmentT p (v4 0 0 0) (v4 4 0 0) (v4 3 5 0))) (v4 3 0 0) = true /\
  seq (snd (closestPointSegmentT p (v4 0 0 0) (v4 4 0 0) (v4 3 5 0))) (slit 3 (-2)) = true /\
  eqv (fst (closestPointSegmentT p (v4 0 0 0) (v4 4 0 0) (v4 8 5 0))) (v4 4 0 0) = true /\
  seq (snd (closestPointSegmentT p (v4 0 0 0) (v4 4 0 0) (v4 8 5 0))) (fi 2) = true.
Proof. intros []; vm_compute; auto. Qed.

(** ** C132: closest points in binary32 *)
Theorem C132_segment : forall p (a b x : vec4 f32), fair (l43 a) -> fair (l43 b) -> fair (l43 x) ->
  bpow radix2 (-40) <= distS (realV b) (realV a) ->
  let S := distS (realV x) (realV a) in let L := distS (realV b) (realV a) in
  (exists q, isNearest (onSegment (realV a) (realV b)) (realV x) q /\ lanesNear (19 * S + 4 * L) 2 a (closestPointSegment p a b x) q) /\
  fin (segmentParam p a b x) /\
  Rabs (val (segmentParam p a b x) - dotS (minusS (realV x) (realV a)) (minusS (realV b) (realV a)) / (L * L)) <= (19 * (S / L) + / 1000) / 16777216.
Proof. exact segment_near. Qed.
Print Assumptions C132_segment.
Theorem C132_overload : forall p (a b x : vec4 f32),
  closestPointSegmentT p a b x = (closestPointSegment p a b x, segmentParam p a b x).
Proof. exact overload_split. Qed.
Print Assumptions C132_overload.
Theorem C132_ray : forall p (r : ray f32) (x : vec4 f32), fair (l43 (rorigin r)) -> fair (l43 (rdir r)) -> fair (l43 x) ->
  let S := distS (realV x) (realV (rorigin r)) in let L := lenS (realV (rdir r)) in let O := lenS (realV (rorigin r)) in
  bpow radix2 (-40) <= L -> O <= 131072 * L ->
  exists q, isNearest (onRay (realV (rorigin r)) (realV (rdir r))) (realV x) q /\
    lanesNear (28 * S + 7 * (S * (O / L)) + L) 2 (rorigin r) (closestPointRay p r x) q.
Proof. exact ray_near. Qed.
Print Assumptions C132_ray.
(** 2^25 units from the coordinate origin a ray of length one loses its direction *)
Theorem C132_ray_far : forall p, exists (r : ray f32) (x : vec4 f32), fair (l43 (rorigin r)) /\ fair (l43 (rdir r)) /\ fair (l43 x) /\
  lenS (realV (rdir r)) = 1 /\ r = newRay p (V4 (slit 1 25) f0 f0 f0) (V4 f1 f0 f0 f0) false /\
  snan (vx (closestPointRay p r x)) = true /\ snan (vy (closestPointRay p r x)) = true /\ snan (vz (closestPointRay p r x)) = true.
Proof. exact ray_far. Qed.
Print Assumptions C132_ray_far.
Theorem C132_plane : forall p (pl x : vec4 f32), fair (l4 pl) -> fair (l43 x) ->
  Rabs (dotS (realV pl) (realV pl) - 1) <= 16 / 16777216 ->
  let R0 := reach (realV pl) (V4 (Rabs (val (vx x))) (Rabs (val (vy x))) (Rabs (val (vz x))) 1) in
  exists q, isNearest (onPlane (realV pl)) (realV x) q /\
    lanesNear (23 * R0 + bpow radix2 (-120)) 2 x (closestPointPlane p pl x) q.
Proof. exact plane_near. Qed.
Print Assumptions C132_plane.
Theorem C132_normalized_plane : forall p (pl : vec4 f32), moderate (l43 pl) ->
  Rabs (dotS (realV (normalizePlane p pl)) (realV (normalizePlane p pl)) - 1) <= 16 / 16777216.
Proof. exact normalized_unit. Qed.
Print Assumptions C132_normalized_plane.
Theorem C132_sphere : forall p (s x : vec4 f32), fair (l4 s) -> fair (l43 x) -> 0 <= val (vw s) ->
  bpow radix2 (-40) <= distS (realV x) (realV s) ->
  exists q, isNearest (onSphere (realV s)) (realV x) q /\
    lanesNear (10 * val (vw s) + bpow radix2 (-120)) 2 s (closestPointSphere p s x) q.
Proof. exact sphere_near. Qed.
Print Assumptions C132_sphere.
Example C132_ex : forall p, let a := v4 1 2 3 in let b := v4 4 0 1 in let x := v4 0 7 5 in
  fair (l43 a) /\ fair (l43 b) /\ fair (l43 x) /\ bpow radix2 (-40) <= distS (realV b) (realV a) /\
  let r := newRay p a b false in
  bpow radix2 (-40) <= lenS (realV (rdir r)) /\ lenS (realV (rorigin r)) <= 131072 * lenS (realV (rdir r)) /\
  let pl := normalizePlane p b in let s := V4 f1 f1 f1 (fi 2) in
  moderate (l43 b) /\ fair (l4 pl) /\ fair (l4 s) /\ 0 <= val (vw s) /\ bpow radix2 (-40) <= distS (realV x) (realV s).
Proof. exact closest_example. Qed.
