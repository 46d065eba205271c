(** C22, C24 - C31, C86: separating axes, frustum planes, planes, triangles, segments, rays and
    spheres.  Statements over [R] are in exact arithmetic; [f32] is IEEE binary32. *)
From Coq Require Import ZArith Bool List Reals Lra.
From Verif.Model Require Import Scalar Vec Simd Aabb Matrix Geometry.
From Verif.Spec Require Import GeomSpec BvhGeomSpec EuclidSpec MatSpec.
From Verif.Proofs Require Import OrdScalar MatrixProofs GeometryProofs TriangleProofs SphereProofs Sat GeometryWitness AabbWitness MoreFacts.
Import ListNotations.
Local Open Scope R_scope.

(** ** C22 *)
Theorem C22_isAabbIntersected : forall p position extent t, nonneg3 extent ->
  (isAabbIntersected p position extent t = true <-> touches position extent t).
Proof. exact isAabbIntersected_R. Qed.
Print Assumptions C22_isAabbIntersected.
(** both answers occur (touching counts); the last triangle is cut off only by an edge-axis product *)
Example C22_ex : forall p,
  isAabbIntersected p (v4 0 0 0) (v4 1 1 1) (tri32 2 0 0 0 2 0 0 0 2) = true /\
  isAabbIntersected p (v4 0 0 0) (v4 1 1 1) (tri32 3 0 0 0 3 0 0 0 3) = true /\
  isAabbIntersected p (v4 0 0 0) (v4 1 1 1) (tri32 4 0 0 0 4 0 0 0 4) = false /\
  isAabbIntersected p (v4 0 0 0) (v4 1 1 1) (tri32 3 0 (-1) 0 3 1 3 3 0) = false.
Proof. intros []; vm_compute; auto. Qed.
Example C22_touches_ex : nonneg3 (r4 1 1 1) /\ touches (r4 0 0 0) (r4 1 1 1) (triR 2 0 0 0 2 0 0 0 2).
Proof.
  split; [unfold nonneg3; unf; lra|]. exists (V4 1 1 0 0). split; [exists (1 / 2), (1 / 2), 0|]; unf; repeat split; lra.
Qed.

(** ** C24 *)
Theorem C24_isBehindFrustumModel : forall p planes b m, nonEmpty b ->
  (isBehindFrustumModel p planes b m = true <->
   exists pl, In pl planes /\ forall q, inBox b q -> planeSide pl (mulv4 m (withW q 1)) < 0).
Proof. exact isBehindFrustumModel_R. Qed.
Print Assumptions C24_isBehindFrustumModel.
(** for an affine matrix the transformed points have w = 1 *)
Theorem C24_affine_points : forall (m : mat4 R) q,
  vw (c0 m) = 0 -> vw (c1 m) = 0 -> vw (c2 m) = 0 -> vw (c3 m) = 1 -> vw (mulv4 m (withW q 1)) = 1.
Proof. exact affine_w. Qed.
Print Assumptions C24_affine_points.
Example C24_ex : forall p,
  let shift k := M4 (v4 1 0 0) (v4 0 1 0) (v4 0 0 1) (withW (v4 k 0 0) (fi 1)) in
  isBehindFrustumModel p [withW (v4 1 0 0) (fi (-3))] (bx 0 0 0 1 1 1) (shift 0%Z) = true /\
  isBehindFrustumModel p [withW (v4 1 0 0) (fi (-3))] (bx 0 0 0 1 1 1) (shift 5%Z) = false.
Proof. intros []; vm_compute; auto. Qed.

(** ** C25 *)
Theorem C25_extractFrustumPlanes : forall p p' (m : mat4 R) q,
  let c := mulV p' m (withW q 1) in
  (Forall (fun pl => 0 <= planeSide pl q) (extractFrustumPlanes p m) <->
   - vw c <= vx c <= vw c /\ - vw c <= vy c <= vw c /\ 0 <= vz c <= vw c).
Proof. exact extractFrustumPlanes_R. Qed.
Print Assumptions C25_extractFrustumPlanes.
Example C25_ex : forall p,
  let planes := extractFrustumPlanes p (M4 (v4 1 0 0) (v4 0 2 0) (withW (v4 0 0 1) (fi 1)) (v4 0 0 (-1))) in
  forallb (fun pl => sle f0 (planeDistance p pl (v4 1 1 2))) planes = true /\
  forallb (fun pl => sle f0 (planeDistance p pl (v4 1 2 2))) planes = false.
Proof. intros []; vm_compute; auto. Qed.

(** ** C26 *)
Theorem C26_normalizePlane : forall p pl, nonzeroS pl ->
  let L := sqrt (dotS pl pl) in
  0 < L /\ dotS (normalizePlane p pl) (normalizePlane p pl) = 1 /\
  (forall q, planeSide (normalizePlane p pl) q = planeSide pl q / L) /\
  (forall q, 0 <= planeSide (normalizePlane p pl) q <-> 0 <= planeSide pl q) /\
  (forall q, onPlane (normalizePlane p pl) q <-> onPlane pl q).
Proof. exact normalizePlane_side. Qed.
Print Assumptions C26_normalizePlane.
Theorem C26_closestPointPlane : forall p pl x, dotS pl pl = 1 ->
  isNearest (onPlane pl) x (closestPointPlane p pl x) /\
  distS x (closestPointPlane p pl x) = Rabs (planeDistance p pl x).
Proof. exact closestPointPlane_nearest. Qed.
Print Assumptions C26_closestPointPlane.
Theorem C26_setNormal_keeps : forall F (S : Scalar F) p pl n,
  setNormal p pl n false = V4 (vx n) (vy n) (vz n) (vw pl) /\ vw (setNormal p pl n true) = vw pl.
Proof. exact setNormal_keeps. Qed.
Print Assumptions C26_setNormal_keeps.
Theorem C26_setNormal_unit : forall p (pl n : vec4 R), nonzeroS n ->
  dotS (setNormal p pl n true) (setNormal p pl n true) = 1 /\
  let L := sqrt (dotS n n) in 0 < L /\
  eq3 n (V4 (L * vx (setNormal p pl n true)) (L * vy (setNormal p pl n true)) (L * vz (setNormal p pl n true)) 0).
Proof. exact setNormal_unit. Qed.
Print Assumptions C26_setNormal_unit.

Example C26_ex : nonzeroS (r4 3 4 0) /\ dotS (V4 (3 / 5) (4 / 5) 0 7) (V4 (3 / 5) (4 / 5) 0 7) = 1 /\
  forall p, eqv (normalizePlane p (withW (v4 0 4 0) (fi 8))) (withW (v4 0 1 0) (fi 2)) = true /\
    eqv (withW (closestPointPlane p (withW (v4 0 1 0) (fi 2)) (v4 5 6 7)) (fi 0)) (v4 5 (-2) 7) = true.
Proof.
  split; [intros (H & _); unf_in H; lra|]. split; [unfold dotS; cbn [vx vy vz]; field|]. intros []; vm_compute; auto.
Qed.

(** ** C27: false; the constructor stores +n.p0 where the plane needs -n.p0 *)
Theorem C27_planeOfTriangle_refuted : exists t : triangle R, nonzeroS (normalS t) /\
  forall p, planeSide (planeOfTriangle p t) (t0 t) = 2 /\ planeSide (planeOfTriangle p t) (t1 t) = 2 /\
    planeSide (planeOfTriangle p t) (t2 t) = 2.
Proof. exact planeOfTriangle_refuted. Qed.
Print Assumptions C27_planeOfTriangle_refuted.
(** twice the signed distance of the triangle's plane from the origin *)
Theorem C27_planeOfTriangle_actual : forall p t q, nonzeroS (normalS t) -> q = t0 t \/ q = t1 t \/ q = t2 t ->
  planeSide (planeOfTriangle p t) q = 2 * (dotS (normalS t) (t0 t) / sqrt (dotS (normalS t) (normalS t))).
Proof. exact planeOfTriangle_R. Qed.
Print Assumptions C27_planeOfTriangle_actual.
Example C27_ex : forall p,
  seq (planeDistance p (planeOfTriangle p (tri32 0 0 1 1 0 1 0 1 1)) (v4 0 0 1)) (fi 2) = true /\
  seq (planeDistance p (planeOfTriangle p (tri32 0 0 0 1 0 0 0 1 0)) (v4 1 0 0)) (fi 0) = true.
Proof. intros []; vm_compute; auto. Qed.

(** ** C28: false, through C27 *)
Theorem C28_closestPointTriangle_refuted : exists (t : triangle R) x, nonzeroS (normalS t) /\ inTriangle t x /\
  forall p, ~ inTriangle t (closestPointTriangle p t x).
Proof. exact closestPointTriangle_refuted. Qed.
Print Assumptions C28_closestPointTriangle_refuted.
(** right when the triangle's plane contains the origin and the foot of the perpendicular is not
    on the extension of the edge p1 p2 *)
Theorem C28_closestPointTriangle_actual : forall p t x, nonzeroS (normalS t) -> dotS (normalS t) (t0 t) = 0 ->
  (forall q, isNearest (inPlaneOf t) x q -> onLine (t1 t) (t2 t) q -> onSegment (t1 t) (t2 t) q) ->
  isNearest (inTriangle t) x (closestPointTriangle p t x).
Proof. exact closestPointTriangle_R. Qed.
Print Assumptions C28_closestPointTriangle_actual.
Example C28_ex : nonzeroS (normalS (triR 0 0 0 4 0 0 0 4 0)) /\ dotS (normalS (triR 0 0 0 4 0 0 0 4 0)) (r4 0 0 0) = 0 /\
  forall p, eqv (withW (closestPointTriangle p (tri32 0 0 0 4 0 0 0 4 0) (v4 4 4 3)) (fi 0)) (v4 2 2 0) = true /\
    eqv (withW (closestPointTriangle p (tri32 0 0 0 4 0 0 0 4 0) (v4 1 1 3)) (fi 0)) (v4 1 1 0) = true /\
    eqv (withW (closestPointTriangle p (tri32 (-8) (-8) 1 16 (-8) 1 (-8) 16 1) (v4 0 0 1)) (fi 0)) (v4 0 0 (-1)) = true.
Proof.
  split; [intros (_ & _ & H); unf_in H; lra|]. split; [unf; ring|]. intros []; vm_compute; auto.
Qed.

(** ** C29 *)
Theorem C29_calcBarycentric : forall p t q, nonzeroS (normalS t) -> inPlaneOf t q ->
  let c := calcBarycentric p t q in
  vx c + vy c + vz c = 1 /\ combination t (vx c) (vy c) (vz c) q /\ vw c = 0 /\
  ((0 <= vx c /\ 0 <= vy c /\ 0 <= vz c) <-> inTriangle t q).
Proof. exact calcBarycentric_R. Qed.
Print Assumptions C29_calcBarycentric.
(** isInside is right except that it also accepts the whole line through p1 and p2 *)
Theorem C29_isInsideTriangle_actual : forall p t q, nonzeroS (normalS t) -> inPlaneOf t q ->
  (isInsideTriangle p t q = true <-> inTriangle t q \/ onLine (t1 t) (t2 t) q).
Proof. exact isInsideTriangle_R. Qed.
Print Assumptions C29_isInsideTriangle_actual.
Theorem C29_isInsideTriangle_refuted : exists (t : triangle R) q,
  nonzeroS (normalS t) /\ inPlaneOf t q /\ ~ inTriangle t q /\ forall p, isInsideTriangle p t q = true.
Proof. exact isInsideTriangle_refuted. Qed.
Print Assumptions C29_isInsideTriangle_refuted.
Example C29_ex : forall p,
  eqv (calcBarycentric p (tri32 0 0 0 4 0 0 0 4 0) (v4 1 1 0)) (V4 (fhalf : f32) (slit 1 (-2)) (slit 1 (-2)) f0) = true /\
  isInsideTriangle p (tri32 0 0 0 4 0 0 0 4 0) (v4 1 1 0) = true /\
  isInsideTriangle p (tri32 0 0 0 4 0 0 0 4 0) (v4 5 1 0) = false /\
  isInsideTriangle p (tri32 0 0 0 4 0 0 0 4 0) (v4 8 (-4) 0) = true.
Proof. intros []; vm_compute; auto. Qed.

(** ** C30 *)
Theorem C30_closestPointSegment : forall p a b x, nonzeroS (minusS b a) ->
  isNearest (onSegment a b) x (closestPointSegment p a b x).
Proof. exact closestPointSegment_nearest. Qed.
Print Assumptions C30_closestPointSegment.
(** a segment of length zero is answered with NaN *)
Theorem C30_degenerate_refuted : exists a x : vec4 f32, forall p,
  let r := closestPointSegment p a a x in snan (vx r) = true /\ snan (vy r) = true /\ snan (vz r) = true.
Proof. exact closestPointSegment_degenerate. Qed.
Print Assumptions C30_degenerate_refuted.
Example C30_ex : nonzeroS (minusS (r4 4 0 0) (r4 0 0 0)) /\ forall p,
  eqv (closestPointSegment p (v4 0 0 0) (v4 4 0 0) (v4 3 5 0)) (v4 3 0 0) = true /\
  eqv (closestPointSegment p (v4 0 0 0) (v4 4 0 0) (v4 9 5 0)) (v4 4 0 0) = true.
Proof. split; [intros (H & _); unf_in H; lra|]. intros []; vm_compute; auto. Qed.

(** ** C31 *)
Theorem C31_isInsideSphere : forall p s q, 0 <= vw s -> (isInsideSphere p s q = true <-> distS s q < vw s).
Proof. exact isInsideSphere_R. Qed.
Print Assumptions C31_isInsideSphere.
Theorem C31_isIntersectedSpheres : forall p a b, 0 <= vw a -> 0 <= vw b ->
  (isIntersectedSpheres p a b = true <-> exists q, inBall a q /\ inBall b q).
Proof. exact isIntersectedSpheres_R. Qed.
Print Assumptions C31_isIntersectedSpheres.
Theorem C31_isIntersectedSphereBox : forall p s b, 0 <= vw s -> nonEmpty b ->
  (isIntersectedSphereBox p s b = true <-> exists q, inBox b q /\ distS s q < vw s).
Proof. exact isIntersectedSphereBox_R. Qed.
Print Assumptions C31_isIntersectedSphereBox.
Theorem C31_closestPointSphere : forall p s x, 0 <= vw s -> nonzeroS (minusS x s) ->
  isNearest (onSphere s) x (closestPointSphere p s x).
Proof. exact closestPointSphere_R. Qed.
Print Assumptions C31_closestPointSphere.
(** the centre of the sphere is answered with NaN *)
Theorem C31_centre_refuted : exists s : vec4 f32, slt f0 (vw s) = true /\ forall p,
  let r := closestPointSphere p s s in snan (vx r) = true /\ snan (vy r) = true /\ snan (vz r) = true.
Proof. exact closestPointSphere_centre. Qed.
Print Assumptions C31_centre_refuted.
Example C31_ex : nonzeroS (minusS (r4 9 0 0) (r4 0 0 0)) /\ forall p,
  let s := newSphere (fi 2) (v4 0 0 0) in
  isInsideSphere p s (v4 1 1 1) = true /\ isInsideSphere p s (v4 2 0 0) = false /\
  isIntersectedSpheres p s (newSphere (fi 1) (v4 3 0 0)) = true /\ isIntersectedSpheres p s (newSphere (fi 1) (v4 4 0 0)) = false /\
  isIntersectedSphereBox p s (bx 1 1 1 5 5 5) = true /\ isIntersectedSphereBox p s (bx 2 0 0 5 5 5) = false /\
  eqv (withW (closestPointSphere p s (v4 9 0 0)) (fi 0)) (v4 2 0 0) = true.
Proof. split; [intros (H & _); unf_in H; lra|]. intros []; vm_compute; auto 10. Qed.

(** ** C86 *)
Theorem C86_closestPointRay : forall p (r : ray R) x, nonzeroS (rdir r) ->
  isNearest (onRay (rorigin r) (rdir r)) x (closestPointRay p r x).
Proof. exact closestPointRay_nearest. Qed.
Print Assumptions C86_closestPointRay.
Example C86_ex : forall p,
  eqv (closestPointRay p (newRay p (v4 1 0 0) (v4 0 2 0) false) (v4 5 6 7)) (v4 1 6 0) = true /\
  eqv (closestPointRay p (newRay p (v4 1 0 0) (v4 0 2 0) false) (v4 5 (-6) 7)) (v4 1 0 0) = true.
Proof. intros []; vm_compute; auto. Qed.
