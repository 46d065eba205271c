(** C11 - C21, C23, C32: axis-aligned boxes, rays and the frustum test.
    Statements over [OrdScalar F] hold for both instances: the reals and binary32 (with
    [num] meaning "not NaN" and [ext] the real value, infinities being +-2^128). *)
From Coq Require Import ZArith List Bool Lia Reals Lra Permutation.
From Flocq Require Import Core.Core IEEE754.BinarySingleNaN IEEE754.Binary IEEE754.Bits.
From Verif.Model Require Import Outcome Scalar Vec Simd Aabb.
From Verif.Spec Require Import GeomSpec BvhGeomSpec RaySpec.
From Verif.Proofs Require Import OrdScalar F32Round AabbOrder Frustum RealLits AabbMore RayProofs AabbWitness MoreFacts.
Import ListNotations.
Local Open Scope R_scope.

(** ** C11 *)
Theorem C11_closestPoint : forall F (S : Scalar F) (O : OrdScalar F) p b pt,
  numBox b -> num4 pt -> validBox b ->
  let r := closestPointBox p b pt in
  inBox b r /\ (forall q, inBox b q -> dist2 pt r <= dist2 pt q) /\
  ((ext (vx r) = ext (vx pt) /\ ext (vy r) = ext (vy pt) /\ ext (vz r) = ext (vz pt)) <-> inBox b pt).
Proof. exact @closestPointBox_correct. Qed.
Print Assumptions C11_closestPoint.
Example C11_closestPoint_ex : forall p,
  numBox (bx 0 0 0 2 2 2) /\ num4 (v4 5 1 (-3)) /\ eqv (closestPointBox p (bx 0 0 0 2 2 2) (v4 5 1 (-3))) (v4 2 1 0) = true.
Proof. intros p. split; [repeat split|]. split; [repeat split|]. destruct p; vm_compute; reflexivity. Qed.

(** ** C12 *)
Theorem C12_isInside_point : forall F (S : Scalar F) (O : OrdScalar F) p b pt, numBox b -> num4 pt ->
  (isInsidePoint p b pt = true <-> inBox4 b pt).
Proof. exact @isInsidePoint_iff. Qed.
Print Assumptions C12_isInside_point.
Theorem C12_isInside_box : forall F (S : Scalar F) (O : OrdScalar F) p a b,
  numBox a -> numBox b -> inBox4 b (bmin b) ->
  (isInsideBox p a b = true <-> (forall q, num4 q -> inBox4 b q -> inBox4 a q)).
Proof. exact @isInsideBox_points. Qed.
Print Assumptions C12_isInside_box.
Example C12_isInside_ex : forall p,
  isInsidePoint p (bx 0 0 0 2 2 2) (v4 1 2 0) = true /\ isInsidePoint p (bx 0 0 0 2 2 2) (v4 1 3 0) = false /\
  isInsideBox p (bx 0 0 0 2 2 2) (bx 0 1 0 1 2 1) = true /\ isInsideBox p (bx 0 0 0 2 2 2) (bx 0 1 0 1 2 3) = false.
Proof. intros []; vm_compute; auto. Qed.

(** ** C13 *)
Theorem C13_extend_least : forall F (S : Scalar F) (O : OrdScalar F) p l a, numBox3 a -> Forall numBox3 l ->
  let r := extendAll p a l in
  numBox3 r /\ cornersInside r a /\ Forall (cornersInside r) l /\
  (forall c, cornersInside c a -> Forall (cornersInside c) l -> cornersInside c r).
Proof. exact @extendAll_least. Qed.
Print Assumptions C13_extend_least.
Theorem C13_extend_point : forall F (S : Scalar F) p a pt, extendPoint p a pt = extendBox p a (mkAabb pt pt).
Proof. exact @extendPoint_box. Qed.
Print Assumptions C13_extend_point.
Theorem C13_extend_order : forall F (S : Scalar F) (O : OrdScalar F) p l l' a,
  numBox a -> Forall numBox l -> Permutation l l' -> sameBox (extendAll p a l) (extendAll p a l').
Proof. exact @extendAll_permutation. Qed.
Print Assumptions C13_extend_order.
Theorem C13_extend_idempotent : forall F (S : Scalar F) (O : OrdScalar F) p a b, numBox a -> numBox b ->
  extendBox p (extendBox p a b) b = extendBox p a b.
Proof. exact @extendBox_idem. Qed.
Print Assumptions C13_extend_idempotent.
Example C13_extend_ex : forall p,
  Forall numBox3 [bx 3 0 0 4 1 1; bx (-2) 0 0 0 7 1] /\
  eqbox (extendAll p (bx 0 0 0 1 1 1) [bx 3 0 0 4 1 1; bx (-2) 0 0 0 7 1]) (bx (-2) 0 0 4 7 1) = true.
Proof. intros p. split; [repeat constructor|]. destruct p; vm_compute; reflexivity. Qed.

(** ** C14 *)
Theorem C14_shrink : forall F (S : Scalar F) (O : OrdScalar F) p a b, numBox a -> numBox b ->
  forall q, inBox (shrinkBox p a b) q <-> inBox a q /\ inBox b q.
Proof. exact @shrinkBox_points. Qed.
Print Assumptions C14_shrink.
Example C14_shrink_ex : forall p, eqbox (shrinkBox p (bx 0 0 0 2 2 2) (bx 1 (-1) 1 3 3 3)) (bx 1 0 1 2 2 2) = true.
Proof. intros []; vm_compute; reflexivity. Qed.

Theorem C14_shrink_point : forall F (S : Scalar F) p a pt, shrinkPoint p a pt = shrinkBox p a (mkAabb pt pt).
Proof. exact shrink_point. Qed.
Print Assumptions C14_shrink_point.

(** ** C15 *)
Theorem C15_size : forall size pos : vec4 R,
  getSize (setSize size pos) = size /\ getPosition (setSize size pos) = pos /\
  getSize (setSize1 size) = size /\ getPosition (setSize1 size) = V4 0 0 0 0.
Proof. exact size_round_trip. Qed.
Print Assumptions C15_size.
Theorem C15_extent : forall extent pos : vec4 R,
  getExtent (setExtent extent pos) = extent /\ getPosition (setExtent extent pos) = pos /\
  getExtentPos (setExtent extent pos) = (extent, pos) /\
  getExtent (setExtent1 extent) = extent /\ getPosition (setExtent1 extent) = V4 0 0 0 0.
Proof. exact extent_round_trip. Qed.
Print Assumptions C15_extent.
Theorem C15_translate : forall (b : aabb R) t,
  getSize (translateBox b t) = getSize b /\ getPosition (translateBox b t) = vadd (getPosition b) t /\
  (forall q, inBox (translateBox b t) (vadd q t) <-> inBox b q).
Proof. exact translate_size. Qed.
Print Assumptions C15_translate.
Theorem C15_area_volume : forall p (b : aabb R), let s := getSize b in
  calcArea p b = 2 * (vx s * vy s) + 2 * (vx s * vz s) + 2 * (vy s * vz s) /\
  calcVolume b = vx s * vy s * vz s.
Proof. exact area_volume. Qed.
Print Assumptions C15_area_volume.
Theorem C15_untranslate : forall (b : aabb R) t, subBox (translateBox b t) t = b /\ translateBox (subBox b t) t = b.
Proof. exact box_undo. Qed.
Print Assumptions C15_untranslate.
Theorem C15_unscale : forall (b : aabb R) s, vx s <> 0 -> vy s <> 0 -> vz s <> 0 -> vw s <> 0 ->
  divBox (scaleBox b s) s = b /\ scaleBox (divBox b s) s = b.
Proof. exact box_unscale. Qed.
Print Assumptions C15_unscale.
Theorem C15_constants :
  getPosition (aabbZero : aabb R) = V4 0 0 0 0 /\ getSize (aabbZero : aabb R) = V4 0 0 0 0 /\
  getPosition (aabbOne : aabb R) = V4 0 0 0 0 /\ getSize (aabbOne : aabb R) = V4 1 1 1 1 /\
  getPosition (aabbTwo : aabb R) = V4 0 0 0 0 /\ getSize (aabbTwo : aabb R) = V4 2 2 2 2.
Proof. exact const_boxes. Qed.
Print Assumptions C15_constants.

Example C15_ex : forall p, eqbox (setSize (v4 2 4 6) (v4 1 1 1)) (bx 0 (-1) (-2) 2 3 4) = true /\
  seq (calcArea p (bx 0 0 0 1 2 3)) (fi 22) = true /\ seq (calcVolume (bx 0 0 0 1 2 3)) (fi 6) = true.
Proof. intros []; vm_compute; auto. Qed.

(** ** C16: true for positive factors, false for negative ones *)
Theorem C16_scale_positive : forall (b : aabb R) s, 0 < vx s -> 0 < vy s -> 0 < vz s -> nonEmpty b ->
  nonEmpty (scaleBox b s) /\
  (forall q, inBox (scaleBox b s) (vmul q s) <-> inBox b q) /\
  (forall q', inBox (scaleBox b s) q' -> exists q, inBox b q /\ eq3 (vmul q s) q').
Proof. exact scale_positive. Qed.
Print Assumptions C16_scale_positive.
Theorem C16_scale_binary32 : forall (b : aabb f32) s, finiteBox3 b -> finite3 s -> validBox b ->
  0 <= ext (vx s) -> 0 <= ext (vy s) -> 0 <= ext (vz s) -> validBox (scaleBox b s).
Proof. exact scale_keeps_valid_F32. Qed.
Print Assumptions C16_scale_binary32.
Example C16_scale_ex : eqbox (scaleBox (bx 1 2 3 4 5 6) (v4 2 3 0)) (bx 2 6 0 8 15 0) = true.
Proof. vm_compute. reflexivity. Qed.
Theorem C16_scale_refuted : exists (b : aabb f32) s, finiteBox3 b /\ finite3 s /\ validBox b /\
  ~ validBox (scaleBox b s) /\ (forall q, ~ inBox (scaleBox b s) q).
Proof. exact scale_negative. Qed.
Print Assumptions C16_scale_refuted.

(** ** C17: false; the code compares a's minimum with b's maximum for equality *)
Theorem C17_isIntersected_refuted : exists (a b : aabb f32) q,
  finiteBox3 a /\ finiteBox3 b /\ inBox4 a q /\ inBox4 b q /\ forall p, isIntersectedBox p a b = false.
Proof. exact isIntersected_refuted. Qed.
Print Assumptions C17_isIntersected_refuted.
Theorem C17_isIntersected_actual : forall F (S : Scalar F) (O : OrdScalar F) p a b, numBox a -> numBox b ->
  (isIntersectedBox p a b = true <-> sameValue (bmin a) (bmax b)).
Proof. exact @isIntersectedBox_actual. Qed.
Print Assumptions C17_isIntersected_actual.
Example C17_ex : forall p, isIntersectedBox p (bx 0 0 0 1 1 1) (bx (-1) (-1) (-1) 0 0 0) = true /\
  isIntersectedBox p (bx 0 0 0 1 1 1) (bx 0 0 0 1 1 1) = false.
Proof. intros []; vm_compute; auto. Qed.

(** ** C18: false; every call succeeds *)
Theorem C18_trySet_refuted : exists (b : aabb f32) mn mx,
  ext (vx mx) < ext (vx mn) /\ ext (vy mx) < ext (vy mn) /\ ext (vz mx) < ext (vz mn) /\
  forall p, trySet p b mn mx = (true, mkAabb mn mx) /\ mkAabb mn mx <> b.
Proof. exact trySet_refuted. Qed.
Print Assumptions C18_trySet_refuted.
Theorem C18_trySet_actual : forall p (b : aabb f32) mn mx, trySet p b mn mx = (true, mkAabb mn mx).
Proof. exact trySet_actual. Qed.
Print Assumptions C18_trySet_actual.

(** ** C19: false; the minimum corner is FLT_MIN, the smallest positive normal number *)
Theorem C19_full_refuted : exists q : vec4 f32, finite4 q /\
  (forall p, isInsidePoint p aabbFull q = false) /\ ~ inBox aabbFull q.
Proof. exact full_refuted. Qed.
Print Assumptions C19_full_refuted.
Theorem C19_full_actual : forall p (q : vec4 f32), num4 q ->
  (isInsidePoint p aabbFull q = true <->
   (ext (fltMin : f32) <= ext (vx q) <= ext (fltMax : f32) /\ ext (fltMin : f32) <= ext (vy q) <= ext (fltMax : f32) /\
    ext (fltMin : f32) <= ext (vz q) <= ext (fltMax : f32)) /\ ext (fltMin : f32) <= ext (vw q) <= ext (fltMax : f32)).
Proof. exact full_actual. Qed.
Print Assumptions C19_full_actual.
Example C19_ex : forall p, isInsidePoint p aabbFull (dup4 (fi 1)) = true /\ isInsidePoint p aabbFull (v4 1 1 1) = false.
Proof. intros []; vm_compute; auto. Qed.

(** ** C20 *)
Theorem C20_raycastI_exact : forall p b r d, nonEmpty b -> invertedRay r d ->
  let tt := raycast2I p b r in
  (forall t, Rmax 0 (x2 tt) <= t <= y2 tt -> inBox b (pointAt (rorigin r) d t)) /\
  (forall t, 0 <= t <= maxFinite -> inBox b (pointAt (rorigin r) d t) -> Rmax 0 (x2 tt) <= t <= y2 tt) /\
  (isHit tt = true -> exists t, 0 <= t /\ inBox b (pointAt (rorigin r) d t)) /\
  (isHit tt = false -> tt = V2 maxFinite (- maxFinite) /\
     forall t, 0 <= t <= maxFinite -> ~ inBox b (pointAt (rorigin r) d t)) /\
  raycast1I p b r = x2 tt.
Proof. exact raycast2I_exact. Qed.
Print Assumptions C20_raycastI_exact.
Example C20_raycastI_ex : let r := mkRay (V4 1 (/ 2) 0 0) (V4 0%Z 0%Z 4294967295%Z 0%Z) (V4 0 0 0 0) in
  nonEmpty (mkAabb (V4 1 1 (-1) 0) (V4 2 3 1 0)) /\ invertedRay r (V4 1 2 0 0).
Proof.
  cbv [nonEmpty invertedRay invertedAxis bmin bmax vx vy vz rparallel rdir]. repeat split; try lra.
  - right. repeat split; lra.
  - right. repeat split; lra.
  - left. split; [reflexivity|lra].
Qed.
Example C20_raycastI_binary32_ex : forall p,
  let tt := raycast2I p (bx 2 2 (-1) 4 6 1)
    (mkRay (V4 (fi 1) (slit 1 (-1)) (fi 0) (fi 0)) (V4 0%Z 0%Z 4294967295%Z 0%Z) (v4 0 0 0)) in
  seq (x2 tt) (fi 2) = true /\ seq (y2 tt) (fi 3) = true.
Proof. intros []; vm_compute; auto. Qed.

(** ** C21: false; hits are missed, misses are hit, and distances are scaled *)
Theorem C21_raycast_refuted : forall p, exists b r t, r = newRay p (v4 0 0 0) (v4 0 0 1) true /\
  slt f0 t = true /\ inBox b (along r t) /\ raycast p b r = false.
Proof. exact raycast_misses. Qed.
Print Assumptions C21_raycast_refuted.
Theorem C21_false_hit_refuted : forall p, p <> NEON -> exists b r, r = newRay p (v4 0 0 0) (v4 1 0 0) true /\
  raycast p b r = true /\ forall t, is_finite 24 128 t = true -> ~ inBox b (along r t).
Proof. exact raycast_false_hit. Qed.
Print Assumptions C21_false_hit_refuted.
Theorem C21_distance_refuted : forall p, exists b r, rdir r = v4 1 1 1 /\ rorigin r = v4 0 0 0 /\
  b = bx 2 2 2 4 4 4 /\ slt (x2 (raycast2 p b r)) (slit 6 (-2)) = true /\
  ~ inBox b (along r (x2 (raycast2 p b r))).
Proof. exact raycast2_distance. Qed.
Print Assumptions C21_distance_refuted.
(** what the code computes when no component is zero: distances divided by |1/d| *)
Theorem C21_raycast2_actual : forall p b r, nonEmpty b ->
  let d := rdir r in
  parallelEps * Rabs (vx d) < 1 -> parallelEps * Rabs (vy d) < 1 -> parallelEps * Rabs (vz d) < 1 ->
  vx d <> 0 -> vy d <> 0 -> vz d <> 0 ->
  let L := sqrt (/ vx d * / vx d + / vy d * / vy d + / vz d * / vz d) in
  let tt := raycast2 p b r in
  0 < L /\
  (forall t, Rmax 0 (x2 tt) <= t <= y2 tt -> inBox b (pointAt (rorigin r) d (t * L))) /\
  (forall t, 0 <= t <= maxFinite -> inBox b (pointAt (rorigin r) d (t * L)) -> Rmax 0 (x2 tt) <= t <= y2 tt).
Proof. exact raycast2_actual. Qed.
Print Assumptions C21_raycast2_actual.
Theorem C21_raycast1_actual : forall F (S : Scalar F) p b r, raycast1 p b r = x2 (raycast2 p b r).
Proof. exact raycast1_first. Qed.
Print Assumptions C21_raycast1_actual.

Example C21_ex : parallelEps * Rabs 1 < 1 /\ parallelEps * Rabs (-2) < 1.
Proof. unfold parallelEps, Rabs. split; destruct Rcase_abs; lra. Qed.

(** ** C23 *)
Theorem C23_behind_frustum : forall p planes b, nonEmpty b ->
  (isBehindFrustum p planes b = true <->
   exists pl, In pl planes /\ forall q, inBox b q -> planeSide pl q < 0).
Proof. exact isBehindFrustum_R. Qed.
Print Assumptions C23_behind_frustum.
Theorem C23_behind_frustum_monotone : forall p planes a b, nonEmpty b -> cornersInside a b ->
  isBehindFrustum p planes a = true -> isBehindFrustum p planes b = true.
Proof. exact isBehindFrustum_mono_R. Qed.
Print Assumptions C23_behind_frustum_monotone.
(** the same in binary32 arithmetic: for a rejected box some plane's computed distance is
    negative at every finite point of the box *)
Theorem C23_behind_frustum_binary32 : forall p planes b q, Forall finite4 planes -> finiteBox3 b -> finite3 q ->
  inBox b q -> isBehindFrustum p planes b = true ->
  exists pl, In pl planes /\ slt (planeDistance p pl q) f0 = true.
Proof. exact isBehindFrustum_F32. Qed.
Print Assumptions C23_behind_frustum_binary32.
Theorem C23_behind_frustum_monotone_binary32 : forall p planes a b,
  Forall finite4 planes -> finiteBox3 a -> finiteBox3 b ->
  (ext (vx (bmin b)) <= ext (vx (bmax b)) /\ ext (vy (bmin b)) <= ext (vy (bmax b)) /\
   ext (vz (bmin b)) <= ext (vz (bmax b))) ->
  cornersInside a b ->
  isBehindFrustum p planes a = true -> isBehindFrustum p planes b = true.
Proof. exact isBehindFrustum_mono_F32. Qed.
Print Assumptions C23_behind_frustum_monotone_binary32.
Example C23_ex : forall p,
  isBehindFrustum p [v4 1 0 0; V4 (fi 0) (fi 1) (fi 0) (fi (-5))] (bx 1 2 1 2 4 2) = true /\
  isBehindFrustum p [v4 1 0 0; V4 (fi 0) (fi 1) (fi 0) (fi (-5))] (bx 1 2 1 2 5 2) = false.
Proof. intros []; vm_compute; auto. Qed.

(** ** C32: false; the constructor leaves every flag clear *)
Theorem C32_parallel_flags_refuted : forall p, exists (o d : vec4 f32), ext (vy d) = 0 /\
  vy (rparallel (newRay p o d true)) = 0%Z /\
  vy (rparallel (setDirection p (newRay p o d true) d true)) = 4294967295%Z.
Proof. exact newRay_refuted. Qed.
Print Assumptions C32_parallel_flags_refuted.
Theorem C32_parallel_flags_actual : forall p (o d : vec4 f32) nrm,
  rparallel (newRay p o d nrm) = V4 0%Z 0%Z 0%Z 0%Z.
Proof. exact newRay_parallel. Qed.
Print Assumptions C32_parallel_flags_actual.
