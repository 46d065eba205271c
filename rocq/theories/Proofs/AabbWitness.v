(** Concrete boxes, points and rays in binary32, and the counterexamples built from them. *)
From Coq Require Import ZArith List Bool Lia Reals Lra.
From Flocq Require Import Core.Core IEEE754.BinarySingleNaN IEEE754.Binary IEEE754.Bits.
From Verif.Model Require Import Outcome Scalar Vec Simd Aabb.
From Verif.Spec Require Import GeomSpec BvhGeomSpec RaySpec.
From Verif.Proofs Require Import OrdScalar F32Round AabbOrder Frustum RealLits AabbMore RayProofs.
Import ListNotations.
Local Open Scope R_scope.

(** small integers as binary32 *)
Definition fi (z : Z) : f32 := slit z 0.
Definition v4 (x y z : Z) : vec4 f32 := V4 (fi x) (fi y) (fi z) (fi 0).
Definition bx (a b c d e f : Z) : aabb f32 := mkAabb (v4 a b c) (v4 d e f).

Definition lanes {A} (v : vec4 A) : list A := [vx v; vy v; vz v; vw v].
(** equal as numbers, lane by lane *)
Definition eqv (a b : vec4 f32) : bool := forallb (fun '(x, y) => seq x y) (combine (lanes a) (lanes b)).
Definition eqbox (a b : aabb f32) : bool := eqv (bmin a) (bmin b) && eqv (bmax a) (bmax b).

(** C16: a negative factor swaps the corners *)
Theorem scale_negative : exists (b : aabb f32) s, finiteBox3 b /\ finite3 s /\ validBox b /\
  ~ validBox (scaleBox b s) /\ (forall q, ~ inBox (scaleBox b s) q).
Proof.
  exists (bx (-1) (-1) (-1) 1 1 1), (v4 (-1) 1 1).
  assert (E1 : sle (vx (bmin (scaleBox (bx (-1) (-1) (-1) 1 1 1) (v4 (-1) 1 1)))) (vx (bmax (scaleBox (bx (-1) (-1) (-1) 1 1 1) (v4 (-1) 1 1)))) = false)
    by (vm_compute; reflexivity).
  assert (E : ~ (ext (vx (bmin (scaleBox (bx (-1) (-1) (-1) 1 1 1) (v4 (-1) 1 1)))) <= ext (vx (bmax (scaleBox (bx (-1) (-1) (-1) 1 1 1) (v4 (-1) 1 1))))))
    by (rewrite <- sle_iff by reflexivity; rewrite E1; discriminate).
  split; [repeat split|]. split; [repeat split|]. split; [|split].
  - unfold validBox, in3. rewrite <- !sle_iff by reflexivity. vm_compute. auto 10.
  - intros (V & _). apply E, V.
  - intros q (V & _). apply E. eapply Rle_trans; apply V.
Qed.

(** C17: equal boxes are not reported as intersecting, and a shared point exists *)
Theorem isIntersected_refuted : exists (a b : aabb f32) q, finiteBox3 a /\ finiteBox3 b /\ inBox4 a q /\ inBox4 b q /\
  forall p, isIntersectedBox p a b = false.
Proof.
  exists (bx 0 0 0 2 2 2), (bx 1 1 1 3 3 3), (v4 1 1 1).
  split; [repeat split|]. split; [repeat split|].
  split; [|split].
  - unfold inBox4, in4, in3. rewrite <- !sle_iff by reflexivity. vm_compute. auto 10.
  - unfold inBox4, in4, in3. rewrite <- !sle_iff by reflexivity. vm_compute. auto 10.
  - intros []; vm_compute; reflexivity.
Qed.

(** C18 *)
Theorem trySet_refuted : exists (b : aabb f32) mn mx, ext (vx mx) < ext (vx mn) /\ ext (vy mx) < ext (vy mn) /\ ext (vz mx) < ext (vz mn) /\
  forall p, trySet p b mn mx = (true, mkAabb mn mx) /\ mkAabb mn mx <> b.
Proof.
  exists (bx 0 0 0 0 0 0), (v4 1 1 1), (v4 (-1) (-1) (-1)).
  rewrite <- !slt_iff by reflexivity.
  split; [reflexivity|]. split; [reflexivity|]. split; [reflexivity|].
  intros p. split; [apply trySet_actual|]. intros H. apply (f_equal (fun b => slt (vx (bmin b)) f1)) in H. discriminate H.
Qed.

(** C19 *)
Theorem full_actual : forall p (q : vec4 f32), num4 q ->
  (isInsidePoint p aabbFull q = true <->
   (ext (fltMin : f32) <= ext (vx q) <= ext (fltMax : f32) /\ ext (fltMin : f32) <= ext (vy q) <= ext (fltMax : f32) /\
    ext (fltMin : f32) <= ext (vz q) <= ext (fltMax : f32)) /\ ext (fltMin : f32) <= ext (vw q) <= ext (fltMax : f32)).
Proof.
  intros p q Hq. rewrite isInsidePoint_iff; [reflexivity| |exact Hq]. repeat split.
Qed.
Theorem full_refuted : exists q : vec4 f32, finite4 q /\ (forall p, isInsidePoint p aabbFull q = false) /\ ~ inBox aabbFull q.
Proof.
  exists (v4 0 0 0). split; [repeat split|]. split; [intros []; vm_compute; reflexivity|].
  intros ((H & _) & _). revert H. cbn [aabbFull bmin dup4 vx]. change (ext (vx (v4 0 0 0))) with (ext (f0 : f32)).
  assert (E : slt (f0 : f32) fltMin = true) by (vm_compute; reflexivity). rewrite slt_iff in E by reflexivity. lra.
Qed.

(** C21 *)
(** the point at the machine parameter [t] of a ray *)
Definition along (r : ray f32) (t : f32) : vec4 f32 := vadd (rorigin r) (vscale (rdir r) t).
(** a ray along the z axis that meets the box head on is reported as a miss *)
Theorem raycast_misses : forall p, exists b r t, r = newRay p (v4 0 0 0) (v4 0 0 1) true /\
  slt f0 t = true /\ inBox b (along r t) /\ raycast p b r = false.
Proof.
  intros p. exists (bx (-1) (-1) 1 1 1 2), (newRay p (v4 0 0 0) (v4 0 0 1) true), (fi 1).
  split; [reflexivity|]. split; [reflexivity|]. split; [|destruct p; vm_compute; reflexivity].
  unfold inBox, in3. rewrite <- !sle_iff by (destruct p; reflexivity). destruct p; vm_compute; auto 10.
Qed.
(** on the SSE and generic paths a ray along the x axis "hits" a box far to its side *)
Theorem raycast_false_hit : forall p, p <> NEON -> exists b r, r = newRay p (v4 0 0 0) (v4 1 0 0) true /\
  raycast p b r = true /\ forall t, is_finite 24 128 t = true -> ~ inBox b (along r t).
Proof.
  intros p Hp. exists (bx 1 5 5 2 6 6), (newRay p (v4 0 0 0) (v4 1 0 0) true).
  split; [reflexivity|]. split; [destruct p; try contradiction; vm_compute; reflexivity|].
  intros t Ht (_ & (H & _) & _).
  assert (E : vy (rdir (newRay p (v4 0 0 0) (v4 1 0 0) true)) = fi 0).
  { destruct p; vm_compute; reflexivity. }
  unfold along, vadd, vscale, vmul, map2_4 in H. cbn [vy dup4] in H. rewrite E in H.
  change (vy (rorigin (newRay p (v4 0 0 0) (v4 1 0 0) true))) with (fi 0) in H.
  assert (X : ext (fi 0 + fi 0 * t)%sc = 0).
  { destruct t as [[]|s|s pl He|[] m e He]; try discriminate Ht; reflexivity. }
  rewrite X in H. revert H. change (vy (bmin (bx 1 5 5 2 6 6))) with (fi 5).
  assert (E5 : slt (f0 : f32) (fi 5) = true) by reflexivity. rewrite slt_iff in E5 by reflexivity.
  change (ext (f0 : f32)) with 0 in E5. lra.
Qed.
(** with no axis-parallel component the distances are wrong: the box starts at t = 2 *)
Theorem raycast2_distance : forall p, exists b r, rdir r = v4 1 1 1 /\ rorigin r = v4 0 0 0 /\
  b = bx 2 2 2 4 4 4 /\ slt (x2 (raycast2 p b r)) (slit 6 (-2)) = true /\
  ~ inBox b (along r (x2 (raycast2 p b r))).
Proof.
  intros p. exists (bx 2 2 2 4 4 4), (newRay p (v4 0 0 0) (v4 1 1 1) false).
  split; [reflexivity|]. split; [reflexivity|]. split; [reflexivity|]. split; [destruct p; vm_compute; reflexivity|].
  intros ((H & _) & _). rewrite <- sle_iff in H by (destruct p; reflexivity). revert H. destruct p; vm_compute; discriminate.
Qed.

(** C32 *)
Theorem newRay_refuted : forall p, exists (o d : vec4 f32), ext (vy d) = 0 /\
  vy (rparallel (newRay p o d true)) = 0%Z /\
  vy (rparallel (setDirection p (newRay p o d true) d true)) = 4294967295%Z.
Proof.
  intros p. exists (v4 0 0 0), (v4 1 0 0). split; [reflexivity|]. destruct p; vm_compute; auto.
Qed.
