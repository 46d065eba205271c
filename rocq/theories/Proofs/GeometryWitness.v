(** Counterexamples for C27 - C31. *)
From Coq Require Import ZArith Bool List Reals Lra Psatz.
From Verif.Model Require Import Scalar Vec Simd Aabb Matrix Geometry.
From Verif.Spec Require Import GeomSpec BvhGeomSpec EuclidSpec.
From Verif.Proofs Require Import OrdScalar Frustum RealLits RayProofs Euclid GeometryProofs TriangleProofs AabbWitness.
Local Open Scope R_scope.

Definition r4 (x y z : Z) : vec4 R := V4 (IZR x) (IZR y) (IZR z) 0.
Definition triR (a b c d e f g h i : Z) : triangle R := mkTriangle (r4 a b c) (r4 d e f) (r4 g h i).
Definition tri32 (a b c d e f g h i : Z) : triangle f32 := mkTriangle (v4 a b c) (v4 d e f) (v4 g h i).

Ltac unf_in H := cbv [dotS normalS crossS minusS triR r4 t0 t1 t2 vx vy vz combination inPlaneOf onLine] in H.
Ltac unf := cbv [dotS normalS crossS minusS triR r4 t0 t1 t2 vx vy vz combination inPlaneOf onLine].
Theorem planeOfTriangle_refuted : exists t : triangle R, nonzeroS (normalS t) /\
  forall p, planeSide (planeOfTriangle p t) (t0 t) = 2 /\ planeSide (planeOfTriangle p t) (t1 t) = 2 /\
    planeSide (planeOfTriangle p t) (t2 t) = 2.
Proof.
  exists (triR 0 0 1 1 0 1 0 1 1).
  assert (HN : nonzeroS (normalS (triR 0 0 1 1 0 1 0 1 1))) by (intros (_ & _ & H); unf_in H; lra).
  split; [exact HN|]. intros p.
  assert (E : 2 * (dotS (normalS (triR 0 0 1 1 0 1 0 1 1)) (t0 (triR 0 0 1 1 0 1 0 1 1)) /
    sqrt (dotS (normalS (triR 0 0 1 1 0 1 0 1 1)) (normalS (triR 0 0 1 1 0 1 0 1 1)))) = 2).
  { replace (dotS (normalS (triR 0 0 1 1 0 1 0 1 1)) (normalS (triR 0 0 1 1 0 1 0 1 1))) with 1 by (unf; ring).
    rewrite sqrt_1. unf. field. }
  rewrite !planeOfTriangle_R by first [exact HN | auto]. auto.
Qed.
Theorem isInsideTriangle_refuted : exists (t : triangle R) q, nonzeroS (normalS t) /\ inPlaneOf t q /\ ~ inTriangle t q /\
  forall p, isInsideTriangle p t q = true.
Proof.
  exists (triR 0 0 0 1 0 0 0 1 0), (r4 2 (-1) 0).
  assert (HN : nonzeroS (normalS (triR 0 0 0 1 0 0 0 1 0))) by (intros (_ & _ & H); unf_in H; lra).
  assert (HP : inPlaneOf (triR 0 0 0 1 0 0 0 1 0) (r4 2 (-1) 0)) by (unf; ring).
  split; [exact HN|]. split; [exact HP|]. split.
  - intros (u & v & w & Hu & Hv & Hw & HS & H1 & H2 & _). unf_in H1. unf_in H2. lra.
  - intros p. apply isInsideTriangle_R; [exact HN|exact HP|]. right. exists (-1). unf. repeat split; ring.
Qed.
(** the centroid of a triangle in the plane z = 1 is answered with a point of the plane z = -1 *)
Theorem closestPointTriangle_refuted : exists (t : triangle R) x, nonzeroS (normalS t) /\ inTriangle t x /\
  forall p, ~ inTriangle t (closestPointTriangle p t x).
Proof.
  set (t := triR (-8) (-8) 1 16 (-8) 1 (-8) 16 1). exists t, (r4 0 0 1).
  assert (HN : nonzeroS (normalS t)) by (intros (_ & _ & H); unfold t in H; unf_in H; lra).
  split; [exact HN|]. split; [exists (1 / 3), (1 / 3), (1 / 3); unfold t; unf; repeat split; lra|].
  intros p. destruct (planeOfTriangleR p t HN) as (E & (E1 & E2 & E3) & HL & LL).
  assert (L : sqrt (dotS (normalS t) (normalS t)) = 576).
  { replace (dotS (normalS t) (normalS t)) with (576 * 576) by (unfold t; unf; ring). apply sqrt_square. lra. }
  rewrite L in *. cbn [vx vy vz] in E1, E2, E3.
  set (pl := planeOfTriangle p t) in *.
  assert (W : vw pl = 1) by (rewrite E; unfold withW; cbn [vw]; unfold t; unf; field).
  assert (N1 : vx pl = 0) by (rewrite E1; unfold t; unf; cbn [vx vy vz vw withW]; field). assert (N2 : vy pl = 0) by (rewrite E2; unfold t; unf; cbn [vx vy vz vw withW]; field).
  assert (N3 : vz pl = 1) by (rewrite E3; unfold t; unf; cbn [vx vy vz vw withW]; field).
  destruct (closestPointPlaneR p pl (r4 0 0 1)) as (Q1 & Q2 & Q3). cbn [vx vy vz] in Q1, Q2, Q3.
  unfold planeSide in Q1, Q2, Q3. rewrite N1, N2, N3, W in *. cbn [vx vy vz r4] in Q1, Q2, Q3.
  unfold closestPointTriangle. fold pl. set (q := closestPointPlane p pl (r4 0 0 1)) in *.
  assert (I : isInsideTriangle p t q = true).
  { unfold isInsideTriangle. rewrite !dot3R.
    destruct (cross3R p (vsub (t1 t) q) (vsub (t2 t) q)) as (U1 & U2 & U3).
    destruct (cross3R p (vsub (t2 t) q) (vsub (t0 t) q)) as (V1 & V2 & V3).
    destruct (cross3R p (vsub (t0 t) q) (vsub (t1 t) q)) as (W1 & W2 & W3).
    rewrite U1, U2, U3, V1, V2, V3, W1, W2, W3, f0R.
    unfold crossS, vsub, map2_4, t, triR, r4. cbn [t0 t1 t2 vx vy vz ssub ScalarR]. rewrite Q1, Q2, Q3.
    match goal with |- context [slt ?a 0 || slt ?b 0] => assert (A : slt a 0 = false) by (apply sltR_false; lra); assert (B : slt b 0 = false) by (apply sltR_false; lra) end.
    rewrite A, B. reflexivity. }
  rewrite I. intros (u & v & w & _ & _ & _ & HS & _ & _ & H3). rewrite Q3 in H3. unfold t in H3. unf_in H3. lra.
Qed.
Theorem closestPointSegment_degenerate : exists a x : vec4 f32, forall p,
  let r := closestPointSegment p a a x in
  snan (vx r) = true /\ snan (vy r) = true /\ snan (vz r) = true.
Proof. exists (v4 1 2 3), (v4 0 0 0). intros []; vm_compute; auto. Qed.
Theorem closestPointSphere_centre : exists s : vec4 f32, slt f0 (vw s) = true /\ forall p,
  let r := closestPointSphere p s s in
  snan (vx r) = true /\ snan (vy r) = true /\ snan (vz r) = true.
Proof. exists (newSphere (fi 1) (v4 1 2 3)). split; [reflexivity|]. intros []; vm_compute; auto. Qed.
