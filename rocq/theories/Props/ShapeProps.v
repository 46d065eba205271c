(** C115, C116: operators of lines, triangles and rays, and equality operators.  [imageOf P f] is the set of
    the images of the points of [P]; [sameNumber] is equality of binary32 values as numbers. *)
From Coq Require Import ZArith Reals Bool List Lia Lra.
From Flocq Require Import Core.Core IEEE754.BinarySingleNaN IEEE754.Binary IEEE754.Bits.
From Verif.Model Require Import Outcome Scalar Vec Simd Aabb Matrix Geometry IntVec Shapes.
From Verif.Spec Require Import GeomSpec EuclidSpec MatSpec IntSpec OrderSpec ShapeSpec.
From Verif.Proofs Require Import OrdScalar AabbWitness ShapeProofs EqualProofs.
Import ListNotations.
Local Open Scope R_scope.

(** ** C115 *)

Theorem C115_lines : forall l (v : vec4 R),
  sameSet (onSegment (lstart (lineAdd l v)) (lend (lineAdd l v))) (imageOf (onSegment (lstart l) (lend l)) (fun q => plusS q v)) /\
  sameSet (onSegment (lstart (lineSub l v)) (lend (lineSub l v))) (imageOf (onSegment (lstart l) (lend l)) (fun q => minusS q v)) /\
  sameSet (onSegment (lstart (lineMul l v)) (lend (lineMul l v))) (imageOf (onSegment (lstart l) (lend l)) (fun q => timesS q v)) /\
  (allNonzero v -> sameSet (imageOf (onSegment (lstart (lineDiv l v)) (lend (lineDiv l v))) (fun q => timesS q v)) (onSegment (lstart l) (lend l))).
Proof. exact lines_move. Qed.
Print Assumptions C115_lines.

Theorem C115_line_direction : forall p (l : line R),
  eq3 (lineDirection p l false) (minusS (lend l) (lstart l)) /\
  (nonzeroS (minusS (lend l) (lstart l)) ->
    let d := lineDirection p l true in dotS d d = 1 /\
    forall q, onSegment (lstart l) (lend l) q <->
      exists t, 0 <= t <= distS (lstart l) (lend l) /\ eq3 q (V4 (vx (lstart l) + t * vx d) (vy (lstart l) + t * vy d) (vz (lstart l) + t * vz d) 0)).
Proof. exact line_direction. Qed.
Print Assumptions C115_line_direction.

Theorem C115_triangles : forall (t : triangle R) v,
  sameSet (inTriangle (triAdd t v)) (imageOf (inTriangle t) (fun q => plusS q v)) /\
  sameSet (inTriangle (triSub t v)) (imageOf (inTriangle t) (fun q => minusS q v)) /\
  sameSet (inTriangle (triMul t v)) (imageOf (inTriangle t) (fun q => timesS q v)) /\
  (allNonzero v -> sameSet (imageOf (inTriangle (triDiv t v)) (fun q => timesS q v)) (inTriangle t)).
Proof. exact triangles_move. Qed.
Print Assumptions C115_triangles.

Theorem C115_rays_scale : forall p (r : ray R) v,
  (nonzeroS (vmul (rdir r) v) -> sameSet (rayPoints (rayMul p r v)) (imageOf (rayPoints r) (fun q => timesS q v))) /\
  sameSet (rayPoints (rayMulAssign r v)) (imageOf (rayPoints r) (fun q => timesS q v)) /\
  (allNonzero v -> nonzeroS (rdir r) -> sameSet (imageOf (rayPoints (rayDiv p r v)) (fun q => timesS q v)) (rayPoints r)) /\
  (allNonzero v -> sameSet (imageOf (rayPoints (rayDivAssign r v)) (fun q => timesS q v)) (rayPoints r)).
Proof. exact rays_scale. Qed.
Print Assumptions C115_rays_scale.

Theorem C115_ray_normalize : forall p (r : ray R), nonzeroS (rdir r) ->
  dotS (rdir (rayNormalize p r)) (rdir (rayNormalize p r)) = 1 /\ sameSet (rayPoints (rayNormalize p r)) (rayPoints r).
Proof. exact ray_renormalize. Qed.
Print Assumptions C115_ray_normalize.

(** Moving a ray turns it. *)
Theorem C115_ray_add_refuted : exists (r : ray R) v, nonzeroS (rdir r) /\ nonzeroS (vadd (rdir r) v) /\
  forall p, ~ sameSet (rayPoints (rayAdd p r v)) (imageOf (rayPoints r) (fun q => plusS q v)) /\
            ~ sameSet (rayPoints (rayAddAssign r v)) (imageOf (rayPoints r) (fun q => plusS q v)).
Proof. exact ray_add_refuted. Qed.
Print Assumptions C115_ray_add_refuted.

Theorem C115_ray_sub_refuted : exists (r : ray R) v, nonzeroS (rdir r) /\ nonzeroS (vsub (rdir r) v) /\
  forall p, ~ sameSet (rayPoints (raySub p r v)) (imageOf (rayPoints r) (fun q => minusS q v)) /\
            ~ sameSet (rayPoints (raySubAssign r v)) (imageOf (rayPoints r) (fun q => minusS q v)).
Proof. exact ray_sub_refuted. Qed.
Print Assumptions C115_ray_sub_refuted.

Theorem C115_ray_add_actual : forall p (r : ray R) v, nonzeroS (rdir r) -> nonzeroS (vadd (rdir r) v) ->
  (sameSet (rayPoints (rayAdd p r v)) (imageOf (rayPoints r) (fun q => plusS q v)) <->
   exists k, 0 < k /\ eq3 (vadd (rdir r) v) (V4 (k * vx (rdir r)) (k * vy (rdir r)) (k * vz (rdir r)) 0)).
Proof. exact ray_add_actual. Qed.
Print Assumptions C115_ray_add_actual.

(** a ray that may be moved along itself, and scaled *)
Example C115_ex : let r := mkRay (V4 1 0 0 0) (dup4 0%Z) (V4 0 0 0 0) : ray R in let v := V4 2 3 4 0 in
  nonzeroS (rdir r) /\ nonzeroS (vmul (rdir r) v) /\ allNonzero v /\ nonzeroS (vadd (rdir r) v) /\
  (exists k, 0 < k /\ eq3 (vadd (rdir r) (V4 2 0 0 0)) (V4 (k * 1) (k * 0) (k * 0) 0)).
Proof.
  cbn zeta. unfold nonzeroS, allNonzero, vmul, vadd, map2_4, eq3. cbn. repeat split; try lra. exists 3. repeat split; lra.
Qed.

(** ** C116 *)
Local Open Scope Z_scope.

Theorem C116_simd_vectors : forall p (a b : vec4 f32),
  (f32x4Eq p a b = true <-> sameNumber (vx a) (vx b) /\ sameNumber (vy a) (vy b) /\ sameNumber (vz a) (vz b) /\ sameNumber (vw a) (vw b)) /\
  f32x4Ne p a b = negb (f32x4Eq p a b).
Proof. exact f32x4_equality. Qed.
Print Assumptions C116_simd_vectors.

Theorem C116_simd_matrices : forall p (a b : mat4 f32),
  (f32x4x4Eq p a b = true <-> forall i j, (i < 4)%nat -> (j < 4)%nat -> sameNumber (ent4 a i j) (ent4 b i j)) /\
  f32x4x4Ne p a b = negb (f32x4x4Eq p a b).
Proof. exact matrix_equality. Qed.
Print Assumptions C116_simd_matrices.

(** Planes, lines, boxes, triangles and float4x4 with equal coordinates (+0 and -0) compare different. *)
Theorem C116_shapes_refuted : exists a b : vec4 f32,
  (sameNumber (vx a) (vx b) /\ sameNumber (vy a) (vy b) /\ sameNumber (vz a) (vz b) /\ sameNumber (vw a) (vw b)) /\
  (forall p, f32x4Eq p a b = true) /\
  planeEq a b = false /\ lineEq (mkLine a a) (mkLine b b) = false /\ aabbEq (mkAabb a a) (mkAabb b b) = false /\
  triEq (mkTriangle a a a) (mkTriangle b b b) = false /\ float4x4Eq (M4 a a a a) (M4 b b b b) = false.
Proof. exact shape_equality_refuted. Qed.
Print Assumptions C116_shapes_refuted.

Theorem C116_shapes_actual :
  (forall a b, planeEq a b = true <-> a = b) /\ (forall a b, lineEq a b = true <-> a = b) /\
  (forall a b, aabbEq a b = true <-> a = b) /\ (forall a b, triEq a b = true <-> a = b) /\
  (forall a b, float4x4Eq a b = true <-> a = b) /\
  (forall a b, Forall u32 (lanes4 (rparallel a)) -> Forall u32 (lanes4 (rparallel b)) -> (rayEq a b = true <-> a = b)).
Proof. exact shape_equality. Qed.
Print Assumptions C116_shapes_actual.

(** NaN differs from itself as a number and equals itself as bytes. *)
Theorem C116_nan_actual : forall a : vec4 f32, is_nan 24 128 (vx a) = true -> planeEq a a = true /\ forall p, f32x4Eq p a a = false.
Proof. exact nan_equality. Qed.
Print Assumptions C116_nan_actual.

(** The unused fourth lanes take part in the comparison of boxes. *)
Theorem C116_padding_refuted : exists a b : aabb f32,
  (vx (bmin a) = vx (bmin b) /\ vy (bmin a) = vy (bmin b) /\ vz (bmin a) = vz (bmin b) /\
   vx (bmax a) = vx (bmax b) /\ vy (bmax a) = vy (bmax b) /\ vz (bmax a) = vz (bmax b)) /\ aabbEq a b = false.
Proof. exact padding_equality. Qed.
Print Assumptions C116_padding_refuted.

(** The constructor and setDirection make different rays of the same origin and direction. *)
Theorem C116_rays_refuted : exists o d : vec4 f32,
  let a := newRay SSE2 o d false in let b := setDirection SSE2 (newRay SSE2 o d false) d false in
  rdir a = rdir b /\ rorigin a = rorigin b /\ rayEq a b = false.
Proof. exact ray_equality_refuted. Qed.
Print Assumptions C116_rays_refuted.

Example C116_ex : f32x4Eq NEON (V4 (- f0)%sc f1 f1 f1 : vec4 f32) (V4 f0 f1 f1 f1) = true /\
  f32x4Eq NEON (v4 1 2 3) (v4 1 2 4) = false /\ Forall u32 (lanes4 (rparallel (newRay SSE2 (v4 1 2 3) (v4 0 0 1) false))) /\
  is_nan 24 128 (f0 / f0 : f32)%sc = true.
Proof. split; [vm_compute; reflexivity|]. split; [vm_compute; reflexivity|]. split; [repeat constructor; unfold u32; cbn; lia|vm_compute; reflexivity]. Qed.
