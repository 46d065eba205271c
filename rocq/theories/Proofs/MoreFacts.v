(** Further facts: constant boxes, box quotients, planes, 3x3 inverses, rotation matrices. *)
From Coq Require Import ZArith Bool List Reals Lra Lia.
From Verif.Model Require Import Outcome Scalar Vec Simd Aabb Matrix Geometry Trig Transform.
From Verif.Spec Require Import GeomSpec BvhGeomSpec RaySpec MatSpec EuclidSpec.
From Verif.Proofs Require Import OrdScalar Frustum RealLits AabbMore Euclid MatrixProofs QuatProofs CameraProofs.
Local Open Scope R_scope.

Lemma shrink_point : forall F (S : Scalar F) p a pt, shrinkPoint p a pt = shrinkBox p a (mkAabb pt pt).
Proof. reflexivity. Qed.
Lemma box_undo : forall (b : aabb R) t, subBox (translateBox b t) t = b /\ translateBox (subBox b t) t = b.
Proof.
  intros [[a b c d] [a' b' c' d']] [x y z w]. unfold subBox, translateBox.
  cbv [vsub vadd map2_4 vx vy vz vw bmin bmax sadd ssub ScalarR].
  split; apply (f_equal2 mkAabb); apply vec4_eq; ring.
Qed.
Lemma box_unscale : forall (b : aabb R) s, vx s <> 0 -> vy s <> 0 -> vz s <> 0 -> vw s <> 0 ->
  divBox (scaleBox b s) s = b /\ scaleBox (divBox b s) s = b.
Proof.
  intros [[a b c d] [a' b' c' d']] [x y z w] X Y Z W. unfold divBox, scaleBox. cbn [vx vy vz vw] in *.
  cbv [vmul vdiv map2_4 vx vy vz vw bmin bmax smul sdiv ScalarR].
  split; apply (f_equal2 mkAabb); apply vec4_eq; field; assumption.
Qed.
Lemma const_boxes : 
  getPosition (aabbZero : aabb R) = V4 0 0 0 0 /\ getSize (aabbZero : aabb R) = V4 0 0 0 0 /\
  getPosition (aabbOne : aabb R) = V4 0 0 0 0 /\ getSize (aabbOne : aabb R) = V4 1 1 1 1 /\
  getPosition (aabbTwo : aabb R) = V4 0 0 0 0 /\ getSize (aabbTwo : aabb R) = V4 2 2 2 2.
Proof.
  unfold getPosition, getSize. rewrite !vscale_half. unfold aabbZero, aabbOne, aabbTwo. rewrite !fhalfR, f1R, f0R.
  cbv [vsub vadd vneg map2_4 map_4 dup4 vx vy vz vw bmin bmax sadd ssub sneg ScalarR].
  repeat split; apply vec4_eq; field.
Qed.
Lemma raycast1_first : forall F (S : Scalar F) p b r, raycast1 p b r = x2 (raycast2 p b r).
Proof. reflexivity. Qed.
Lemma setNormal_keeps : forall F (S : Scalar F) p pl n,
  setNormal p pl n false = V4 (vx n) (vy n) (vz n) (vw pl) /\ vw (setNormal p pl n true) = vw pl.
Proof. intros. split; reflexivity. Qed.
Lemma setNormal_unit : forall p (pl n : vec4 R), nonzeroS n ->
  dotS (setNormal p pl n true) (setNormal p pl n true) = 1 /\
  let L := sqrt (dotS n n) in 0 < L /\ eq3 n (V4 (L * vx (setNormal p pl n true)) (L * vy (setNormal p pl n true)) (L * vz (setNormal p pl n true)) 0).
Proof.
  intros p pl n H. unfold setNormal. destruct (normalize3_unit p n H) as (A & B & C). exact (conj A (conj B C)).
Qed.
Lemma inverse3_actual : forall m : mat3 R, let D := det 3 (ent3 m) in D <> 0 ->
  exists n, mulm3 n m = identity3 /\ mulm3 m n = identity3 /\
  (forall i j, (i < 3)%nat -> (j < 2)%nat -> ent3 (inverse3 m) i j = ent3 n j i) /\
  ent3 (inverse3 m) 0 2 = (ent3 m 1 0 * ent3 m 2 2 - ent3 m 1 1 * ent3 m 2 0) / D /\
  ent3 (inverse3 m) 1 2 = - (ent3 m 0 0 * ent3 m 2 2 - ent3 m 0 1 * ent3 m 2 0) / D /\
  ent3 (inverse3 m) 2 2 = (ent3 m 0 0 * ent3 m 1 2 - ent3 m 0 1 * ent3 m 1 0) / D.
Proof.
  intros [[ax ay az] [bx by_ bz] [cx cy cz]] D HD. unfold D in *. clear D. revert HD. inv23. mcbn.
  set (D := ax * (by_ * cz - cy * bz) - bx * (ay * cz - cy * az) + cx * (ay * bz - by_ * az)).
  match goal with |- ?d <> 0 -> _ => intros HD; assert (ED : d = D) by (unfold D; ring); rewrite ?ED in * end.
  exists (M3 (V3 ((by_ * cz - cy * bz) / D) (- (ay * cz - cy * az) / D) ((ay * bz - by_ * az) / D))
             (V3 (- (bx * cz - cx * bz) / D) ((ax * cz - cx * az) / D) (- (ax * bz - bx * az) / D))
             (V3 ((bx * cy - cx * by_) / D) (- (ax * cy - cx * ay) / D) ((ax * by_ - bx * ay) / D))).
  split; [|split; [|split; [|repeat split]]].
  - mcbn. unfold D in *. msplit; field; exact HD.
  - mcbn. unfold D in *. msplit; field; exact HD.
  - intros i j Hi Hj. destruct i as [|[|[|]]]; try lia; destruct j as [|[|]]; try lia; mcbn; unfold D in *; field; exact HD.
  - unfold D in *; field; exact HD.
  - unfold D in *; field; exact HD.
  - unfold D in *; field; exact HD.
Qed.
(** the rotation matrices neither translate nor divide *)
Lemma rotate_affine : forall F (S : Scalar F) p a b up m, m = rotateFront p a up \/ m = rotateLook p a b up ->
  c3 m = V4 f0 f0 f0 f1 /\ vw (c0 m) = f0 /\ vw (c1 m) = f0 /\ vw (c2 m) = f0.
Proof. intros F S p a b up m [->| ->]; repeat split. Qed.
