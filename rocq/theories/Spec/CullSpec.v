(** Frustum culling of binary32 boxes, judged by the exact plane equations of the same numbers. *)
From Coq Require Import ZArith Reals List.
From Flocq Require Import Core.Core.
From Verif.Model Require Import Scalar Vec Aabb Matrix.
From Verif.Spec Require Export GeomSpec BvhGeomSpec MatErrSpec.
From Verif.Proofs Require Import OrdScalar F32Round.
Import ListNotations.
Local Open Scope R_scope.

(** binary32 vectors, boxes and matrices as real ones *)
Definition realV (v : vec4 f32) : vec4 R := V4 (val (vx v)) (val (vy v)) (val (vz v)) (val (vw v)).
Definition realBox (b : aabb f32) : aabb R := mkAabb (realV (bmin b)) (realV (bmax b)).
Definition realM (m : mat4 f32) : mat4 R := M4 (realV (c0 m)) (realV (c1 m)) (realV (c2 m)) (realV (c3 m)).

(** the largest magnitude of each coordinate in the box *)
Definition far (b : aabb R) : vec4 R :=
  V4 (Rmax (Rabs (vx (bmin b))) (Rabs (vx (bmax b)))) (Rmax (Rabs (vy (bmin b))) (Rabs (vy (bmax b))))
     (Rmax (Rabs (vz (bmin b))) (Rabs (vz (bmax b)))) 1.
(** the sum of the magnitudes of the terms of the plane equation at points bounded by [w] *)
Definition reach (pl w : vec4 R) : R :=
  Rabs (vx pl) * vx w + Rabs (vy pl) * vy w + Rabs (vz pl) * vz w + Rabs (vw pl).
(** [k] rounding errors of that sum, and underflow [t] times 2^-150 *)
Definition slack (k t r : R) : R := k / 16777216 * r + t * bpow radix2 (-150).

(** a box that is not empty with finite corners of magnitude at most 2^60; the w lanes are not used *)
Definition mildBox (b : aabb f32) : Prop := mild (l43 (bmin b)) /\ mild (l43 (bmax b)) /\ nonEmpty (realBox b).

(** every point of the box is outside the plane by more than [- s] *)
Definition beyond (b : aabb R) (pl : vec4 R) (s : R) : Prop := forall q, inBox b q -> planeSide pl q < s.

(** clip coordinates of a point and the six conditions on them: -w <= x <= w, -w <= y <= w, 0 <= z <= w *)
Definition rowR (f : vec4 R -> R) (m : mat4 R) : vec4 R := V4 (f (c0 m)) (f (c1 m)) (f (c2 m)) (f (c3 m)).
Definition clipSlacks (m : mat4 R) (q : vec4 R) : list R :=
  let x := planeSide (rowR vx m) q in let y := planeSide (rowR vy m) q in
  let z := planeSide (rowR vz m) q in let w := planeSide (rowR vw m) q in
  [w + x; w - x; w - y; w + y; z; w - z].
(** the planes of these conditions *)
Definition addV (a b : vec4 R) : vec4 R := V4 (vx a + vx b) (vy a + vy b) (vz a + vz b) (vw a + vw b).
Definition subV (a b : vec4 R) : vec4 R := V4 (vx a - vx b) (vy a - vy b) (vz a - vz b) (vw a - vw b).
Definition clipPlanes (m : mat4 R) : list (vec4 R) :=
  let x := rowR vx m in let y := rowR vy m in let z := rowR vz m in let w := rowR vw m in
  [addV w x; subV w x; subV w y; addV w y; z; subV w z].

(** a model matrix in front: the equation at the transformed point, and the bound of its terms *)
Definition through (m : mat4 R) (q : vec4 R) : vec4 R :=
  V4 (planeSide (rowR vx m) q) (planeSide (rowR vy m) q) (planeSide (rowR vz m) q) (planeSide (rowR vw m) q).
Definition throughFar (m : mat4 R) (w : vec4 R) : vec4 R :=
  V4 (reach (rowR vx m) w) (reach (rowR vy m) w) (reach (rowR vz m) w) (reach (rowR vw m) w).
Definition beyondThrough (m : mat4 R) (b : aabb R) (pl : vec4 R) (s : R) : Prop :=
  forall q, inBox b q -> planeSide pl (through m q) < s.
(** length of a plane's normal, and the size of a point bounded by [w] *)
Definition normalLen (pl : vec4 R) : R := sqrt (vx pl * vx pl + vy pl * vy pl + vz pl * vz pl).
Definition girth (w : vec4 R) : R := 1 + vx w + vy w + vz w.
(** smaller numbers, so that products of three stay in range *)
Definition modest (l : list f32) : Prop := allFin l /\ boundedBy (bpow radix2 36) l.
Definition modestBox (b : aabb f32) : Prop := modest (l43 (bmin b)) /\ modest (l43 (bmax b)) /\ nonEmpty (realBox b).
Definition modestM (m : mat4 f32) : Prop := Forall modest (rowsOf4 m).
(** normals neither tiny nor huge *)
Definition fairNormal (pl : vec4 R) : Prop := bpow radix2 (-49) <= normalLen pl <= bpow radix2 49.
