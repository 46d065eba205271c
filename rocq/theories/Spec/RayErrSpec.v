(** Rays against boxes in binary32, measured by exact rays against slightly moved boxes. *)
From Coq Require Import Reals ZArith.
From Flocq Require Import Core.Raux Core.Defs IEEE754.Binary IEEE754.Bits.
From Verif.Model Require Import Scalar Vec Simd Aabb.
From Verif.Proofs Require Import OrdScalar.
From Verif.Spec Require Import GeomSpec BvhGeomSpec RaySpec CullSpec.
Local Open Scope R_scope.

(** coordinates up to 2^60 *)
Definition coordIn (x : f32) : Prop := is_finite 24 128 x = true /\ Rabs (B2R 24 128 x) <= 2 ^ 60.
Definition pointIn60 (v : vec4 f32) : Prop := coordIn (vx v) /\ coordIn (vy v) /\ coordIn (vz v).
(** One axis of an inverted ray of direction [d]: either the axis is flagged as parallel and d is zero,
    or it holds the binary32 quotient 1 / d, where d is zero or has a magnitude from 2^-60 to 2^60. *)
Definition invertedAxis32 (flag : Z) (stored d : f32) : Prop :=
  is_finite 24 128 d = true /\
  ((flag = 4294967295%Z /\ B2R 24 128 d = 0) \/
   (flag = 0%Z /\ stored = (f1 / d)%sc /\ (B2R 24 128 d = 0 \/ / 2 ^ 60 <= Rabs (B2R 24 128 d) <= 2 ^ 60))).
Definition invertedRay32 (r : ray f32) (d : vec4 f32) : Prop :=
  invertedAxis32 (vx (rparallel r)) (vx (rdir r)) (vx d) /\
  invertedAxis32 (vy (rparallel r)) (vy (rdir r)) (vy d) /\
  invertedAxis32 (vz (rparallel r)) (vz (rdir r)) (vz d).
(** on an axis along which the ray does not move, unless flagged, it does not run in a face *)
Definition offFace (flag : Z) (o lo hi d : f32) : Prop :=
  flag = 0%Z -> B2R 24 128 d = 0 -> B2R 24 128 o <> B2R 24 128 lo /\ B2R 24 128 o <> B2R 24 128 hi.
Definition offFaces (r : ray f32) (d : vec4 f32) (b : aabb f32) : Prop :=
  offFace (vx (rparallel r)) (vx (rorigin r)) (vx (bmin b)) (vx (bmax b)) (vx d) /\
  offFace (vy (rparallel r)) (vy (rorigin r)) (vy (bmin b)) (vy (bmax b)) (vy d) /\
  offFace (vz (rparallel r)) (vz (rorigin r)) (vz (bmin b)) (vz (bmax b)) (vz d).
(** the ray moves *)
Definition moves (d : vec4 f32) : Prop :=
  B2R 24 128 (vx d) <> 0 \/ B2R 24 128 (vy d) <> 0 \/ B2R 24 128 (vz d) <> 0.

(** how far a face at [m] may move, seen from the origin coordinate [o] along [d] *)
Definition faceSlack (o d m : R) : R := 3.001 / 2 ^ 24 * Rabs (m - o) + Rabs d / 2 ^ 150.
Definition movedFace (o d m m' : R) : Prop :=
  Rabs (m' - m) <= faceSlack o d m /\ (d = 0 -> m' = m).
Definition movedCorner (o d m : vec4 f32) (m' : vec4 R) : Prop :=
  movedFace (B2R 24 128 (vx o)) (B2R 24 128 (vx d)) (B2R 24 128 (vx m)) (vx m') /\
  movedFace (B2R 24 128 (vy o)) (B2R 24 128 (vy d)) (B2R 24 128 (vy m)) (vy m') /\
  movedFace (B2R 24 128 (vz o)) (B2R 24 128 (vz d)) (B2R 24 128 (vz m)) (vz m').

(** the coordinate [x] is inside the interval grown, or shrunk, by the slack *)
Definition inGrown (o d lo hi x : R) : Prop := lo - faceSlack o d lo <= x <= hi + faceSlack o d hi.
Definition inShrunk (o d lo hi x : R) : Prop := lo + faceSlack o d lo <= x <= hi - faceSlack o d hi.
Definition inBoxBy (inside : R -> R -> R -> R -> R -> Prop) (b : aabb f32) (o d : vec4 f32) (x : vec4 R) : Prop :=
  inside (B2R 24 128 (vx o)) (B2R 24 128 (vx d)) (B2R 24 128 (vx (bmin b))) (B2R 24 128 (vx (bmax b))) (vx x) /\
  inside (B2R 24 128 (vy o)) (B2R 24 128 (vy d)) (B2R 24 128 (vy (bmin b))) (B2R 24 128 (vy (bmax b))) (vy x) /\
  inside (B2R 24 128 (vz o)) (B2R 24 128 (vz d)) (B2R 24 128 (vz (bmin b))) (B2R 24 128 (vz (bmax b))) (vz x).
