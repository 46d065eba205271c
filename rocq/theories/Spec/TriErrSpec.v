(** Points against triangles in binary32. *)
From Coq Require Import ZArith Reals List.
From Flocq Require Import Core.Core.
From Verif.Model Require Import Scalar Vec Simd Geometry.
From Verif.Spec Require Export EuclidSpec CullSpec SatErrSpec.
From Verif.Proofs Require Import OrdScalar F32Round.
Local Open Scope R_scope.

(** a multiple of 2^-31 of magnitude at most 2^29; every float between 2^-8 and 2^29 is one, and so is zero *)
Definition coarse (x : f32) : Prop :=
  fin x /\ (exists k : Z, val x = IZR k * bpow radix2 (-31)) /\ Rabs (val x) <= bpow radix2 29.
Definition coarseV (v : vec4 f32) : Prop := coarse (vx v) /\ coarse (vy v) /\ coarse (vz v).
(** some float has this value *)
Definition representable (x : R) : Prop := exists y : f32, fin y /\ val y = x.
(** the difference of two points has representable lanes, none above 2^30 *)
Definition exactDiff (a b : vec4 f32) : Prop :=
  fin (vx a) /\ fin (vy a) /\ fin (vz a) /\ fin (vx b) /\ fin (vy b) /\ fin (vz b) /\
  representable (val (vx a) - val (vx b)) /\ representable (val (vy a) - val (vy b)) /\ representable (val (vz a) - val (vz b)) /\
  within3 (bpow radix2 30) (minusS (realV a) (realV b)).
(** [q] is [k] normals away from the combination of the corners with these weights *)
Definition lifted (t : triangle R) (u v w k : R) (q : vec4 R) : Prop :=
  u + v + w = 1 /\
  vx q = u * vx (t0 t) + v * vx (t1 t) + w * vx (t2 t) + k * vx (normalS t) /\
  vy q = u * vy (t0 t) + v * vy (t1 t) + w * vy (t2 t) + k * vy (normalS t) /\
  vz q = u * vz (t0 t) + v * vz (t1 t) + w * vz (t2 t) + k * vz (normalS t).
(** four times the squared area *)
Definition area4 (t : triangle R) : R := dotS (normalS t) (normalS t).
(** the corners are within [M] of the point in every coordinate *)
Definition cornersNear (M : R) (t : triangle R) (q : vec4 R) : Prop :=
  within3 M (minusS (t0 t) q) /\ within3 M (minusS (t1 t) q) /\ within3 M (minusS (t2 t) q).
