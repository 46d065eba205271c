(** Nearly rigid matrices in binary32: a rotation up to [d] and a translation. *)
From Coq Require Import ZArith Reals List.
From Flocq Require Import Core.Core.
From Verif.Model Require Import Scalar Vec Matrix.
From Verif.Spec Require Export NormSpec.
From Verif.Proofs Require Import OrdScalar F32Round.
Import ListNotations.
Local Open Scope R_scope.

(** finite, each coordinate at most 2^50 in magnitude *)
Definition reachable (v : vec4 f32) : Prop := allFin (l43 v) /\ boundedBy (bpow radix2 50) (l43 v).
(** a point has 1 in its fourth lane *)
Definition point1 (v : vec4 f32) : Prop := reachable v /\ fin (vw v) /\ val (vw v) = 1.
(** the fourth lane of an axis is 0 *)
Definition axis0 (c : vec4 f32) : Prop := allFin (l43 c) /\ fin (vw c) /\ val (vw c) = 0.
(** the axes have length one and are at right angles, up to [d] in each inner product *)
Definition nearRigid (d : R) (m : mat4 f32) : Prop :=
  axis0 (c0 m) /\ axis0 (c1 m) /\ axis0 (c2 m) /\ point1 (c3 m) /\
  Rabs (inner (l43 (c0 m)) (l43 (c0 m)) - 1) <= d /\ Rabs (inner (l43 (c1 m)) (l43 (c1 m)) - 1) <= d /\
  Rabs (inner (l43 (c2 m)) (l43 (c2 m)) - 1) <= d /\ Rabs (inner (l43 (c0 m)) (l43 (c1 m))) <= d /\
  Rabs (inner (l43 (c0 m)) (l43 (c2 m))) <= d /\ Rabs (inner (l43 (c1 m)) (l43 (c2 m))) <= d.
(** sum of the magnitudes of the coordinates *)
Definition taxi (v : vec4 f32) : R := Rabs (val (vx v)) + Rabs (val (vy v)) + Rabs (val (vz v)).
(** a coordinate that comes back up to the defect of the matrix and rounding *)
Definition returned (d : R) (r x : f32) (v t : vec4 f32) : Prop :=
  fin r /\ Rabs (val r - val x) <= (d + 25 / 16777216) * taxi v + 20 / 16777216 * taxi t + bpow radix2 (-140).
