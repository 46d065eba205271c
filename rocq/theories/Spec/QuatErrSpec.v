(** Distances between quaternions and between vectors, for statements about binary32 rotations. *)
From Coq Require Import ZArith Reals List.
From Flocq Require Import Core.Core.
From Verif.Model Require Import Scalar Vec.
From Verif.Spec Require Export GeomSpec EuclidSpec RotSpec NormSpec.
From Verif.Proofs Require Import OrdScalar F32Round.
Import ListNotations.
Local Open Scope R_scope.

Definition valQ (q : vec4 f32) : vec4 R := V4 (val (vx q)) (val (vy q)) (val (vz q)) (val (vw q)).
Definition lenQ (q : vec4 R) : R := sqrt (norm2 q).
Definition subQ (a b : vec4 R) : vec4 R := V4 (vx a - vx b) (vy a - vy b) (vz a - vz b) (vw a - vw b).
Definition distQ (a b : vec4 R) : R := lenQ (subQ a b).
Definition len3 (v : vec4 R) : R := sqrt (dotS v v).
Definition dist3 (a b : vec4 R) : R := len3 (minusS a b).
Definition conjQ (q : vec4 R) : vec4 R := V4 (- vx q) (- vy q) (- vz q) (vw q).
(** the quaternion [q] represents the rotation given by the unit quaternion [u] up to [d] *)
Definition nearU (d : R) (q : vec4 f32) (u : vec4 R) : Prop :=
  allFin (l4 q) /\ unitQ u /\ distQ (valQ q) u <= d.
(** the relative growth of n products *)
Definition growQ (d : R) (n : nat) : R := ((1 + d) * (1 + 8.1 / 16777216)) ^ n.
(** the unit quaternion of the rotation by [theta] about the unit axis [n] *)
Definition axisS (n : vec4 R) (theta : R) : vec4 R :=
  V4 (vx n * sin (theta / 2)) (vy n * sin (theta / 2)) (vz n * sin (theta / 2)) (cos (theta / 2)).
(** a quaternion scaled to unit length *)
Definition unitized (q : vec4 R) : vec4 R := V4 (vx q / lenQ q) (vy q / lenQ q) (vz q / lenQ q) (vw q / lenQ q).
