(** Model matrices in binary32: the sizes that errors are relative to. *)
From Coq Require Import ZArith Reals List.
From Flocq Require Import Core.Core.
From Verif.Model Require Import Scalar Vec Matrix.
From Verif.Spec Require Export QuatMatSpec.
From Verif.Proofs Require Import OrdScalar F32Round.
Import ListNotations.
Local Open Scope R_scope.

(** finite components of magnitude at most 2^50 *)
Definition inRange (v : vec4 f32) : Prop := allFin (l43 v) /\ boundedBy (bpow radix2 50) (l43 v).
(** sum of the magnitudes of the scaled coordinates, and of the coordinates *)
Definition reach (s v : vec4 f32) : R := Rabs (val (vx s) * val (vx v)) + Rabs (val (vy s) * val (vy v)) + Rabs (val (vz s) * val (vz v)).
Definition total (v : vec4 f32) : R := Rabs (val (vx v)) + Rabs (val (vy v)) + Rabs (val (vz v)).
(** a rounding unit and the underflow *)
Definition ulp1 : R := / 16777216.
(** one lane: the exact position up to 5 units of the translation and 34 units of the scaled coordinates *)
Definition laneNear (r : f32) (exact t : R) (s v : vec4 f32) : Prop :=
  fin r /\ Rabs (val r - exact) <= 5 * ulp1 * Rabs t + 34 * ulp1 * reach s v + bpow radix2 (-146) * (1 + total v).
(** a column of the matrix: the image of an axis times its scale, with a fourth lane of zero *)
Definition colNear (c : vec4 f32) (s : f32) (a : vec4 R) : Prop :=
  Forall2 (fun (x : f32) r => fin x /\ Rabs (val x - r * val s) <= 30 * ulp1 * Rabs (val s) + bpow radix2 (-150)) (l43 c) (l43 a) /\ fin (vw c) /\ val (vw c) = 0.
