(** Solid angles of cube map texels in binary32. *)
From Coq Require Import ZArith Reals.
From Flocq Require Import Core.Core.
From Verif.Model Require Import Scalar Trig.
From Verif.Spec Require Export SphereSpec CubeSpec.
From Verif.Proofs Require Import OrdScalar F32Round.
Local Open Scope R_scope.

(** the library's atan2 is within one unit in the last place of the angle for a point right of the y axis *)
Definition goodAtan2 (T : Trig f32) : Prop := forall y x : f32, fin y -> fin x -> / 2 <= val x <= 2 -> -2 <= val y <= 2 ->
  fin (tatan2 y x) /\ Rabs (val (tatan2 y x) - atan (val y / val x)) <= 2 / 16777216 * Rabs (atan (val y / val x)) + bpow radix2 (-149).
(** the lines between texels [c - 1] and [c] of [n] on a face that extends from -1 to 1 *)
Definition texelEdge (n c : Z) : R := 1 - 2 * (IZR c / IZR n).
Definition nearEdge (x : R) (n c : Z) : Prop := Rabs (x - texelEdge n c) <= 10 / 16777216.
