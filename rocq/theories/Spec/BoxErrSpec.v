(** Boxes with binary32 coordinates: centre, extent and moves. *)
From Coq Require Import ZArith Reals List.
From Flocq Require Import Core.Core IEEE754.Binary IEEE754.Bits.
From Verif.Model Require Import Scalar Vec Aabb.
Import ListNotations.
Local Open Scope R_scope.

(** the three axes, and the coordinate on one *)
Definition axes : list (vec4 f32 -> f32) := [vx; vy; vz].
Definition on (i : vec4 f32 -> f32) (v : vec4 f32) : R := B2R 24 128 (i v).
(** finite coordinates up to 2^k *)
Definition upTo (k : Z) (v : vec4 f32) : Prop := forall i, In i axes -> is_finite 24 128 (i v) = true /\ Rabs (on i v) <= bpow radix2 k.
(** a box whose first corner is below the second; two coordinates may be added without overflow *)
Definition properBox (b : aabb f32) : Prop := upTo 126 (bmin b) /\ upTo 126 (bmax b) /\ forall i, In i axes -> on i (bmin b) <= on i (bmax b).
(** the point is in the box *)
Definition inside (b : aabb f32) (v : vec4 f32) : Prop := forall i, In i axes -> is_finite 24 128 (i v) = true /\ on i (bmin b) <= on i v <= on i (bmax b).
(** x is within k rounding units of the magnitude m of X *)
Definition within (k m x X : R) : Prop := Rabs (x - X) <= k / 16777216 * m + bpow radix2 (-147).
