(** Orthographic projections in binary32. *)
From Coq Require Import ZArith Reals.
From Flocq Require Import Core.Core IEEE754.Binary IEEE754.Bits.
From Verif.Model Require Import Scalar Vec.
Local Open Scope R_scope.

(** a finite coordinate well inside the range of binary32 *)
Definition coordinate (x : f32) : Prop := is_finite 24 128 x = true /\ Rabs (B2R 24 128 x) <= bpow radix2 30.
(** the two ends of a side of the view box *)
Definition span (v : vec2 f32) : Prop := coordinate (x2 v) /\ coordinate (y2 v) /\ bpow radix2 (-30) <= B2R 24 128 (y2 v) - B2R 24 128 (x2 v).
(** the exact image of t when [l, r] is mapped to [-1, 1], and when [n, f] is mapped to [0, 1] *)
Definition screen (l r t : R) : R := (2 * t - (l + r)) / (r - l).
Definition linearDepth (n f t : R) : R := (t - n) / (f - n).
