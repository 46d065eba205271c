(** The triangle-box test in binary32. *)
From Coq Require Import ZArith Reals List.
From Flocq Require Import Core.Core.
From Verif.Model Require Import Scalar Vec Simd Geometry.
From Verif.Spec Require Export EuclidSpec CullSpec.
From Verif.Proofs Require Import OrdScalar F32Round.
Local Open Scope R_scope.

(** a multiple of 2^-36 of magnitude at most 2^30; every float between 2^-12 and 2^30 is one, and so is zero *)
Definition gridded (x : f32) : Prop :=
  fin x /\ (exists k : Z, val x = IZR k * bpow radix2 (-36)) /\ Rabs (val x) <= bpow radix2 30.
Definition griddedV (v : vec4 f32) : Prop := gridded (vx v) /\ gridded (vy v) /\ gridded (vz v).
(** half extents changed by [d] on every side *)
Definition widen (d : R) (h : vec4 R) : vec4 R := V4 (vx h + d) (vy h + d) (vz h + d) 0.
Definition within3 (m : R) (v : vec4 R) : Prop := Rabs (vx v) <= m /\ Rabs (vy v) <= m /\ Rabs (vz v) <= m.
(** the sum of the magnitudes of the six products in a cross product, and of its three lanes *)
Definition spread (a b : vec4 R) : R :=
  Rabs (vy a * vz b) + Rabs (vz a * vy b) + (Rabs (vz a * vx b) + Rabs (vx a * vz b)) + (Rabs (vx a * vy b) + Rabs (vy a * vx b)).
Definition sum3 (n : vec4 R) : R := Rabs (vx n) + Rabs (vy n) + Rabs (vz n).
(** no sliver: the products of the normal cancel at most [K]-fold *)
Definition stout (K : R) (v0 v1 v2 : vec4 R) : Prop :=
  spread (minusS v1 v0) (minusS v2 v1) <= K * sum3 (crossS (minusS v1 v0) (minusS v2 v1)).
(** a triangle of binary32 points *)
Definition realT (t : triangle f32) : triangle R := mkTriangle (realV (t0 t)) (realV (t1 t)) (realV (t2 t)).
