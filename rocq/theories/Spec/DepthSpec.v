(** Depth values of projected points. *)
From Coq Require Import ZArith Reals.
From Flocq Require Import Core.Core IEEE754.Binary IEEE754.Bits.
From Verif.Model Require Import Scalar Vec.
Local Open Scope R_scope.

(** the depth a graphics card computes from a clip space position: z / w in binary32 *)
Definition depth32 (clip : vec4 f32) : f32 := sdiv (vz clip) (vw clip).
(** the exact depth of a point at distance z, standard and reversed, for near plane n and far plane f *)
Definition depthStd (n f z : R) : R := f * (z - n) / (z * (f - n)).
Definition depthRev (n f z : R) : R := n * (f - z) / (z * (f - n)).
(** a finite positive number well inside the range of binary32 *)
Definition medium (x : f32) : Prop :=
  is_finite 24 128 x = true /\ bpow radix2 (-30) <= B2R 24 128 x <= bpow radix2 30.
