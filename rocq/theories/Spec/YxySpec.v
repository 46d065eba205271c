(** Colours as XYZ and Yxy in binary32. *)
From Coq Require Import ZArith Reals List.
From Flocq Require Import Core.Core.
From Verif.Model Require Import Scalar Vec.
From Verif.Spec Require Import NormSpec.
From Verif.Proofs Require Import OrdScalar F32Round.
Local Open Scope R_scope.

(** linear sRGB (white point D65) to XYZ, with the published coefficients *)
Definition standardX (r g b : R) : R := 0.4124564 * r + 0.3575761 * g + 0.1804375 * b.
Definition standardY (r g b : R) : R := 0.2126729 * r + 0.7151522 * g + 0.0721750 * b.
Definition standardZ (r g b : R) : R := 0.0193339 * r + 0.1191920 * g + 0.9503041 * b.
(** a colour that emits some light: no negative channel, a sum between 2^-28 and 2^30 *)
Definition total (c : vec4 f32) : R := val (vx c) + val (vy c) + val (vz c).
Definition light (c : vec4 f32) : Prop :=
  fin (vx c) /\ fin (vy c) /\ fin (vz c) /\ 0 <= val (vx c) /\ 0 <= val (vy c) /\ 0 <= val (vz c) /\
  bpow radix2 (-28) <= total c <= bpow radix2 30.
(** every channel between 2^-34 and 2^34 *)
Definition between (x : f32) : Prop := fin x /\ bpow radix2 (-34) <= val x <= bpow radix2 34.
Definition tristimulus (c : vec4 f32) : Prop := between (vx c) /\ between (vy c) /\ between (vz c).
(** a finite number within [e] rounding units (2^-24) of [scale] from [exact] *)
Definition units (e : R) (x : f32) (exact scale : R) : Prop := fin x /\ Rabs (val x - exact) <= e / 16777216 * scale.
