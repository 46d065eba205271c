(** The window that deringing applies to the bands of spherical harmonics. *)
From Coq Require Import ZArith Reals.
From Flocq Require Import Core.Core.
From Verif.Model Require Import Scalar Vec Trig.
From Verif.Proofs Require Import OrdScalar F32Round.
Local Open Scope R_scope.

(** the fourth power of sin(x) / x at x = pi l / w, zero from l = w on *)
Definition window (l : Z) (w : R) : R :=
  if Z.eqb l 0 then 1 else if Rle_dec w (IZR l) then 0 else (sin (PI * IZR l / w) / (PI * IZR l / w)) ^ 4.
(** the library's sine is within one unit in the last place of the sine on (0, 4] *)
Definition goodSin (T : Trig f32) : Prop := forall x : f32, fin x -> 0 < val x <= 4 ->
  fin (tsin x) /\ Rabs (val (tsin x) - sin (val x)) <= 2 / 16777216 * Rabs (sin (val x)) + bpow radix2 (-149).
(** coefficients of moderate size *)
Definition moderate (v : vec4 f32) : Prop :=
  let ok x := fin x /\ Rabs (val x) <= 500000 in ok (vx v) /\ ok (vy v) /\ ok (vz v) /\ ok (vw v).
(** each lane of [r] is the lane of [v] times [k], up to rounding *)
Definition timesNear (k : R) (v r : vec4 f32) : Prop :=
  let ok x y := fin y /\ Rabs (val y - k * val x) <= 31.1 / 16777216 * Rabs (val x) + / 1000000000000000000 in
  ok (vx v) (vx r) /\ ok (vy v) (vy r) /\ ok (vz v) (vz r) /\ ok (vw v) (vw r).
