(** The sRGB standard (IEC 61966-2-1) and what is asked of the power function. *)
From Coq Require Import ZArith Reals List.
From Flocq Require Import Core.Core.
From Verif.Model Require Import Scalar Numeric Color.
From Verif.Spec Require Import ColorSpec.
From Verif.Proofs Require Import OrdScalar F32Round.
Local Open Scope R_scope.

(** linear intensity of the sRGB value [y] *)
Definition stdLinear (y : R) : R := if Rle_dec y 0.04045 then y / 12.92 else Rpower ((y + 0.055) / 1.055) 2.4.
(** the power function has a relative error of at most [d] for bases in [2^-10, 2] and exponents in [0, 3] *)
Definition accuratePow (d : R) (P : Pow f32) : Prop := forall b e : f32, fin b -> fin e ->
  / 1024 <= val b <= 2 -> 0 <= val e <= 3 ->
  fin (spow b e) /\ Rabs (val (spow b e) - Rpower (val b) (val e)) <= d * Rpower (val b) (val e).
(** [x] is finite and within a relative error of [d + 2^-14] of [v] *)
Definition near (d : R) (x : f32) (v : R) : Prop := fin x /\ Rabs (val x - v) <= (d + / 16384) * v.
Definition allChannels (P : Z -> Prop) (c : color) : Prop := Forall P (channels c).
