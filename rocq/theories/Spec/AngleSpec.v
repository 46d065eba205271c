(** Angles in binary32: what a conversion must return. *)
From Coq Require Import ZArith Reals.
From Flocq Require Import Core.Core.
From Verif.Model Require Import Scalar.
From Verif.Proofs Require Import OrdScalar F32Round.
Local Open Scope R_scope.

(** zero, or of a magnitude between 2^-90 and 2^90 *)
Definition angleIn (x : f32) : Prop := fin x /\ (val x = 0 \/ bpow radix2 (-90) <= Rabs (val x) <= bpow radix2 90).
(** finite and within [k] units of 2^-24, relative to the exact value [Y] *)
Definition within (k : R) (y : f32) (Y : R) : Prop := fin y /\ Rabs (val y - Y) <= k / 16777216 * Rabs Y.
