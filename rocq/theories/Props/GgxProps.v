(** The GGX distribution and the remapped reflectance in binary32. *)
From Coq Require Import ZArith Bool List Reals Lra Lia.
From Flocq Require Import Core.Core IEEE754.Binary.
From Verif.Model Require Import Scalar Numeric.
From Verif.Spec Require Import AngleSpec GgxSpec.
From Verif.Proofs Require Import OrdScalar F32Round GgxErr.
Local Open Scope R_scope.

(** * C153 *)
Theorem C153_finite_refuted : exists r : f32, fin r /\ 0 < val r < 1 /\ ggx f1 r = B754_infinity 24 128 false.
Proof. exact ggx_overflow. Qed.
Print Assumptions C153_finite_refuted.
Theorem C153_ggx_actual : forall n r : f32, fin n -> fin r -> -1 <= val n <= 1 -> / 512 <= val r <= 1 ->
  within (18 / (val r * val r)) (ggx n r) (trowbridgeReitz (val n) (val r)).
Proof. exact ggx_near. Qed.
Print Assumptions C153_ggx_actual.
Theorem C153_reflectance : forall x : f32, fin x -> 0 <= val x <= bpow radix2 19 -> val x = 1 \/ bpow radix2 (-20) <= Rabs (val x - 1) ->
  within 6 (iorToReflectance x) (remappedReflectance (val x)).
Proof. exact reflectance_near. Qed.
Print Assumptions C153_reflectance.
(** roughness 1/2 seen along the normal, and glass *)
Example C153_ex : fin (fhalf : f32) /\ / 512 <= val (fhalf : f32) <= 1 /\ trowbridgeReitz 1 (/ 2) = 4 / PI /\ remappedReflectance 1.5 = 0.5.
Proof. exact ex_ggx. Qed.
