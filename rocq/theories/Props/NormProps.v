(** C120: inner products, cross products, lengths and normalisation in binary32.  [moderate l] says that the
    lanes are finite and the squared length lies between 2^-100 and 2^100. *)
From Coq Require Import ZArith Reals Bool List Lia Lra.
From Flocq Require Import Core.Core IEEE754.BinarySingleNaN IEEE754.Binary IEEE754.Bits.
From Verif.Model Require Import Scalar Vec Simd Lanes.
From Verif.Spec Require Import NormSpec.
From Verif.Proofs Require Import OrdScalar F32Round NormProofs NormWitness.
Import ListNotations.
Local Open Scope R_scope.

(** ** C120 *)
Theorem C120_dot_plain :
  (forall a b : vec2 f32, allFin (l2 a) -> allFin (l2 b) -> innerAbs (l2 a) (l2 b) <= 2 ^ 124 -> innerErr 2.01 (dotp2 a b) (l2 a) (l2 b)) /\
  (forall a b : vec3 f32, allFin (l3 a) -> allFin (l3 b) -> innerAbs (l3 a) (l3 b) <= 2 ^ 124 -> innerErr 3.01 (dotp3 a b) (l3 a) (l3 b)) /\
  (forall a b : vec4 f32, allFin (l4 a) -> allFin (l4 b) -> innerAbs (l4 a) (l4 b) <= 2 ^ 124 -> innerErr 4.01 (dotp4 a b) (l4 a) (l4 b)).
Proof. exact dots_plain. Qed.
Print Assumptions C120_dot_plain.
Theorem C120_dot_simd : forall p (a b : vec4 f32),
  (allFin (l43 a) -> allFin (l43 b) -> innerAbs (l43 a) (l43 b) <= 2 ^ 124 -> innerErr 3.01 (dot3 p a b) (l43 a) (l43 b)) /\
  (allFin (l4 a) -> allFin (l4 b) -> innerAbs (l4 a) (l4 b) <= 2 ^ 124 -> innerErr 4.01 (dot4 p a b) (l4 a) (l4 b)).
Proof. exact dots_simd. Qed.
Print Assumptions C120_dot_simd.
Theorem C120_cross : forall p,
  (forall a b : vec3 f32, allFin (l3 a) -> allFin (l3 b) -> boundedBy (bpow radix2 61) (l3 a) -> boundedBy (bpow radix2 61) (l3 b) ->
    crossErr (l3 (crossp a b)) (l3 a) (l3 b)) /\
  (forall a b : vec4 f32, allFin (l43 a) -> allFin (l43 b) -> boundedBy (bpow radix2 61) (l43 a) -> boundedBy (bpow radix2 61) (l43 b) ->
    crossErr (l43 (cross3 p a b)) (l43 a) (l43 b)).
Proof. exact (fun p => conj cross_err (cross3_err p)). Qed.
Print Assumptions C120_cross.
Theorem C120_length : forall p,
  (forall v : vec2 f32, moderate (l2 v) -> fin (lengthp2 v) /\ Rabs (val (lengthp2 v) - norm (l2 v)) <= 3.02 / 16777216 * norm (l2 v)) /\
  (forall v : vec3 f32, moderate (l3 v) -> fin (lengthp3 v) /\ Rabs (val (lengthp3 v) - norm (l3 v)) <= 3.02 / 16777216 * norm (l3 v)) /\
  (forall v : vec4 f32, moderate (l4 v) -> fin (lengthp4 v) /\ Rabs (val (lengthp4 v) - norm (l4 v)) <= 3.02 / 16777216 * norm (l4 v)) /\
  (forall v : vec4 f32, moderate (l43 v) -> fin (length3 p v) /\ Rabs (val (length3 p v) - norm (l43 v)) <= 3.02 / 16777216 * norm (l43 v)) /\
  (forall v : vec4 f32, moderate (l4 v) -> fin (length4 p v) /\ Rabs (val (length4 p v) - norm (l4 v)) <= 3.02 / 16777216 * norm (l4 v)).
Proof. exact lengths_near. Qed.
Print Assumptions C120_length.
Theorem C120_normalize_actual : forall p,
  (forall v : vec2 f32, moderate (l2 v) -> unitOf 5.1 (l2 (normalizep2 v)) (l2 v)) /\
  (forall v : vec3 f32, moderate (l3 v) -> unitOf 5.1 (l3 (normalizep3 v)) (l3 v)) /\
  (forall v : vec4 f32, moderate (l4 v) -> unitOf 5.1 (l4 (normalizep4 v)) (l4 v)) /\
  (forall v : vec4 f32, moderate (l43 v) -> unitOf 5.1 (l43 (normalize3 p v)) (l43 v)) /\
  (forall v : vec4 f32, moderate (l4 v) -> unitOf 5.1 (l4 (normalize4 p v)) (l4 v)).
Proof. exact normalize_near. Qed.
Print Assumptions C120_normalize_actual.
Theorem C120_isNormalized_actual : forall p,
  (forall v : vec2 f32, moderate (l2 v) -> isNormalizedp2 (normalizep2 v) = true) /\
  (forall v : vec3 f32, moderate (l3 v) -> isNormalizedp3 (normalizep3 v) = true) /\
  (forall v : vec4 f32, moderate (l4 v) -> isNormalizedp4 (normalizep4 v) = true) /\
  (forall v : vec4 f32, moderate (l43 v) -> isNormalized3 p (normalize3 p v) = true) /\
  (forall v : vec4 f32, moderate (l4 v) -> isNormalized4 p (normalize4 p v) = true).
Proof. exact normalized_test. Qed.
Print Assumptions C120_isNormalized_actual.
Example C120_ex : moderate (l43 (V4 (slit 3 0) (slit (-4) 0) (slit 12 0) f0 : vec4 f32)).
Proof. exact moderate_ex. Qed.
(** short vectors (here 2^-80) become infinite, long ones (2^70) vanish *)
Theorem C120_tiny_refuted : exists v : vec4 f32, allFin (l4 v) /\ inner (l43 v) (l43 v) > 0 /\
  forall p, is_finite 24 128 (vx (normalize3 p v)) = false.
Proof. exact tiny_refuted. Qed.
Print Assumptions C120_tiny_refuted.
Theorem C120_huge_refuted : exists v : vec4 f32, allFin (l4 v) /\ inner (l43 v) (l43 v) > 0 /\
  forall p, val (vx (normalize3 p v)) = 0 /\ val (vy (normalize3 p v)) = 0 /\ val (vz (normalize3 p v)) = 0.
Proof. exact huge_refuted. Qed.
Print Assumptions C120_huge_refuted.
