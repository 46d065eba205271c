(** Quaternions in binary32. *)
From Coq Require Import ZArith Bool List Reals Lra.
From Flocq Require Import Core.Core.
From Verif.Model Require Import Scalar Vec Simd Lanes Quaternion Transc QuatF32.
From Verif.Spec Require Import QuatErrSpec.
From Verif.Proofs Require Import OrdScalar F32Round QuatErr QuatRot QuatWitness.
Import ListNotations.
Local Open Scope R_scope.

(** * C123 *)
Theorem C123_product : forall a b : vec4 f32, allFin (l4 a) -> allFin (l4 b) -> lenQ (valQ a) * lenQ (valQ b) <= bpow radix2 120 ->
  allFin (l4 (qmul a b)) /\
  distQ (valQ (qmul a b)) (ham (valQ a) (valQ b)) <= 8.02 / 16777216 * (lenQ (valQ a) * lenQ (valQ b)) + bpow radix2 (-145).
Proof. exact qmul_near. Qed.
Print Assumptions C123_product.
Theorem C123_chain : forall d (qs : list (vec4 f32)) us, 0 <= d <= / 64 -> Forall2 (nearU d) qs us ->
  INR (length qs) * (d + 8.3 / 16777216) <= / 8 ->
  nearU (1.125 * INR (length qs) * (d + 8.3 / 16777216)) (fold_left qmul qs qidentity) (fold_left ham us idQ) /\
  nearU (1.125 * INR (length qs) * (d + 8.3 / 16777216)) (fold_right qmul qidentity qs) (fold_right ham idQ us).
Proof. exact rotations_linear. Qed.
Print Assumptions C123_chain.
Theorem C123_normalize : forall p (q : vec4 f32), moderate (l4 q) -> nearU (5.2 / 16777216) (qnormalize p q) (unitized (valQ q)).
Proof. exact qnormalize_near. Qed.
Print Assumptions C123_normalize.
Theorem C123_conjugate : forall d q u, nearU d q u -> nearU d (qconj q) (conjQ u).
Proof. exact qconj_near. Qed.
Print Assumptions C123_conjugate.
Theorem C123_inverse : forall p d q u, 0 <= d <= / 16 -> nearU d q u -> nearU (3.6 * d + 9 / 16777216) (qinverse p q) (conjQ u).
Proof. exact qinverse_near. Qed.
Print Assumptions C123_inverse.
Theorem C123_rotate : forall p d q u (v : vec4 f32), 0 <= d <= / 64 -> nearU d q u -> allFin (l43 v) -> len3 (valQ v) <= bpow radix2 50 ->
  allFin (l43 (qrot p q v)) /\
  dist3 (valQ (qrot p q v)) (turned u (valQ v)) <= (78 / 16777216 + 8.1 * d) * len3 (valQ v) + bpow radix2 (-140).
Proof. exact qrot_near. Qed.
Print Assumptions C123_rotate.
Theorem C123_rotate_back : forall p d q u (v : vec4 f32), 0 <= d <= / 512 -> nearU d q u -> allFin (l43 v) -> len3 (valQ v) <= bpow radix2 49 ->
  dist3 (valQ (vqrot p (qrot p q v) q)) (valQ v) <= (232 / 16777216 + 38 * d) * len3 (valQ v) + bpow radix2 (-138).
Proof. exact there_and_back. Qed.
Print Assumptions C123_rotate_back.
Theorem C123_axis : forall p d (angle : f32) (axis : vec4 f32) n, p <> GEN -> fin angle -> Rabs (val angle) <= 16384 ->
  allFin (l43 axis) -> dotS n n = 1 -> 0 <= d <= / 64 -> dist3 (valQ axis) n <= d ->
  nearU (0.0000015 + d) (axisQuat p angle axis) (axisS n (val angle)).
Proof. exact axisQuat_near. Qed.
Print Assumptions C123_axis.
Theorem C123_axis_rotates : forall p d (angle : f32) (axis v : vec4 f32) n, p <> GEN -> fin angle -> Rabs (val angle) <= 16384 ->
  allFin (l43 axis) -> dotS n n = 1 -> 0 <= d <= / 65 -> dist3 (valQ axis) n <= d ->
  allFin (l43 v) -> len3 (valQ v) <= bpow radix2 50 ->
  allFin (l43 (qrot p (axisQuat p angle axis) v)) /\
  dist3 (valQ (qrot p (axisQuat p angle axis) v)) (rodrigues n (val angle) (valQ v)) <= (0.000017 + 8.1 * d) * len3 (valQ v) + bpow radix2 (-140).
Proof. exact axis_rotation. Qed.
Print Assumptions C123_axis_rotates.
Theorem C123_euler_rotates : forall p (a v : vec4 f32), p <> GEN -> allFin (l43 a) -> boundedBy 16384 (l43 a) ->
  allFin (l43 v) -> len3 (valQ v) <= bpow radix2 50 ->
  allFin (l43 (qrot p (eulerQuat p a) v)) /\
  dist3 (valQ (qrot p (eulerQuat p a) v))
    (rodrigues axisZ (val (vz a)) (rodrigues axisY (val (vy a)) (rodrigues axisX (val (vx a)) (valQ v)))) <= 0.000078 * len3 (valQ v) + bpow radix2 (-140).
Proof. exact euler_rotation. Qed.
Print Assumptions C123_euler_rotates.
(** the quaternion (0, 0.6, 0, 0.8) written in single precision, a vector and an axis meet the hypotheses *)
Example C123_ex_quat : nearU (/ 10000000) exQ (V4 0 (3 / 5) 0 (4 / 5)).
Proof. exact exQ_near. Qed.
Example C123_ex_vector : allFin (l43 exV) /\ len3 (valQ exV) <= bpow radix2 49 /\ len3 (valQ exV) >= 3.
Proof. exact exV_ok. Qed.
Example C123_ex_axis : allFin (l43 exA) /\ dotS (V4 0 (3 / 5) (4 / 5) 0) (V4 0 (3 / 5) (4 / 5) 0) = 1 /\ dist3 (valQ exA) (V4 0 (3 / 5) (4 / 5) 0) <= / 10000000.
Proof. exact exA_ok. Qed.
(** ten thousand such rotations stay within 0.007 of the true one *)
Example C123_ex_chain : Forall2 (nearU (/ 10000000)) (repeat exQ (100 * 100)) (repeat (V4 0 (3 / 5) 0 (4 / 5)) (100 * 100)) /\
  INR (length (repeat exQ (100 * 100))) * (/ 10000000 + 8.3 / 16777216) <= / 8.
Proof. exact ex_chain. Qed.
Example C123_ex_moderate : moderate (l4 exQ).
Proof. exact exQ_moderate. Qed.
