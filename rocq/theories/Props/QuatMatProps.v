(** Quaternions and rotation matrices in binary32. *)
From Coq Require Import ZArith Bool List Reals Lra.
From Flocq Require Import Core.Core.
From Verif.Model Require Import Scalar Vec Simd Lanes Quaternion Matrix Transform.
From Verif.Spec Require Import QuatMatSpec.
From Verif.Proofs Require Import OrdScalar F32Round QuatMat QuatWitness QuatMatTurn.
Import ListNotations.
Local Open Scope R_scope.

(** * C144 *)
Theorem C144_matrix : forall d q u, 0 <= d <= / 64 -> nearU d q u -> nearRot (4.04 * d + 7.5 / 16777216) (rotate q) u /\ pureRot (rotate q).
Proof. exact rotate_near. Qed.
Print Assumptions C144_matrix.
Theorem C144_extract : forall d m u, 0 <= d <= / 64 -> nearRot d m u ->
  nearU (5.2 * d + 24 / 16777216) (extractQuat m) u \/ nearU (5.2 * d + 24 / 16777216) (extractQuat m) (negQ u).
Proof. exact extract_near. Qed.
Print Assumptions C144_extract.
Theorem C144_round_trip : forall d q u, 0 <= d <= / 300 -> nearU d q u ->
  nearU (21.1 * d + 63 / 16777216) (extractQuat (rotate q)) u \/ nearU (21.1 * d + 63 / 16777216) (extractQuat (rotate q)) (negQ u).
Proof. exact matrix_round_trip. Qed.
Print Assumptions C144_round_trip.
Theorem C144_same_turn : forall p d q u (v : vec4 f32), 0 <= d <= / 2000 -> nearU d q u -> allFin (l43 v) -> len3 (valQ v) <= bpow radix2 50 ->
  allFin (l43 (qrot p (extractQuat (rotate q)) v)) /\
  dist3 (valQ (qrot p (extractQuat (rotate q)) v)) (turned u (valQ v)) <= (171 * d + 589 / 16777216) * len3 (valQ v) + bpow radix2 (-140).
Proof. exact same_turn. Qed.
Print Assumptions C144_same_turn.
Theorem C144_model : forall p (pos q : vec4 f32), allFin (l43 pos) -> moderate (l4 q) ->
  let r := extractTransform2 (calcModel p pos q (V4 f1 f1 f1 f1)) in
  allFin (l43 (fst r)) /\ map (fun x : f32 => val x) (l43 (fst r)) = map (fun x : f32 => val x) (l43 pos) /\
  (nearU (173 / 16777216) (snd r) (unitized (valQ q)) \/ nearU (173 / 16777216) (snd r) (negQ (unitized (valQ q)))).
Proof. exact model_round_trip. Qed.
Print Assumptions C144_model.
Theorem C144_sign_refuted : exists (q : vec4 f32) u, nearU 0 q u /\ distQ (valQ (extractQuat (rotate q))) u = 2.
Proof. exact sign_lost. Qed.
Print Assumptions C144_sign_refuted.
(** the quaternion (0, 0.6, 0, 0.8) and its matrix, written in single precision, meet the hypotheses *)
Example C144_ex_quat : nearU (/ 10000000) exQ (V4 0 (3 / 5) 0 (4 / 5)) /\ moderate (l4 exQ).
Proof. exact (conj exQ_near exQ_moderate). Qed.
Example C144_ex_matrix : nearRot (/ 1000000) (rotate exQ) (V4 0 (3 / 5) 0 (4 / 5)) /\
  turnedAxes (V4 0 (3 / 5) 0 (4 / 5)) = [[7 / 25; 0; - (24 / 25)]; [0; 1; 0]; [24 / 25; 0; 7 / 25]].
Proof. exact exM_near. Qed.
Example C144_ex_vector : allFin (l43 exV) /\ len3 (valQ exV) <= bpow radix2 49 /\ len3 (valQ exV) >= 3.
Proof. exact exV_ok. Qed.
