(** GGX importance sampling in binary32. *)
From Coq Require Import ZArith Bool List Reals Lra Lia.
From Flocq Require Import Core.Core IEEE754.Binary.
From Verif.Model Require Import Scalar Vec Trig Numeric Ibl.
From Verif.Spec Require Import AngleSpec IblSpec.
From Verif.Proofs Require Import OrdScalar F32Round SampleErr.
Local Open Scope R_scope.

(** * C155 *)
Theorem C155_number_refuted : exists w a : f32, fin w /\ fin a /\ 0 <= val w < 1 /\ 0 < val a < 1 /\
  forall (T : Trig f32) ux, is_nan 24 128 (vx (importanceSamplingNdfDggx (V2 ux w) a)) = true /\ is_nan 24 128 (vy (importanceSamplingNdfDggx (V2 ux w) a)) = true.
Proof. exact sample_nan. Qed.
Print Assumptions C155_number_refuted.
Theorem C155_unit_actual : forall (T : Trig f32) (u : vec2 f32) (a : f32) e, let phi := (f2 * piF * x2 u)%sc in let h := importanceSamplingNdfDggx u a in
  fin (y2 u) -> fin a -> 0 <= val (y2 u) < 1 -> / 1024 <= val a <= 1 ->
  fin (tcos phi) -> fin (tsin phi) -> e <= 1 -> Rabs (val (tcos phi) * val (tcos phi) + val (tsin phi) * val (tsin phi) - 1) <= e ->
  fin (vx h) /\ fin (vy h) /\ fin (vz h) /\ 0 <= val (vz h) <= 1 /\
  Rabs (val (vx h) * val (vx h) + val (vy h) * val (vy h) + val (vz h) * val (vz h) - 1) <= e + 10 * / 16777216.
Proof. exact sample_unit. Qed.
Print Assumptions C155_unit_actual.
Theorem C155_quantile_actual : forall (T : Trig f32) (u : vec2 f32) (a : f32), fin (y2 u) -> fin a -> 0 <= val (y2 u) < 1 -> / 512 <= val a <= 1 ->
  exists c, 0 < c <= 1 /\ tailFraction (val a) c = val (y2 u) /\ within (5 / (val a * val a)) (vz (importanceSamplingNdfDggx u a)) c.
Proof. exact sample_quantile. Qed.
Print Assumptions C155_quantile_actual.
(** roughness and second coordinate 1/2; a cosine and sine on the unit circle *)
Example C155_ex : fin (fhalf : f32) /\ 0 <= val (fhalf : f32) < 1 /\ / 512 <= val (fhalf : f32) <= 1 /\ tailFraction (/ 2) (sqrt (0.8)) = / 2.
Proof. exact ex_sample. Qed.
Example C155_ex_trig : forall x : f32, fin (@tcos f32 flatTrig x) /\ fin (@tsin f32 flatTrig x) /\
  Rabs (val (@tcos f32 flatTrig x) * val (@tcos f32 flatTrig x) + val (@tsin f32 flatTrig x) * val (@tsin f32 flatTrig x) - 1) <= 0.
Proof. exact ex_sample_trig. Qed.
