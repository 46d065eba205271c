(** C81, C106 - C111: the SIMD exponential, logarithm, power, sine, cosine and gamma correction in
    binary32.  [fin x] says the value is finite, [val x] is its real value.  The reference functions
    are those of the standard library's reals. *)
From Coq Require Import ZArith Reals Bool List Lia Lra.
From Flocq Require Import Core.Core IEEE754.BinarySingleNaN IEEE754.Binary IEEE754.Bits.
From Verif.Model Require Import Outcome Scalar Vec Simd SimdInt Lanes Transc.
From Verif.Proofs Require Import OrdScalar F32Round F32Err NumericProofs RealTrans ExpProofs LogProofs SinCosProofs PowProofs TranscWitness.
Import ListNotations.
Local Open Scope R_scope.

(** ** C81 *)

Theorem C81_refuted : ~ (forall p (v : f32), p <> GEN -> is_nan 24 128 v = true -> is_nan 24 128 (expLane p v) = true) /\
  ~ (forall p (v : f32), p <> GEN -> is_nan 24 128 v = true -> is_nan 24 128 (logLane p v) = true) /\
  ~ (forall p, p <> GEN -> logLane p pinf = pinf).
Proof. exact specials_refuted. Qed.
Print Assumptions C81_refuted.

Theorem C81_exp_actual : forall p (v : f32),
  ((fin v /\ 104 < val v) \/ v = pinf -> expLane p v = pinf) /\
  ((fin v /\ val v < -104) \/ v = ninf -> expLane p v = f0).
Proof. exact exp_special. Qed.
Print Assumptions C81_exp_actual.

Theorem C81_log_actual : forall p (v : f32),
  (fin v -> val v = 0 -> logLane p v = ninf) /\
  ((fin v /\ val v < 0) \/ v = ninf -> is_nan 24 128 (logLane p v) = true).
Proof. exact log_special. Qed.
Print Assumptions C81_log_actual.

Example C81_hypotheses : fin (slit 105 0 : f32) /\ 104 < val (slit 105 0 : f32) /\ fin (slit (-3) (-149) : f32) /\ val (slit (-3) (-149) : f32) < 0.
Proof.
  destruct (lit_val 105 0 ltac:(lia) ltac:(lia)) as [A B]. destruct (lit_val (-3) (-149) ltac:(lia) ltac:(lia)) as [C D].
  rewrite B, D. pose proof (bpow_gt_0 radix2 (-149)). change (bpow radix2 0) with 1. repeat split; try assumption; lra.
Qed.

(** ** C106 *)

Theorem C106_exp_accurate : forall p v, p <> GEN -> fin v -> -87 <= val v <= 88 ->
  fin (expLane p v) /\ Rabs (val (expLane p v) - exp (val v)) <= 0.0000003 * exp (val v).
Proof. exact expLane_accurate. Qed.
Print Assumptions C106_exp_accurate.

Example C106_hypotheses : fin (slit (-173) (-1) : f32) /\ -87 <= val (slit (-173) (-1) : f32) <= 88.
Proof.
  destruct (lit_val (-173) (-1) ltac:(lia) ltac:(lia)) as [A B]. split; [exact A|]. rewrite B. change (bpow radix2 (-1)) with (/ 2). lra.
Qed.
Example C106_case : expLane AVX2 f1 = slit 11401300 (-22).
Proof. apply Binary.B2FF_inj; vm_compute; reflexivity. Qed.

(** ** C107 *)

Theorem C107_refuted : exists v : f32, fin v /\ 1 <= val v <= 2 /\
  forall p, p <> GEN -> Rabs (val (logLane p v) - ln (val v)) > 0.00003.
Proof. exact log_bad. Qed.
Print Assumptions C107_refuted.

Theorem C107_neon_refuted : exists v : f32, fin v /\ val v = 0.5 /\ val (logLane NEON v) > 1000000000.
Proof. exact log_neon_bad. Qed.
Print Assumptions C107_neon_refuted.

Theorem C107_log_actual : forall p (v : f32), p <> GEN -> (p = NEON -> 1 <= val v) -> fin v -> 0 < val v ->
  fin (logLane p v) /\ Rabs (val (logLane p v) - ln (val v)) <= 0.00006.
Proof. exact logLane_accurate. Qed.
Print Assumptions C107_log_actual.

Example C107_hypotheses : fin (slit 5 (-149) : f32) /\ 0 < val (slit 5 (-149) : f32) /\ 1 <= val (slit 9 0 : f32).
Proof.
  destruct (lit_val 5 (-149) ltac:(lia) ltac:(lia)) as [A B]. destruct (lit_val 9 0 ltac:(lia) ltac:(lia)) as [C D].
  rewrite B, D. pose proof (bpow_gt_0 radix2 (-149)). change (bpow radix2 0) with 1. repeat split; try assumption; lra.
Qed.

(** ** C108 *)

Theorem C108_refuted : exists v : f32, fin v /\ forall p, p <> GEN ->
  is_finite 24 128 (fst (sinCosLane p v)) = false /\ is_finite 24 128 (snd (sinCosLane p v)) = false.
Proof. exact sinCos_huge. Qed.
Print Assumptions C108_refuted.

Theorem C108_sincos_actual : forall p (v : f32), p <> GEN -> fin v -> Rabs (val v) <= 8192 ->
  let '(s, c) := sinCosLane p v in
  fin s /\ fin c /\ Rabs (val s - sin (val v)) <= 0.00000065 /\ Rabs (val c - cos (val v)) <= 0.00000065.
Proof. exact sinCos_accurate. Qed.
Print Assumptions C108_sincos_actual.

Example C108_hypotheses : fin (slit (-8191) 0 : f32) /\ Rabs (val (slit (-8191) 0 : f32)) <= 8192.
Proof.
  destruct (lit_val (-8191) 0 ltac:(lia) ltac:(lia)) as [A B]. split; [exact A|]. rewrite B. change (bpow radix2 0) with 1.
  rewrite Rabs_left; lra.
Qed.

(** ** C109 *)

Theorem C109_positive_base : forall p (b e : f32), p <> GEN -> (p = NEON -> 1 <= val b) -> fin b -> 0 < val b -> fin e ->
  Rabs (val e) <= 1000 -> Rabs (val e * ln (val b)) <= 86 ->
  fin (fastPowLane p b e) /\
  Rabs (val (fastPowLane p b e) - Rpower (val b) (val e)) <= (0.00007 * Rabs (val e) + 0.00001) * Rpower (val b) (val e).
Proof. exact fastPow_pos. Qed.
Print Assumptions C109_positive_base.

Theorem C109_integer_exponent : forall p (b e : f32) n, p <> GEN -> (p = NEON -> 1 <= Rabs (val b)) -> fin b -> val b <> 0 -> fin e ->
  val e = IZR n -> (Z.abs n <= 1000)%Z -> Rabs (IZR n * ln (Rabs (val b))) <= 86 ->
  fin (fastPowLane p b e) /\
  Rabs (val (fastPowLane p b e) - powerRZ (val b) n) <= (0.00007 * Rabs (IZR n) + 0.00001) * Rabs (powerRZ (val b) n).
Proof. exact fastPow_int. Qed.
Print Assumptions C109_integer_exponent.

Example C109_hypotheses : fin (slit (-2) 0 : f32) /\ val (slit (-2) 0 : f32) <> 0 /\ fin (slit 3 0 : f32) /\
  val (slit 3 0 : f32) = IZR 3 /\ Rabs (IZR 3 * ln (Rabs (val (slit (-2) 0 : f32)))) <= 86.
Proof.
  destruct (lit_Z (-2) ltac:(lia)) as [A B]. destruct (lit_Z 3 ltac:(lia)) as [C D]. pose proof ln_2_bounds as L.
  rewrite B. rewrite (Rabs_left (-2)) by lra. replace (- -2) with 2 by lra.
  repeat split; try assumption; [lra|]. rewrite Rabs_right; lra.
Qed.

(** ** C110 *)

Theorem C110_zero_exponent : forall p (b e : f32), fin e -> val e = 0 -> fastPowLane p b e = f1.
Proof. exact fastPow_zero_exp. Qed.
Print Assumptions C110_zero_exponent.

Theorem C110_zero_base : forall p (b e : f32), fin b -> val b = 0 -> fin e -> val e <> 0 -> fastPowLane p b e = f0.
Proof. exact fastPow_zero_base. Qed.
Print Assumptions C110_zero_base.

Theorem C110_refuted : (exists b e : f32, fin b /\ val b = -2 /\ fin e /\ val e = 0.5 /\
    forall p, p <> GEN -> p <> NEON -> is_finite 24 128 (fastPowLane p b e) = true) /\
  (exists b e : f32, fin b /\ val b = 0 /\ fin e /\ val e = -1 /\ forall p, p <> GEN -> fastPowLane p b e = f0).
Proof. exact pow_refuted. Qed.
Print Assumptions C110_refuted.

Example C110_hypotheses : fin (f0 : f32) /\ val (f0 : f32) = 0 /\ fin (f1 : f32) /\ val (f1 : f32) = 1.
Proof. destruct f0_f, f1_f. repeat split; assumption. Qed.

(** ** C111 *)

Theorem C111_refuted : fastGammaDefault NEON (V4 fhalf fhalf fhalf f1) = V4 pinf pinf pinf f1.
Proof. exact gamma_neon. Qed.
Print Assumptions C111_refuted.

Theorem C111_gamma_actual : forall p (c : vec4 f32), p <> GEN -> p <> NEON ->
  let g := fastGammaDefault p c in
  vw g = vw c /\
  forall i, (i < 3)%nat -> let v := nth i (vx c :: vy c :: vz c :: nil) f0 in let r := nth i (vx g :: vy g :: vz g :: nil) f0 in
    fin v -> 0 <= val v ->
    (val v = 0 -> r = f0) /\
    (0 < val v -> fin r /\ let y := Rpower (val v) (val (f1 / defaultGamma : f32)%sc) in Rabs (val r - y) <= 0.00005 * y).
Proof. exact gamma_colour. Qed.
Print Assumptions C111_gamma_actual.

Theorem C111_inverse_gamma : fin (f1 / defaultGamma : f32)%sc /\ 0.45454 <= val (f1 / defaultGamma : f32)%sc <= 0.45455.
Proof. exact invGamma_val. Qed.
Print Assumptions C111_inverse_gamma.

Example C111_hypotheses : fin (fhalf : f32) /\ 0 < val (fhalf : f32).
Proof. destruct half_val as [A B]. split; [exact A|]. rewrite B. lra. Qed.
