(** Gamma correction, and counterexamples about the SIMD transcendental functions. *)
From Coq Require Import ZArith Bool Reals Lra Lia Psatz List.
From Flocq Require Import Core.Core IEEE754.BinarySingleNaN IEEE754.Binary IEEE754.Bits.
From Verif.Model Require Import Outcome Scalar Vec Simd IntVec SimdInt Lanes Transc.
From Verif.Proofs Require Import OrdScalar F32Round F32Err NumericProofs LaneProofs IntConv Approx RealTrans ExpProofs LogProofs PowProofs.
Local Open Scope R_scope.

(** ** Gamma correction *)
Lemma ln_f32_bound : forall v : f32, fin v -> 0 < val v -> Rabs (ln (val v)) <= 104.
Proof.
  intros v Fv Pv. pose proof ln_2_bounds as L. pose proof (pos_ge_min v Fv Pv) as A.
  pose proof (abs_B2R_lt_emax 24 128 v) as B. rewrite Rabs_right in B by lra.
  assert (A' : ln (bpow radix2 (-149)) <= ln (val v)).
  { destruct A as [A|A]; [left; apply ln_increasing; [apply bpow_gt_0|exact A]|right; f_equal; exact A]. }
  assert (B' : ln (val v) < ln (bpow radix2 128)) by (apply ln_increasing; [exact Pv|exact B]).
  rewrite <- (Rmult_1_l (bpow radix2 (-149))) in A'. rewrite <- (Rmult_1_l (bpow radix2 128)) in B'.
  rewrite ln_bpow, ln_1 in A', B' by lra. apply Rabs_le. lra.
Qed.
Lemma invGamma_val : fin (f1 / defaultGamma : f32)%sc /\ 0.45454 <= val (f1 / defaultGamma : f32)%sc <= 0.45455.
Proof.
  destruct (lit_val 15252014 (-25) ltac:(lia) ltac:(lia)) as [F V].
  assert (E : (f1 / defaultGamma)%sc = (slit 15252014 (-25) : f32)) by (apply Binary.B2FF_inj; vm_compute; reflexivity).
  rewrite E. split; [exact F|]. rewrite V. change (bpow radix2 (-25)) with (/ 33554432). lra.
Qed.
Lemma gamma_lane : forall p (v : f32), p <> GEN -> (p = NEON -> 1 <= val v) -> fin v -> 0 < val v ->
  let r := fastPowLane p v (f1 / defaultGamma)%sc in let y := Rpower (val v) (val (f1 / defaultGamma : f32)%sc) in
  fin r /\ Rabs (val r - y) <= 0.00005 * y.
Proof.
  intros p v Hp HN Fv Pv. destruct invGamma_val as [Fg Vg]. cbv zeta. set (g := (f1 / defaultGamma : f32)%sc) in *.
  pose proof (ln_f32_bound v Fv Pv) as L.
  assert (G : Rabs (val g) = val g) by (apply Rabs_right; lra).
  destruct (fastPow_pos p v g Hp HN Fv Pv Fg) as [F E].
  - rewrite G. lra.
  - rewrite Rabs_mult, G. pose proof (Rabs_pos (ln (val v))). nra.
  - split; [exact F|]. eapply Rle_trans; [exact E|]. apply Rmult_le_compat_r; [left; apply exp_pos|]. rewrite G. lra.
Qed.
Lemma gamma_zero : forall p (v : f32), fin v -> val v = 0 -> fastPowLane p v (f1 / defaultGamma)%sc = f0.
Proof.
  intros p v Fv Zv. destruct invGamma_val as [Fg Vg]. apply fastPow_zero_base; try assumption. lra.
Qed.
Lemma gamma_neon : fastGammaDefault NEON (V4 fhalf fhalf fhalf f1) = V4 pinf pinf pinf f1.
Proof.
  assert (E : fastPowLane NEON fhalf (f1 / defaultGamma)%sc = pinf) by (apply Binary.B2FF_inj; vm_compute; reflexivity).
  unfold fastGammaDefault, fastGamma. cbn [vx vy vz vw]. rewrite E. reflexivity.
Qed.

(** ** The logarithm *)
Lemma log_bad : exists v : f32, fin v /\ 1 <= val v <= 2 /\
  forall p, p <> GEN -> Rabs (val (logLane p v) - ln (val v)) > 0.00003.
Proof.
  exists (slit 12582000 (-23)). destruct (lit_val 12582000 (-23) ltac:(lia) ltac:(lia)) as [F V].
  change (bpow radix2 (-23)) with (/ 8388608) in V.
  split; [exact F|]. rewrite V. split; [lra|]. intros p Hp.
  assert (E : logLane p (slit 12582000 (-23)) = slit 13601538 (-25)).
  { destruct p; try congruence; apply Binary.B2FF_inj; vm_compute; reflexivity. }
  rewrite E. destruct (lit_val 13601538 (-25) ltac:(lia) ltac:(lia)) as [_ V'].
  change (bpow radix2 (-25)) with (/ 33554432) in V'. rewrite V'.
  rewrite (ln_at2 (12582000 * / 8388608)) by lra.
  set (x := (12582000 * / 8388608 - 1) / (12582000 * / 8388608 + 1)).
  assert (X : x = 262087 / 1310663) by (unfold x; field).
  destruct (at2_pos 5 x ltac:(rewrite X; lra)) as [A _].
  assert (B : 0.40539 < atS 5 x).
  { rewrite X. cbn [atS Nat.mul Nat.add INR]. 
    assert (Q : forall n, (262087 / 1310663) ^ n >= 0.199965 ^ n) by (intros; apply Rle_ge, pow_incr; lra).
    pose proof (Q 3%nat). pose proof (Q 5%nat). pose proof (Q 7%nat). pose proof (Q 9%nat). pose proof (Q 11%nat). cbn [pow] in *. lra. }
  rewrite Rabs_left; lra.
Qed.
Lemma log_neon_bad : exists v : f32, fin v /\ val v = 0.5 /\ val (logLane NEON v) > 1000000000.
Proof.
  exists fhalf. destruct half_val as [F V]. split; [exact F|]. split; [rewrite V; lra|].
  assert (E : logLane NEON fhalf = slit 11629080 8) by (apply Binary.B2FF_inj; vm_compute; reflexivity).
  rewrite E. destruct (lit_val 11629080 8 ltac:(lia) ltac:(lia)) as [_ ->]. change (bpow radix2 8) with 256. lra.
Qed.
(** ** Sine and cosine of a huge argument *)
Lemma sinCos_huge : exists v : f32, fin v /\ forall p, p <> GEN -> 
  is_finite 24 128 (fst (sinCosLane p v)) = false /\ is_finite 24 128 (snd (sinCosLane p v)) = false.
Proof.
  exists (slit 1 40). split; [reflexivity|]. intros p Hp. destruct p; try congruence; split; vm_compute; reflexivity.
Qed.
(** ** Powers *)
Lemma pow_neg_frac : exists b e : f32, fin b /\ val b = -2 /\ fin e /\ val e = 0.5 /\
  forall p, p <> GEN -> p <> NEON -> is_finite 24 128 (fastPowLane p b e) = true /\ slt f1 (fastPowLane p b e) = true.
Proof.
  exists (slit (-2) 0), fhalf. destruct (lit_Z (-2) ltac:(lia)) as [F V]. destruct half_val as [F' V'].
  split; [exact F|]. split; [exact V|]. split; [exact F'|]. split; [rewrite V'; lra|].
  intros p H1 H2. destruct p; try congruence; split; vm_compute; reflexivity.
Qed.

(** ** Statements *)
Lemma exp_special : forall p (v : f32),
  ((fin v /\ 104 < val v) \/ v = pinf -> expLane p v = pinf) /\
  ((fin v /\ val v < -104) \/ v = ninf -> expLane p v = f0).
Proof.
  intros p v. split; intros [[F H]| ->].
  - apply exp_above; [apply fin_num, F|rewrite fin_ext by exact F; exact H].
  - apply exp_above; [reflexivity|]. change (104 < bpow radix2 128). pose proof (bpow_le radix2 7 128 ltac:(lia)) as K.
    change (bpow radix2 7) with 128 in K. lra.
  - apply exp_below; [apply fin_num, F|rewrite fin_ext by exact F; exact H].
  - apply exp_below; [reflexivity|]. change (- bpow radix2 128 < -104). pose proof (bpow_le radix2 7 128 ltac:(lia)) as K.
    change (bpow radix2 7) with 128 in K. lra.
Qed.
Lemma log_special : forall p (v : f32),
  (fin v -> val v = 0 -> logLane p v = ninf) /\
  ((fin v /\ val v < 0) \/ v = ninf -> is_nan 24 128 (logLane p v) = true).
Proof.
  intros p v. split.
  - intros F Z. destruct v as [s|s|s pl H|s m e H]; try discriminate; [apply log_zero|].
    exfalso. cbn [B2R] in Z. apply (F2R_neq_0 radix2 (Float radix2 (cond_Zopp s (Zpos m)) e)); [destruct s; discriminate|exact Z].
  - intros [[F H]| ->]; [apply log_negative; assumption|apply log_minus_inf].
Qed.
Lemma specials_refuted : ~ (forall p (v : f32), p <> GEN -> is_nan 24 128 v = true -> is_nan 24 128 (expLane p v) = true) /\
  ~ (forall p (v : f32), p <> GEN -> is_nan 24 128 v = true -> is_nan 24 128 (logLane p v) = true) /\
  ~ (forall p, p <> GEN -> logLane p pinf = pinf).
Proof.
  split; [|split].
  - intros H. specialize (H SSE2 qnan ltac:(discriminate) eq_refl). rewrite exp_nan in H by reflexivity. discriminate H.
  - intros H. specialize (H SSE2 qnan ltac:(discriminate) eq_refl). destruct (log_nan SSE2 ltac:(discriminate)) as [_ F].
    destruct (logLane SSE2 qnan); discriminate.
  - intros H. specialize (H SSE2 ltac:(discriminate)). rewrite log_inf in H. discriminate.
Qed.
Lemma pow_refuted :
  (exists b e : f32, fin b /\ val b = -2 /\ fin e /\ val e = 0.5 /\ forall p, p <> GEN -> p <> NEON -> is_finite 24 128 (fastPowLane p b e) = true) /\
  (exists b e : f32, fin b /\ val b = 0 /\ fin e /\ val e = -1 /\ forall p, p <> GEN -> fastPowLane p b e = f0).
Proof.
  split.
  - destruct pow_neg_frac as (b & e & A & B & C & D & E). exists b, e. repeat (split; [assumption|]). intros p H1 H2. apply E; assumption.
  - exists f0, (slit (-1) 0). destruct (lit_Z (-1) ltac:(lia)) as [F V]. destruct f0_f as [F0 V0].
    repeat (split; [assumption|]). intros p Hp. apply fastPow_zero_base; try assumption. rewrite V. lra.
Qed.
(** the lane-wise statement over a colour *)
Lemma gamma_colour : forall p (c : vec4 f32), p <> GEN -> p <> NEON ->
  let g := fastGammaDefault p c in
  vw g = vw c /\
  forall i, (i < 3)%nat -> let v := nth i (vx c :: vy c :: vz c :: nil) f0 in let r := nth i (vx g :: vy g :: vz g :: nil) f0 in
    fin v -> 0 <= val v ->
    (val v = 0 -> r = f0) /\
    (0 < val v -> fin r /\ let y := Rpower (val v) (val (f1 / defaultGamma : f32)%sc) in Rabs (val r - y) <= 0.00005 * y).
Proof.
  intros p c Hp HN. cbv zeta. split; [reflexivity|].
  intros i Hi. destruct i as [|[|[|]]]; try lia; cbn [nth fastGammaDefault fastGamma vx vy vz];
    intros F N; (split; [apply gamma_zero, F|]; intros P; apply gamma_lane; try assumption; intros; congruence).
Qed.
