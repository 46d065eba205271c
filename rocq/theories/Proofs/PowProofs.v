(** Accuracy and signs of the fast SIMD power; special values of the SIMD exponential and logarithm. *)
From Coq Require Import ZArith Bool Reals Lra Lia Psatz List.
From Flocq Require Import Core.Core IEEE754.BinarySingleNaN IEEE754.Binary IEEE754.Bits.
From Verif.Model Require Import Outcome Scalar Vec Simd IntVec SimdInt Lanes Transc.
From Verif.Proofs Require Import OrdScalar F32Round F32Err NumericProofs LaneProofs IntConv Approx RealTrans ExpProofs LogProofs.
Local Open Scope R_scope.

(** ** Special values *)
Lemma exp_above : forall p (v : f32), num v -> 104 < ext v -> expLane p v = pinf.
Proof.
  intros p v Nv Hv. unfold expLane. cbv zeta. unfold sgt.
  destruct (lit_val 13 3 ltac:(lia) ltac:(lia)) as [F V].
  rewrite (slt_ext (slit 13 3) v) by (try exact Nv; apply fin_num, F). rewrite fin_ext by exact F. rewrite V.
  rewrite Rlt_bool_true by (change (bpow radix2 3) with 8; lra). reflexivity.
Qed.
Lemma exp_below : forall p (v : f32), num v -> ext v < -104 -> expLane p v = f0.
Proof.
  intros p v Nv Hv. unfold expLane. cbv zeta. unfold sgt, sge.
  destruct (lit_val 13 3 ltac:(lia) ltac:(lia)) as [F V]. destruct (lit_val (-13) 3 ltac:(lia) ltac:(lia)) as [F' V'].
  rewrite (slt_ext (slit 13 3) v) by (try exact Nv; apply fin_num, F).
  rewrite (sle_ext (slit (-13) 3) v) by (try exact Nv; apply fin_num, F'). rewrite (fin_ext _ F), (fin_ext _ F'). rewrite V, V'.
  change (bpow radix2 3) with 8; rewrite Rlt_bool_false by lra; rewrite Rle_bool_false by lra. reflexivity.
Qed.
Lemma cmp_nan_r : forall f (a v : f32), is_nan 24 128 v = true -> b32_cmp_is f a v = false.
Proof. intros f a v H. destruct v; try discriminate. destruct a; reflexivity. Qed.
Lemma exp_nan : forall p (v : f32), is_nan 24 128 v = true -> expLane p v = f0.
Proof.
  intros p v Hv. unfold expLane. cbv zeta. unfold sgt, sge.
  cbn [slt sle ScalarF32]. rewrite !cmp_nan_r by exact Hv. reflexivity.
Qed.
Lemma ext_scaled_neg : forall v : f32, fin v -> val v < 0 -> num (v * slit 1 64)%sc /\ ext (v * slit 1 64)%sc < 0.
Proof.
  intros v Fv Nv. destruct (lit_val 1 64 ltac:(lia) ltac:(lia)) as [Fl Vl]. rewrite Rmult_1_l in Vl.
  destruct (mul_fin v (slit 1 64) Fv Fl) as [N E]. split; [exact N|]. rewrite E, Vl.
  assert (L : val v <= - bpow radix2 (-149)).
  { assert (Fo : fin (b32_opp v)) by (unfold b32_opp; rewrite is_finite_Bopp; exact Fv).
    assert (Vo : val (b32_opp v) = - val v) by (unfold b32_opp; apply B2R_Bopp).
    pose proof (pos_ge_min (b32_opp v) Fo ltac:(lra)). lra. }
  assert (M : val v * bpow radix2 64 <= IZR (-1) * bpow radix2 (-149)).
  { pose proof (bpow_gt_0 radix2 (-149)) as P. pose proof (bpow_le radix2 0 64 ltac:(lia)) as Q. change (bpow radix2 0) with 1 in Q. nra. }
  apply RX_le in M. eapply Rle_lt_trans; [exact M|].
  rewrite RX_normal; [rewrite rnd_lit by lia; pose proof (bpow_gt_0 radix2 (-149)); lra|].
  apply Rlt_bool_true. rewrite rnd_lit by lia. rewrite Rabs_mult, (Rabs_left (-1)), (Rabs_right (bpow radix2 (-149))) by (try lra; left; apply bpow_gt_0).
  replace (- -1 * bpow radix2 (-149)) with (bpow radix2 (-149)) by ring. apply bpow_lt. lia.
Qed.
Lemma log_negative : forall p (v : f32), fin v -> val v < 0 -> is_nan 24 128 (logLane p v) = true.
Proof.
  intros p v Fv Nv. destruct fltMin_val as [Fm Vm]. destruct (ext_scaled_neg v Fv Nv) as [N E].
  destruct f0_f as [F0 V0].
  unfold logLane, logScaled. rewrite (slt_fin v fltMin) by assumption. rewrite Vm.
  rewrite Rlt_bool_true by (pose proof (bpow_gt_0 radix2 (-126)); lra). cbn [snd].
  set (w := (v * slit 1 64)%sc) in *.
  rewrite (slt_ext w f0) by (try exact N; apply fin_num, F0). rewrite (fin_ext f0) by exact F0. rewrite V0.
  rewrite Rlt_bool_true by exact E. cbn [orb].
  rewrite (seq_ext w f0) by (try exact N; apply fin_num, F0). rewrite (fin_ext f0) by exact F0. rewrite V0.
  rewrite Req_bool_false by lra. reflexivity.
Qed.
Lemma log_minus_inf : forall p, is_nan 24 128 (logLane p ninf) = true.
Proof. intros []; vm_compute; reflexivity. Qed.
Lemma log_zero : forall p s, logLane p (B754_zero 24 128 s) = ninf.
Proof.
  intros p s. unfold logLane. cbv zeta.
  assert (E : seq (snd (logScaled (B754_zero 24 128 s))) f0 = true) by (destruct s; vm_compute; reflexivity).
  rewrite E. reflexivity.
Qed.
Lemma log_inf : forall p, logLane p pinf = ninf.
Proof. intros p. unfold logLane. cbv zeta. change (snd (logScaled pinf)) with pinf. reflexivity. Qed.
Lemma log_nan : forall p, p <> GEN -> is_nan 24 128 qnan = true /\ is_finite 24 128 (logLane p qnan) = true.
Proof. intros p H. destruct p; try congruence; split; vm_compute; reflexivity. Qed.

(** ** The power *)
Lemma absLane_val : forall p (b : f32), fin b -> fin (absLane p b) /\ val (absLane p b) = Rabs (val b).
Proof.
  intros p b Fb. assert (E : absLane p b = sabs b) by (destruct p; cbn [absLane]; try reflexivity; apply abs_mask, fin_num, Fb).
  rewrite E. cbn [sabs ScalarF32]. unfold b32_abs. rewrite is_finite_Babs, B2R_Babs. split; [exact Fb|reflexivity].
Qed.
Lemma pow_core : forall p (b e : f32), p <> GEN -> (p = NEON -> 1 <= Rabs (val b)) -> fin b -> val b <> 0 -> fin e ->
  Rabs (val e) <= 1000 -> Rabs (val e * ln (Rabs (val b))) <= 86 ->
  fin (expLane p (logLane p (absLane p b) * e)%sc) /\
  Rabs (val (expLane p (logLane p (absLane p b) * e)%sc) - exp (val e * ln (Rabs (val b))))
    <= (0.00007 * Rabs (val e) + 0.00001) * exp (val e * ln (Rabs (val b))).
Proof.
  intros p b e Hp HN Fb Zb Fe Be Bl. destruct (absLane_val p b Fb) as [Fa Va].
  assert (Pa : 0 < val (absLane p b)) by (rewrite Va; apply Rabs_pos_lt, Zb).
  assert (HN' : p = NEON -> 1 <= val (absLane p b)) by (intros K; rewrite Va; apply HN, K).
  destruct (logLane_accurate p (absLane p b) Hp HN' Fa Pa) as [FL EL]. rewrite Va in EL.
  set (L := logLane p (absLane p b)) in *. set (l := ln (Rabs (val b))) in *.
  pose proof (Rabs_pos (val e)) as Pe.
  assert (D1 : Rabs (val L * val e - val e * l) <= 0.00006 * Rabs (val e)).
  { replace (val L * val e - val e * l) with ((val L - l) * val e) by ring. rewrite Rabs_mult. apply Rmult_le_compat_r; assumption. }
  destruct (mul_small L e FL Fe) as [Ft Vt].
  { apply small_le with (86 + 0.00006 * Rabs (val e)); [apply abs_near with (val e * l); assumption|lra]. }
  pose proof (rnd_ap _ _ _ _ D1 Bl) as D2. rewrite <- Vt in D2. set (t := (L * e)%sc) in *.
  rewrite u24_val in D2. pose proof eta0_small as H0.
  set (d := 0.0000601 * Rabs (val e) + 0.0000052).
  assert (D3 : Rabs (val t - val e * l) <= d) by (unfold d; lra). clear D2.
  assert (Hd : d <= 0.07) by (unfold d; lra).
  assert (Bt : -87 <= val t <= 88) by (apply Rabs_le_inv in D3, Bl; lra).
  destruct (expLane_accurate p t Hp Ft Bt) as [FE EE]. split; [exact FE|].
  pose proof (exp_near _ _ _ D3 ltac:(lra)) as EN. pose proof (exp_pos (val e * l)) as PE.
  set (y := exp (val e * l)) in *. set (z := exp (val t)) in *. set (r := val (expLane p t)) in *.
  assert (Z1 : z <= 1.1 * y) by (apply Rabs_le_inv in EN; assert (1.06 * d * y <= 0.0742 * y) by (apply Rmult_le_compat_r; lra); lra).
  replace (r - y) with ((r - z) + (z - y)) by ring. eapply Rle_trans; [apply Rabs_triang|].
  apply Rle_trans with (0.0000003 * (1.1 * y) + 1.06 * d * y); [lra|].
  replace (0.0000003 * (1.1 * y) + 1.06 * d * y) with ((0.0000003 * 1.1 + 1.06 * d) * y) by ring.
  apply Rmult_le_compat_r; [lra|]. unfold d. lra.
Qed.
Lemma scale_one : forall (r : f32) (s : bool), fin r ->
  fin (r * (if s then slit (-1) 0 else f1))%sc /\ val (r * (if s then slit (-1) 0 else f1))%sc = (if s then - val r else val r).
Proof.
  intros r s Fr.
  enough (H : forall c : f32, fin c -> val c = (if s then -1 else 1) ->
    fin (r * c)%sc /\ val (r * c)%sc = (if s then - val r else val r)).
  { destruct s; [destruct (lit_Z (-1) ltac:(lia)) as [A B]|destruct f1_f as [A B]]; apply (H _ A B). }
  intros c Fc Vc.
  assert (E : val r * val c = if s then - val r else val r) by (rewrite Vc; destruct s; ring).
  assert (G : rnd (val r * val c) = val r * val c).
  { rewrite E. destruct s; [rewrite rnd_opp|]; rewrite rnd_val; reflexivity. }
  assert (B : Rlt_bool (Rabs (rnd (val r * val c))) maxF = true).
  { apply Rlt_bool_true. rewrite G, E. replace (Rabs (if s then - val r else val r)) with (Rabs (val r)) by (destruct s; rewrite ?Rabs_Ropp; reflexivity).
    apply abs_B2R_lt_emax. }
  destruct (mul_fin r c Fr Fc) as [N X]. rewrite RX_normal in X by exact B. rewrite G in X.
  assert (F : fin (r * c)%sc).
  { apply ext_fin; [exact N|]. rewrite X, E. pose proof (abs_B2R_lt_emax 24 128 r) as M. apply Rabs_def2 in M. destruct s; lra. }
  split; [exact F|]. rewrite <- fin_ext by exact F. rewrite X. exact E.
Qed.
Lemma seq_f0 : forall b : f32, fin b -> val b <> 0 -> seq b f0 = false.
Proof.
  intros b Fb Zb. destruct f0_f as [F0 V0]. rewrite seq_ext by (apply fin_num; assumption). rewrite !fin_ext by assumption.
  apply Req_bool_false. rewrite V0. exact Zb.
Qed.
Lemma fastPow_pos : forall p (b e : f32), p <> GEN -> (p = NEON -> 1 <= val b) -> fin b -> 0 < val b -> fin e ->
  Rabs (val e) <= 1000 -> Rabs (val e * ln (val b)) <= 86 ->
  fin (fastPowLane p b e) /\
  Rabs (val (fastPowLane p b e) - Rpower (val b) (val e)) <= (0.00007 * Rabs (val e) + 0.00001) * Rpower (val b) (val e).
Proof.
  intros p b e Hp HN Fb Pb Fe Be Bl. unfold Rpower.
  assert (Ab : Rabs (val b) = val b) by (apply Rabs_right; lra).
  destruct (pow_core p b e Hp) as [FE EE]; rewrite ?Ab; try assumption; [lra|]. rewrite Ab in EE.
  unfold fastPowLane. cbv zeta. rewrite (seq_f0 b Fb) by lra.
  destruct f0_f as [F0 V0].
  assert (S : slt b f0 = false) by (rewrite slt_fin by assumption; apply Rlt_bool_false; lra).
  rewrite S. cbn [andb]. destruct (scale_one _ false FE) as [F1 V1].
  destruct (seq e f0) eqn:Se.
  - destruct f1_f as [Fo Vo]. split; [exact Fo|].
    assert (E0 : val e = 0).
    { rewrite seq_ext in Se by (apply fin_num; assumption). rewrite !fin_ext in Se by assumption. rewrite V0 in Se.
      destruct (Req_bool_spec (val e) 0); [assumption|discriminate]. }
    rewrite Vo, E0, Rmult_0_l, exp_0, Rabs_R0. replace (1 - 1) with 0 by ring. rewrite Rabs_R0. lra.
  - split; [exact F1|]. rewrite V1. exact EE.
Qed.
(** negative bases with an integer exponent *)
Lemma powerRZ_neg : forall x n, x <> 0 -> powerRZ (- x) n = if Z.odd n then - powerRZ x n else powerRZ x n.
Proof.
  intros x n Hx. replace (- x) with (-1 * x) by ring. rewrite powerRZ_mult.
  assert (E : powerRZ (-1) n = if Z.odd n then -1 else 1).
  { assert (P : forall k, (-1) ^ k = if Nat.odd k then -1 else 1).
    { induction k; [reflexivity|]. cbn [pow]. rewrite IHk, Nat.odd_succ, <- Nat.negb_odd. destruct (Nat.odd k); cbn; ring. }
    destruct n as [|m|m]; cbn [powerRZ]; [reflexivity| |].
    - rewrite P. replace (Nat.odd (Pos.to_nat m)) with (Z.odd (Zpos m)); [reflexivity|].
      destruct m; cbn [Z.odd]; [rewrite Pos2Nat.inj_xI|rewrite Pos2Nat.inj_xO|reflexivity].
      + rewrite Nat.odd_succ, Nat.even_mul. reflexivity.
      + rewrite Nat.odd_mul. reflexivity.
    - rewrite P. replace (Nat.odd (Pos.to_nat m)) with (Z.odd (Zneg m)); [destruct (Z.odd (Zneg m)); field|].
      destruct m; cbn [Z.odd]; [rewrite Pos2Nat.inj_xI|rewrite Pos2Nat.inj_xO|reflexivity].
      + rewrite Nat.odd_succ, Nat.even_mul. reflexivity.
      + rewrite Nat.odd_mul. reflexivity. }
  rewrite E. destruct (Z.odd n); ring.
Qed.
Lemma fastPow_int : forall p (b e : f32) n, p <> GEN -> (p = NEON -> 1 <= Rabs (val b)) -> fin b -> val b <> 0 -> fin e ->
  val e = IZR n -> (Z.abs n <= 1000)%Z -> Rabs (IZR n * ln (Rabs (val b))) <= 86 ->
  fin (fastPowLane p b e) /\
  Rabs (val (fastPowLane p b e) - powerRZ (val b) n) <= (0.00007 * Rabs (IZR n) + 0.00001) * Rabs (powerRZ (val b) n).
Proof.
  intros p b e n Hp HN Fb Zb Fe Ve Hn Bl.
  assert (Be : Rabs (val e) <= 1000) by (rewrite Ve, <- abs_IZR; apply IZR_le; lia).
  destruct (pow_core p b e Hp HN Fb Zb Fe Be) as [FE EE]; [rewrite Ve; exact Bl|].
  unfold fastPowLane. cbv zeta. rewrite (seq_f0 b Fb Zb). destruct f0_f as [F0 V0].
  assert (EI : i32ofF32 p e = n).
  { rewrite i32ofF32_val by (try exact Fe; lra). rewrite Ve. apply Ztrunc_IZR. }
  rewrite EI. destruct (absLane_val p e Fe) as [Fa Va].
  destruct (q_val p n Hp ltac:(lia)) as [Fq Vq].
  assert (SE : seq e (f32ofI32 p n) = true).
  { rewrite seq_ext by (apply fin_num; assumption). rewrite !fin_ext by assumption. rewrite Ve, Vq. apply Req_bool_true. reflexivity. }
  rewrite SE. cbn [orb].
  destruct (lit_val 1 24 ltac:(lia) ltac:(lia)) as [F24 V24].
  assert (SL : slt (absLane p e) (slit 1 24) = true).
  { rewrite slt_fin by assumption. apply Rlt_bool_true. rewrite Va, V24. change (bpow radix2 24) with 16777216. lra. }
  rewrite SL, !andb_true_r. rewrite slt_fin by assumption. rewrite V0.
  assert (OD : negb (Z.land n 1 =? 0)%Z = Z.odd n).
  { change 1%Z with (Z.ones 1). rewrite Z.land_ones by lia. change (2 ^ 1)%Z with 2%Z. rewrite Zmod_odd. destruct (Z.odd n); reflexivity. }
  rewrite OD. set (sg := Rlt_bool (val b) 0 && Z.odd n).
  destruct (scale_one _ sg FE) as [F1 V1]. set (r := expLane p (logLane p (absLane p b) * e)%sc) in *.
  assert (RP : exp (val e * ln (Rabs (val b))) = powerRZ (Rabs (val b)) n).
  { rewrite Ve. rewrite powerRZ_Rpower by (apply Rabs_pos_lt, Zb). reflexivity. }
  rewrite RP, Ve in EE.
  assert (PP : 0 < powerRZ (Rabs (val b)) n) by (apply powerRZ_lt, Rabs_pos_lt, Zb).
  assert (PB : powerRZ (val b) n = if sg then - powerRZ (Rabs (val b)) n else powerRZ (Rabs (val b)) n).
  { unfold sg. destruct (Rlt_bool_spec (val b) 0) as [N|G]; cbn [andb].
    - rewrite Rabs_left by exact N. rewrite <- powerRZ_neg by lra. f_equal. ring.
    - rewrite Rabs_right by lra. reflexivity. }
  assert (AB : Rabs (powerRZ (val b) n) = powerRZ (Rabs (val b)) n).
  { rewrite PB. destruct sg; [rewrite Rabs_Ropp|]; apply Rabs_right; lra. }
  destruct (seq e f0) eqn:Se.
  - destruct f1_f as [Fo Vo]. split; [exact Fo|].
    assert (E0 : n = 0%Z).
    { rewrite seq_ext in Se by (apply fin_num; assumption). rewrite !fin_ext in Se by assumption. rewrite V0, Ve in Se.
      destruct (Req_bool_spec (IZR n) 0); [apply eq_IZR; assumption|discriminate]. }
    rewrite Vo, E0. cbn [powerRZ]. replace (1 - 1) with 0 by ring. rewrite !Rabs_R0. rewrite (Rabs_right 1) by lra. lra.
  - split; [exact F1|]. rewrite V1, AB, PB.
    destruct sg; [|exact EE]. replace (- val r - - powerRZ (Rabs (val b)) n) with (- (val r - powerRZ (Rabs (val b)) n)) by ring.
    rewrite Rabs_Ropp. exact EE.
Qed.
Lemma fastPow_zero_exp : forall p (b e : f32), fin e -> val e = 0 -> fastPowLane p b e = f1.
Proof.
  intros p b e Fe E. unfold fastPowLane. cbv zeta.
  assert (S : seq e f0 = true).
  { destruct f0_f as [F0 V0]. rewrite seq_ext by (apply fin_num; assumption). rewrite !fin_ext by assumption. apply Req_bool_true. rewrite V0. exact E. }
  rewrite S. reflexivity.
Qed.
Lemma fastPow_zero_base : forall p (b e : f32), fin b -> val b = 0 -> fin e -> val e <> 0 -> fastPowLane p b e = f0.
Proof.
  intros p b e Fb E Fe Ze. unfold fastPowLane. cbv zeta. rewrite (seq_f0 e Fe Ze).
  assert (S : seq b f0 = true).
  { destruct f0_f as [F0 V0]. rewrite seq_ext by (apply fin_num; assumption). rewrite !fin_ext by assumption. apply Req_bool_true. rewrite V0. exact E. }
  rewrite S. reflexivity.
Qed.
