(** Rotating vectors by quaternions in binary32. *)
From Coq Require Import ZArith Bool List Reals Lra Lia Psatz.
From Flocq Require Import Core.Core IEEE754.BinarySingleNaN IEEE754.Binary IEEE754.Bits Mult_error.
From Verif.Model Require Import Outcome Scalar Vec Simd Lanes Trig Quaternion Transc QuatF32.
From Verif.Spec Require Import QuatErrSpec.
From Verif.Proofs Require Import OrdScalar F32Round F32Err Approx ExpProofs ColorProofs NumericProofs NormProofs MatErrProofs QuatErr Frustum RealLits QuatProofs QuatTrig SinCosProofs.
Import ListNotations.
Local Open Scope R_scope.

(** ** Conjugate and inverse *)
Lemma conj_dist : forall a b, distQ (conjQ a) (conjQ b) = distQ a b.
Proof. intros a b. unfold distQ, lenQ. f_equal. unfold norm2, subQ, conjQ. cbn [vx vy vz vw]. ring. Qed.
Lemma conj_unit : forall u, unitQ u -> unitQ (conjQ u).
Proof. intros u H. unfold unitQ, norm2, conjQ in *. cbn [vx vy vz vw]. rewrite <- H. ring. Qed.
Lemma qconj_val : forall q : vec4 f32, allFin (l4 q) -> allFin (l4 (qconj q)) /\ valQ (qconj q) = conjQ (valQ q).
Proof.
  intros [x y z w] H. fins H. cbn [vx vy vz vw] in *.
  destruct (neg_fin x) as [A1 A2]; [assumption|]. destruct (neg_fin y) as [B1 B2]; [assumption|]. destruct (neg_fin z) as [C1 C2]; [assumption|].
  split; [repeat (apply Forall_cons; [assumption|]); apply Forall_nil|].
  unfold valQ, qconj, conjQ. cbn [vx vy vz vw]. rewrite A2, B2, C2. reflexivity.
Qed.
Theorem qconj_near : forall d q u, nearU d q u -> nearU d (qconj q) (conjQ u).
Proof.
  intros d q u (F & U & D). destruct (qconj_val q F) as [F' E]. split; [exact F'|]. split; [apply conj_unit, U|].
  rewrite E, conj_dist. exact D.
Qed.

Definition scaledQ (k : R) (q : vec4 R) : vec4 R := V4 (k * vx q) (k * vy q) (k * vz q) (k * vw q).
Lemma lenQ_scaled : forall k q, lenQ (scaledQ k q) = Rabs k * lenQ q.
Proof.
  intros k q. unfold lenQ. replace (norm2 (scaledQ k q)) with ((k * k) * norm2 q) by (unfold norm2, scaledQ; cbn [vx vy vz vw]; ring).
  rewrite sqrt_mult; [|apply Rle_0_sqr|apply norm2_nn]. f_equal. apply sqrt_Rsqr_abs.
Qed.
Lemma inner_norm2 : forall q : vec4 f32, inner (l4 q) (l4 q) = norm2 (valQ q).
Proof. intros q. unfold l4, norm2, valQ. cbn [inner vx vy vz vw]. ring. Qed.
Lemma unit_range : forall d q u, 0 <= d -> nearU d q u -> 1 - d <= lenQ (valQ q) <= 1 + d.
Proof.
  intros d q u D (_ & U & E). pose proof (lenQ_near (valQ q) u) as A. pose proof (lenQ_near u (valQ q)) as B.
  rewrite (unit_len u U) in *. rewrite distQ_sym in B. lra.
Qed.
Theorem qinverse_near : forall p d q u, 0 <= d <= / 16 -> nearU d q u -> nearU (3.6 * d + 9 / 16777216) (qinverse p q) (conjQ u).
Proof.
  intros p d q u D N. pose proof N as (F & U & E). destruct (unit_range d q u ltac:(lra) N) as [L0 L1].
  pose proof (lenQ_sq (valQ q)) as S. set (n := lenQ (valQ q)) in *.
  assert (NI : inner (l4 q) (l4 q) = n * n) by (rewrite inner_norm2; symmetry; exact S).
  assert (NR : 0.87 <= n * n <= 1.2) by nra.
  destruct (dot4_err p q q F F) as [FD ED].
  { rewrite inner_self, NI. lra. }
  rewrite inner_self, NI in ED. set (D0 := dot4 p q q) in *.
  assert (T : 10 * bpow radix2 (-150) <= 0.01 / 16777216) by (apply Rle_trans with (16 * bpow radix2 (-150)); [pose proof (bpow_gt_0 radix2 (-150)); lra|];
    replace (16 * bpow radix2 (-150)) with (bpow radix2 (-146)) by (change 16 with (bpow radix2 4); rewrite <- bpow_plus; reflexivity);
    apply Rle_trans with (bpow radix2 (-60)); [apply bpow_le; lia|cbn; lra]).
  apply abs2 in ED. assert (DR : 0.86 <= val D0 <= 1.21) by lra.
  assert (DN : Rabs (1 - val D0) <= 2.0625 * d + 4.9 / 16777216) by (apply Rabs_le; nra).
  destruct (qconj_val q F) as [FC VC].
  assert (IV : Rabs (/ val D0 - 1) <= 2.4 * d + 5.7 / 16777216).
  { replace (/ val D0 - 1) with ((1 - val D0) * / val D0) by (field; lra). rewrite Rabs_mult, (Rabs_right (/ val D0)) by (left; apply Rinv_0_lt_compat; lra).
    apply (Rmult_le_reg_r (val D0)); [lra|]. rewrite Rmult_assoc, Rinv_l, Rmult_1_r by lra. eapply Rle_trans; [exact DN|]. nra. }
  assert (IR : 0 < / val D0 <= 1.163) by (split; [apply Rinv_0_lt_compat; lra|]; apply (Rmult_le_reg_r (val D0)); [lra|]; rewrite Rinv_l by lra; lra).
  destruct (lane_len (valQ (qconj q))) as (B0 & B1 & B2 & B3).
  assert (LC : lenQ (valQ (qconj q)) = n) by (rewrite VC; unfold n, lenQ; f_equal; unfold norm2, conjQ; cbn [vx vy vz vw]; ring).
  rewrite LC in *. 
  assert (K : forall x : f32, fin x -> Rabs (val x) <= n -> fin (x / D0)%sc /\ Rabs (val (x / D0)%sc - / val D0 * val x) <= 1.25 / 16777216).
  { intros x Fx Bx. assert (Q : Rabs (val x / val D0) <= 1.24).
    { unfold Rdiv. rewrite Rabs_mult, (Rabs_right (/ val D0)) by lra. pose proof (Rabs_pos (val x)). nra. }
    destruct (div_small x D0 Fx FD ltac:(lra)) as [A1 A2]; [apply small_num; lra|]. split; [exact A1|]. rewrite A2.
    pose proof (rnd_err (val x / val D0)) as R. rewrite u24_val in R.
    replace (/ val D0 * val x) with (val x / val D0) by (unfold Rdiv; ring). pose proof eta0_small. 
    assert (ET : eta0 <= 0.01 / 16777216) by (unfold eta0; pose proof (bpow_gt_0 radix2 (-150)); lra). lra. }
  unfold qinverse, vdivn. fold D0. set (c := qconj q) in *. fins FC. cbn [valQ vx vy vz vw] in B0, B1, B2, B3.
  destruct (K (vx c)) as [X1 X2]; [assumption..|]. destruct (K (vy c)) as [Y1 Y2]; [assumption..|].
  destruct (K (vz c)) as [Z1 Z2]; [assumption..|]. destruct (K (vw c)) as [W1 W2]; [assumption..|].
  split; [unfold vdiv, map2_4, dup4, l4; cbn [vx vy vz vw]; repeat (apply Forall_cons; [assumption|]); apply Forall_nil|].
  split; [apply conj_unit, U|].
  eapply Rle_trans; [apply (distQ_triangle _ (scaledQ (/ val D0) (valQ c)))|].
  assert (P1 : distQ (valQ (vdiv c (dup4 D0))) (scaledQ (/ val D0) (valQ c)) <= 2 * (1.25 / 16777216)).
  { apply lanes_dist; [lra|..]; unfold vdiv, map2_4, dup4, valQ, scaledQ; cbn [vx vy vz vw]; assumption. }
  assert (P2 : distQ (scaledQ (/ val D0) (valQ c)) (conjQ u) <= distQ (scaledQ (/ val D0) (valQ c)) (valQ c) + d).
  { eapply Rle_trans; [apply (distQ_triangle _ (valQ c))|]. rewrite VC, conj_dist. lra. }
  assert (P3 : distQ (scaledQ (/ val D0) (valQ c)) (valQ c) <= (2.4 * d + 5.7 / 16777216) * n).
  { unfold distQ. replace (subQ (scaledQ (/ val D0) (valQ c)) (valQ c)) with (scaledQ (/ val D0 - 1) (valQ c)).
    - rewrite lenQ_scaled, LC. apply Rmult_le_compat_r; [lra|exact IV].
    - unfold scaledQ, subQ. cbn [vx vy vz vw]. f_equal; ring. }
  nra.
Qed.

(** ** Rotation of a vector: rounding *)
Lemma cau2 : forall a b x y P Q, 0 <= P -> 0 <= Q -> a * a + b * b <= P * P -> x * x + y * y <= Q * Q ->
  Rabs (a * x) + Rabs (b * y) <= P * Q.
Proof.
  intros a b x y P Q HP HQ EP EQ.
  assert (S : forall r, Rabs r * Rabs r = r * r) by (intros r; rewrite <- Rabs_mult; apply Rabs_right, Rle_ge, Rle_0_sqr).
  rewrite !Rabs_mult. pose proof (cauchy4sq (Rabs a) (Rabs b) 0 0 (Rabs x) (Rabs y) 0 0) as C. rewrite !S in C.
  pose proof (Rmult_le_pos _ _ (Rabs_pos a) (Rabs_pos x)). pose proof (Rmult_le_pos _ _ (Rabs_pos b) (Rabs_pos y)).
  apply sq_le; [lra|apply Rmult_le_pos; assumption|].
  assert (K : (a * a + b * b) * (x * x + y * y) <= (P * P) * (Q * Q)) by (apply Rmult_le_compat; try assumption; nra).
  replace (P * Q * (P * Q)) with (P * P * (Q * Q)) by ring. lra.
Qed.
Lemma absm : forall a b A B, Rabs a <= A -> Rabs b <= B -> Rabs (a * b) <= A * B.
Proof. intros. rewrite Rabs_mult. apply Rmult_le_compat; try apply Rabs_pos; assumption. Qed.
Lemma rot_lane : forall p (qj qk w v ci cj ck cc : f32) Ci Cj Ck L,
  fin w -> fin v -> fin ci -> Rabs (val qj) <= 1.016 -> Rabs (val qk) <= 1.016 -> Rabs (val w) <= 1.016 ->
  0 <= L <= bpow radix2 50 -> Rabs (val v) <= L -> Rabs Ci <= 1.016 * L -> Rabs Cj <= 1.016 * L -> Rabs Ck <= 1.016 * L ->
  Rabs (val ci - Ci) <= 2.05 / 16777216 * L + 10 * eta0 -> Rabs (val cj - Cj) <= 2.05 / 16777216 * L + 10 * eta0 ->
  Rabs (val ck - Ck) <= 2.05 / 16777216 * L + 10 * eta0 -> det2Err cc qj ck qk cj ->
  eb (simdfma p (simdfma p ci w cc) f2 v) (val v + 2 * (val w * Ci + (val qj * Ck - val qk * Cj))) (7.2 * L) (44 / 16777216 * L + 160 * eta0).
Proof.
  intros p qj qk w v ci cj ck cc Ci Cj Ck L Fw Fv Fi Bj Bk Bw HL Bv BI BJ BK EI EJ EK (Fc & Ec).
  change (bpow radix2 50) with 1125899906842624 in HL. rewrite eta_val in Ec. pose proof u24_val as UV. pose proof eta0_small as ES. pose proof eta0_pos as EP.
  assert (MI : Rabs (val ci) <= 1.017 * L + 10 * eta0) by (apply abs2 in EI, BI; apply Rabs_le; lra).
  assert (MJ : Rabs (val cj) <= 1.017 * L + 10 * eta0) by (apply abs2 in EJ, BJ; apply Rabs_le; lra).
  assert (MK : Rabs (val ck) <= 1.017 * L + 10 * eta0) by (apply abs2 in EK, BK; apply Rabs_le; lra).
  pose proof (absm _ _ _ _ Bj MK) as P1. pose proof (absm _ _ _ _ Bk MJ) as P2.
  pose proof (absm _ _ _ _ Bj EK) as Q1. pose proof (absm _ _ _ _ Bk EJ) as Q2. pose proof (absm _ _ _ _ Bw EI) as Q3.
  pose proof (absm _ _ _ _ Bj BK) as R1. pose proof (absm _ _ _ _ Bk BJ) as R2. pose proof (absm _ _ _ _ Bw BI) as R3.
  pose proof (absm _ _ _ _ MI Bw) as P3.
  assert (EC : Rabs (val cc - (val qj * Ck - val qk * Cj)) <= 8.4 / 16777216 * L + 32 * eta0).
  { replace (val cc - (val qj * Ck - val qk * Cj)) with ((val cc - (val qj * val ck - val qk * val cj)) + (val qj * (val ck - Ck) - val qk * (val cj - Cj))) by ring.
    apply abs2 in Ec, Q1, Q2. apply Rabs_le. lra. }
  assert (MC : Rabs (val cc) <= 2.07 * L + 32 * eta0) by (apply abs2 in EC, R1, R2; apply Rabs_le; lra).
  assert (E0 : eb cc (val cc) (2.07 * L + 32 * eta0) 0) by (split; [exact Fc|split; [rewrite Rminus_diag_eq, Rabs_R0 by reflexivity; lra|exact MC]]).
  destruct (eb_fma p ci w cc _ _ _ Fi Fw E0 ltac:(lra)) as (Ft & Et & Mt). rewrite UV in Et.
  set (t := simdfma p ci w cc) in *.
  assert (ET : Rabs (val t - (val w * Ci + (val qj * Ck - val qk * Cj))) <= 14.8 / 16777216 * L + 47 * eta0).
  { replace (val t - (val w * Ci + (val qj * Ck - val qk * Cj))) with ((val t - (val cc + val ci * val w)) + (val cc - (val qj * Ck - val qk * Cj)) + val w * (val ci - Ci)) by ring.
    apply abs2 in Et, EC, Q3. apply Rabs_le. lra. }
  assert (MT : Rabs (val w * Ci + (val qj * Ck - val qk * Cj)) <= 3.1 * L) by (apply abs2 in R1, R2, R3; apply Rabs_le; lra).
  assert (MT' : Rabs (val t) <= 3.11 * L + 47 * eta0) by (apply abs2 in ET, MT; apply Rabs_le; lra).
  destruct (lit_Z 2 ltac:(lia)) as [F2 V2]. change (fin (f2 : f32)) in F2. change (val (f2 : f32) = IZR 2) in V2.
  assert (P4 : Rabs (val t * val (f2 : f32)) <= 6.22 * L + 94 * eta0) by (rewrite V2, Rabs_mult, (Rabs_right 2) by lra; lra).
  assert (E1 : eb v (val v) L 0) by (split; [exact Fv|split; [rewrite Rminus_diag_eq, Rabs_R0 by reflexivity; lra|exact Bv]]).
  destruct (eb_fma p t f2 v _ _ _ Ft F2 E1 ltac:(lra)) as (Fr & Er & Mr). rewrite UV in Er.
  split; [exact Fr|]. split; [|apply abs2 in Bv, MT; apply Rabs_le; lra].
  replace (val (simdfma p t f2 v) - (val v + 2 * (val w * Ci + (val qj * Ck - val qk * Cj)))) with
    ((val (simdfma p t f2 v) - (val v + val t * val (f2 : f32))) + 2 * (val t - (val w * Ci + (val qj * Ck - val qk * Cj)))) by (rewrite V2; ring).
  apply abs2 in Er, ET. apply Rabs_le. lra.
Qed.
Lemma len3_nn : forall a, 0 <= len3 a. Proof. intros. apply sqrt_pos. Qed.
Lemma len3_sq : forall a, len3 a * len3 a = dotS a a.
Proof.
  intros a. apply sqrt_sqrt. unfold dotS. pose proof (Rle_0_sqr (vx a)). pose proof (Rle_0_sqr (vy a)). pose proof (Rle_0_sqr (vz a)). unfold Rsqr in *. lra.
Qed.
Lemma len3_lane : forall a, Rabs (vx a) <= len3 a /\ Rabs (vy a) <= len3 a /\ Rabs (vz a) <= len3 a.
Proof.
  intros a. pose proof (len3_sq a) as S. unfold dotS in S. pose proof (Rle_0_sqr (vx a)). pose proof (Rle_0_sqr (vy a)). pose proof (Rle_0_sqr (vz a)). unfold Rsqr in *.
  repeat split; apply sq_abs_le; try apply len3_nn; lra.
Qed.
Lemma len3_cross : forall a b, len3 (crossS a b) <= len3 a * len3 b.
Proof.
  intros a b. pose proof (len3_nn a). pose proof (len3_nn b). apply sq_le; [apply len3_nn|apply Rmult_le_pos; assumption|].
  rewrite len3_sq. replace (len3 a * len3 b * (len3 a * len3 b)) with ((len3 a * len3 a) * (len3 b * len3 b)) by ring. rewrite !len3_sq.
  unfold dotS, crossS. cbn [vx vy vz vw]. pose proof (Rle_0_sqr (vx a * vx b + vy a * vy b + vz a * vz b)) as K. unfold Rsqr in K. lra.
Qed.
Lemma len3_lenQ : forall a, len3 a <= lenQ a.
Proof. intros a. apply sqrt_le_1_alt. unfold dotS, norm2. pose proof (Rle_0_sqr (vw a)) as K. unfold Rsqr in K. lra. Qed.
Lemma lanes3 : forall a b e, 0 <= e -> Rabs (vx a - vx b) <= e -> Rabs (vy a - vy b) <= e -> Rabs (vz a - vz b) <= e -> dist3 a b <= 1.733 * e.
Proof.
  intros a b e E X Y Z. apply sq_le; [apply len3_nn|lra|]. unfold dist3. rewrite len3_sq. unfold dotS, minusS. cbn [vx vy vz vw].
  apply abs2 in X, Y, Z. nra.
Qed.
Theorem qrot_rounding : forall p d q u (v : vec4 f32), 0 <= d <= / 64 -> nearU d q u -> allFin (l43 v) -> len3 (valQ v) <= bpow radix2 50 ->
  allFin (l43 (qrot p q v)) /\
  dist3 (valQ (qrot p q v)) (rotP 1 (valQ q) (valQ v)) <= 78 / 16777216 * len3 (valQ v) + 280 * eta0.
Proof.
  intros p d q u v D N Fv HL. pose proof N as (Fq & _). destruct (unit_range d q u ltac:(lra) N) as [_ L1].
  pose proof (len3_nn (valQ v)) as LN. pose proof (len3_sq (valQ v)) as LS. destruct (len3_lane (valQ v)) as (V0 & V1 & V2).
  pose proof (lenQ_nn (valQ q)) as QN. pose proof (lenQ_sq (valQ q)) as QS. destruct (lane_len (valQ q)) as (Q0 & Q1 & Q2 & Q3).
  set (L := len3 (valQ v)) in *. set (B := lenQ (valQ q)) in *.
  unfold dotS in LS. unfold norm2 in QS. cbn [valQ vx vy vz vw] in *.
  assert (HB : B <= 1.016) by lra. pose proof eta0_pos as EP. pose proof eta0_small as ES.
  assert (G61 : bpow radix2 50 <= bpow radix2 61) by (apply bpow_le; lia). assert (G1 : 1.016 <= bpow radix2 61) by (cbn; lra).
  assert (AQ : allFin (l43 q)) by (fins Fq; unfold allFin, l43; repeat (apply Forall_cons; [assumption|]); apply Forall_nil).
  assert (BQ : boundedBy (bpow radix2 61) (l43 q)) by (unfold boundedBy, l43; repeat (apply Forall_cons; [lra|]); apply Forall_nil).
  assert (BV : boundedBy (bpow radix2 61) (l43 v)) by (unfold boundedBy, l43; repeat (apply Forall_cons; [lra|]); apply Forall_nil).
  pose proof (cross3_err p q v AQ Fv BQ BV) as C. unfold crossErr, l43 in C.
  set (c := cross3 p q v) in *. destruct C as ((F0 & E0) & (F1 & E1) & (F2 & E2)). rewrite eta_val in E0, E1, E2.
  set (C := crossS (valQ q) (valQ v)).
  assert (BL : B * L <= 1.016 * L) by (apply Rmult_le_compat_r; assumption).
  pose proof (fun r => Rle_0_sqr r) as SQ. unfold Rsqr in SQ.
  pose proof (SQ (val (vx q))). pose proof (SQ (val (vy q))). pose proof (SQ (val (vz q))). pose proof (SQ (val (vw q))).
  pose proof (SQ (val (vx v))). pose proof (SQ (val (vy v))). pose proof (SQ (val (vz v))).
  assert (K0 : Rabs (val (vy q) * val (vz v)) + Rabs (val (vz q) * val (vy v)) <= B * L) by (apply cau2; lra).
  assert (K1 : Rabs (val (vz q) * val (vx v)) + Rabs (val (vx q) * val (vz v)) <= B * L) by (apply cau2; lra).
  assert (K2 : Rabs (val (vx q) * val (vy v)) + Rabs (val (vy q) * val (vx v)) <= B * L) by (apply cau2; lra).
  assert (M : forall a b, Rabs (a - b) <= Rabs a + Rabs b) by (intros a b; eapply Rle_trans; [apply Rabs_triang|]; rewrite Rabs_Ropp; lra).
  assert (X0 : Rabs (vx C) <= 1.016 * L) by (unfold C, crossS; cbn [valQ vx vy vz vw]; eapply Rle_trans; [apply M|lra]).
  assert (X1 : Rabs (vy C) <= 1.016 * L) by (unfold C, crossS; cbn [valQ vx vy vz vw]; eapply Rle_trans; [apply M|lra]).
  assert (X2 : Rabs (vz C) <= 1.016 * L) by (unfold C, crossS; cbn [valQ vx vy vz vw]; eapply Rle_trans; [apply M|lra]).
  assert (Y0 : Rabs (val (vx c) - vx C) <= 2.05 / 16777216 * L + 10 * eta0) by (unfold C, crossS; cbn [valQ vx vy vz vw]; lra).
  assert (Y1 : Rabs (val (vy c) - vy C) <= 2.05 / 16777216 * L + 10 * eta0) by (unfold C, crossS; cbn [valQ vx vy vz vw]; lra).
  assert (Y2 : Rabs (val (vz c) - vz C) <= 2.05 / 16777216 * L + 10 * eta0) by (unfold C, crossS; cbn [valQ vx vy vz vw]; lra).
  assert (Fc : allFin (l43 c)) by (unfold allFin, l43; repeat (apply Forall_cons; [assumption|]); apply Forall_nil).
  assert (L50 : 0 <= L <= bpow radix2 50) by (split; assumption).
  assert (W : forall a A, Rabs (a - A) <= 2.05 / 16777216 * L + 10 * eta0 -> Rabs A <= 1.016 * L -> Rabs a <= bpow radix2 61).
  { intros a A G3 G4. apply Rle_trans with (2 * bpow radix2 50 + 1).
    - apply abs2 in G3, G4. apply Rabs_le. lra.
    - cbn. lra. }
  assert (Bc : boundedBy (bpow radix2 61) (l43 c)).
  { unfold boundedBy, l43. apply Forall_cons; [apply (W _ _ Y0 X0)|]. apply Forall_cons; [apply (W _ _ Y1 X1)|]. apply Forall_cons; [apply (W _ _ Y2 X2)|]. apply Forall_nil. }
  pose proof (cross3_err p q c AQ Fc BQ Bc) as CC. unfold crossErr, l43 in CC. set (cc := cross3 p q c) in *. destruct CC as (G0' & G1' & G2').
  fins Fq. fins Fv.
  pose proof (rot_lane p (vy q) (vz q) (vw q) (vx v) (vx c) (vy c) (vz c) (vx cc) (vx C) (vy C) (vz C) L) as R0.
  pose proof (rot_lane p (vz q) (vx q) (vw q) (vy v) (vy c) (vz c) (vx c) (vy cc) (vy C) (vz C) (vx C) L) as R1.
  pose proof (rot_lane p (vx q) (vy q) (vw q) (vz v) (vz c) (vx c) (vy c) (vz cc) (vz C) (vx C) (vy C) L) as R2.
  destruct R0 as (A0 & A1 & _); try assumption; try lra. destruct R1 as (B0 & B1 & _); try assumption; try lra. destruct R2 as (C0 & C1 & _); try assumption; try lra.
  unfold qrot. cbv zeta. fold c. fold cc.
  split; [unfold allFin, l43, vfma, dup4; cbn [vx vy vz vw]; repeat (apply Forall_cons; [assumption|]); apply Forall_nil|].
  eapply Rle_trans; [apply lanes3 with (e := 44 / 16777216 * L + 160 * eta0)|lra]; [lra|..];
    unfold valQ at 1; unfold rotP, vfma, dup4; cbv zeta; fold C; rewrite !Rmult_1_l; cbn [vx vy vz vw valQ];
    unfold crossS; cbn [vx vy vz vw valQ]; assumption.
Qed.

(** ** Rotation of a vector: sensitivity to the quaternion *)
Definition add3 (a b : vec4 R) : vec4 R := V4 (vx a + vx b) (vy a + vy b) (vz a + vz b) 0.
Definition mul3 (k : R) (a : vec4 R) : vec4 R := V4 (k * vx a) (k * vy a) (k * vz a) 0.
Lemma len3_Q : forall a, len3 a = lenQ (V4 (vx a) (vy a) (vz a) 0).
Proof. intros a. unfold len3, lenQ. f_equal. unfold dotS, norm2. cbn [vx vy vz vw]. ring. Qed.
Lemma len3_add : forall a b, len3 (add3 a b) <= len3 a + len3 b.
Proof.
  intros a b. rewrite !len3_Q. unfold add3. cbn [vx vy vz vw].
  replace (V4 (vx a + vx b) (vy a + vy b) (vz a + vz b) 0) with (addQ (V4 (vx a) (vy a) (vz a) 0) (V4 (vx b) (vy b) (vz b) 0)); [apply lenQ_triangle|].
  unfold addQ. cbn [vx vy vz vw]. f_equal; ring.
Qed.
Lemma len3_mul : forall k a, len3 (mul3 k a) = Rabs k * len3 a.
Proof.
  intros k a. rewrite !len3_Q, <- lenQ_scaled. f_equal. unfold mul3, scaledQ. cbn [vx vy vz vw]. f_equal. ring.
Qed.
Lemma dist3_triangle : forall a b c, dist3 a c <= dist3 a b + dist3 b c.
Proof.
  intros a b c. unfold dist3. replace (minusS a c) with (add3 (minusS a b) (minusS b c)); [apply len3_add|].
  unfold add3, minusS. cbn [vx vy vz vw]. f_equal; ring.
Qed.
Lemma rot_split : forall q u v, minusS (rotP 1 q v) (rotP 1 u v) =
  mul3 2 (add3 (add3 (mul3 (vw q - vw u) (crossS q v)) (mul3 (vw u) (crossS (subQ q u) v)))
               (add3 (crossS (subQ q u) (crossS q v)) (crossS u (crossS (subQ q u) v)))).
Proof. intros q u v. unfold minusS, rotP, mul3, add3, crossS, subQ. cbv zeta. cbn [vx vy vz vw]. f_equal; ring. Qed.
Theorem rot_sensitive : forall d q u v, 0 <= d <= / 64 -> unitQ u -> distQ q u <= d ->
  dist3 (rotP 1 q v) (turned u v) <= 8.1 * d * len3 v.
Proof.
  intros d q u v D U E. rewrite turnedP, <- rotP_unit by exact U. unfold dist3. rewrite rot_split, len3_mul, (Rabs_right 2) by lra.
  pose proof (unit_len u U) as LU. pose proof (lenQ_near q u) as LQ. rewrite LU in LQ.
  pose proof (len3_lenQ q) as Q3. pose proof (len3_lenQ u) as U3. pose proof (len3_lenQ (subQ q u)) as D3. fold (distQ q u) in D3.
  destruct (lane_dist q u) as (_ & _ & _ & W). destruct (lane_len u) as (_ & _ & _ & WU). rewrite LU in *.
  pose proof (len3_nn v) as NV. pose proof (len3_nn q) as NQ. pose proof (len3_nn u) as NU. pose proof (len3_nn (subQ q u)) as ND.
  set (L := len3 v) in *.
  assert (A : len3 (crossS q v) <= 1.0157 * L) by (eapply Rle_trans; [apply len3_cross|]; apply Rmult_le_compat_r; lra).
  assert (B : len3 (crossS (subQ q u) v) <= d * L) by (eapply Rle_trans; [apply len3_cross|]; apply Rmult_le_compat_r; lra).
  pose proof (len3_nn (crossS q v)). pose proof (len3_nn (crossS (subQ q u) v)).
  assert (DL : 0 <= d * L) by (apply Rmult_le_pos; lra).
  assert (T1 : len3 (mul3 (vw q - vw u) (crossS q v)) <= d * (1.0157 * L)).
  { rewrite len3_mul. apply Rmult_le_compat; try assumption; [apply Rabs_pos|lra]. }
  assert (T2 : len3 (mul3 (vw u) (crossS (subQ q u) v)) <= 1 * (d * L)).
  { rewrite len3_mul. apply Rmult_le_compat; try assumption. apply Rabs_pos. }
  assert (T3 : len3 (crossS (subQ q u) (crossS q v)) <= d * (1.0157 * L)).
  { eapply Rle_trans; [apply len3_cross|]. apply Rmult_le_compat; try assumption. lra. }
  assert (T4 : len3 (crossS u (crossS (subQ q u) v)) <= 1 * (d * L)).
  { eapply Rle_trans; [apply len3_cross|]. apply Rmult_le_compat; try assumption. }
  eapply Rle_trans; [apply Rmult_le_compat_l; [lra|apply len3_add]|].
  pose proof (len3_add (mul3 (vw q - vw u) (crossS q v)) (mul3 (vw u) (crossS (subQ q u) v))).
  pose proof (len3_add (crossS (subQ q u) (crossS q v)) (crossS u (crossS (subQ q u) v))). lra.
Qed.
Theorem qrot_near : forall p d q u (v : vec4 f32), 0 <= d <= / 64 -> nearU d q u -> allFin (l43 v) -> len3 (valQ v) <= bpow radix2 50 ->
  allFin (l43 (qrot p q v)) /\
  dist3 (valQ (qrot p q v)) (turned u (valQ v)) <= (78 / 16777216 + 8.1 * d) * len3 (valQ v) + bpow radix2 (-140).
Proof.
  intros p d q u v D N Fv HL. destruct (qrot_rounding p d q u v D N Fv HL) as [F E]. split; [exact F|].
  eapply Rle_trans; [apply (dist3_triangle _ (rotP 1 (valQ q) (valQ v)))|]. destruct N as (_ & U & DQ).
  pose proof (rot_sensitive d (valQ q) u (valQ v) D U DQ).
  assert (T : 280 * eta0 <= bpow radix2 (-140)).
  { unfold eta0. replace (bpow radix2 (-140)) with (bpow radix2 10 * bpow radix2 (-150)) by (rewrite <- bpow_plus; reflexivity).
    pose proof (bpow_gt_0 radix2 (-150)). change (bpow radix2 10) with 1024. lra. }
  lra.
Qed.
(** rotating back with the inverse *)
Theorem vqrot_near : forall p d q u (v : vec4 f32), 0 <= d <= / 512 -> nearU d q u -> allFin (l43 v) -> len3 (valQ v) <= bpow radix2 50 ->
  allFin (l43 (vqrot p v q)) /\
  dist3 (valQ (vqrot p v q)) (turned (conjQ u) (valQ v)) <= (151 / 16777216 + 29.2 * d) * len3 (valQ v) + bpow radix2 (-140).
Proof.
  intros p d q u v D N Fv HL. pose proof (qinverse_near p d q u ltac:(lra) N) as I.
  destruct (qrot_near p (3.6 * d + 9 / 16777216) _ _ v ltac:(lra) I Fv HL) as [F E]. split; [exact F|]. unfold vqrot.
  pose proof (len3_nn (valQ v)). pose proof (Rmult_le_pos d (len3 (valQ v)) ltac:(lra) ltac:(lra)). lra.
Qed.
Lemma turned_conj : forall u v, unitQ u -> eq3 (turned (conjQ u) (turned u v)) v.
Proof.
  intros u v U. rewrite !turnedP, rotP_compose.
  replace (qmulS (conjQ u) u) with (V4 0 0 0 (norm2 u)) by (unfold qmulS, conjQ, norm2; cbn [vx vy vz vw]; f_equal; ring).
  rewrite U. unfold eq3, rotP, norm2, crossS. cbv zeta. cbn [vx vy vz vw]. split; [|split]; ring.
Qed.
Lemma lin3 : forall u a b, minusS (turned u a) (turned u b) = turned u (minusS a b).
Proof. intros u a b. unfold minusS, turned, ham. cbn [vx vy vz vw]. f_equal; ring. Qed.
Lemma turned_len : forall u v, unitQ u -> len3 (turned u v) = len3 v.
Proof.
  intros u v U. rewrite len3_Q. transitivity (lenQ (turned u v)).
  - f_equal. unfold turned, ham. cbn [vx vy vz vw]. f_equal; ring.
  - unfold turned. rewrite !lenQ_ham. change (V4 (- vx u) (- vy u) (- vz u) (vw u)) with (conjQ u).
    rewrite (unit_len _ (conj_unit u U)), (unit_len u U), <- len3_Q. ring.
Qed.
Lemma dist3_turned : forall u a b, unitQ u -> dist3 (turned u a) (turned u b) = dist3 a b.
Proof. intros u a b U. unfold dist3. rewrite lin3. apply turned_len, U. Qed.
Lemma dist3_eq3 : forall a b c, eq3 b c -> dist3 a b = dist3 a c.
Proof. intros a b c (X & Y & Z). unfold dist3, minusS. rewrite X, Y, Z. reflexivity. Qed.
Lemma len3_near : forall a b, len3 a <= len3 b + dist3 a b.
Proof.
  intros a b. unfold dist3. eapply Rle_trans; [|rewrite Rplus_comm; apply len3_add].
  right. unfold len3. f_equal. unfold dotS, add3, minusS. cbn [vx vy vz vw]. ring.
Qed.
Theorem there_and_back : forall p d q u (v : vec4 f32), 0 <= d <= / 512 -> nearU d q u -> allFin (l43 v) -> len3 (valQ v) <= bpow radix2 49 ->
  dist3 (valQ (vqrot p (qrot p q v) q)) (valQ v) <= (232 / 16777216 + 38 * d) * len3 (valQ v) + bpow radix2 (-138).
Proof.
  intros p d q u v D N Fv HL. pose proof N as (_ & U & _). assert (G : bpow radix2 49 <= bpow radix2 50) by (apply bpow_le; lia).
  destruct (qrot_near p d q u v ltac:(lra) N Fv ltac:(lra)) as [F E]. set (r := qrot p q v) in *.
  pose proof (len3_nn (valQ v)) as LN. set (L := len3 (valQ v)) in *.
  pose proof (len3_near (valQ r) (turned u (valQ v))) as LR. rewrite (turned_len u _ U) in LR. fold L in LR.
  pose proof (bpow_gt_0 radix2 (-140)) as TP.
  assert (T : bpow radix2 (-140) <= 1) by (apply (bpow_le radix2 (-140) 0); lia).
  assert (T4 : 4 * bpow radix2 (-140) = bpow radix2 (-138)) by (change 4 with (bpow radix2 2); rewrite <- bpow_plus; reflexivity).
  assert (DL : 0 <= d * L <= / 512 * L) by (split; [apply Rmult_le_pos; lra|apply Rmult_le_compat_r; lra]).
  assert (LR' : len3 (valQ r) <= 1.016 * L + bpow radix2 (-140)) by lra.
  destruct (vqrot_near p d q u r D N F) as [_ B].
  { eapply Rle_trans; [exact LR'|]. change (bpow radix2 49) with 562949953421312 in HL. change (bpow radix2 50) with 1125899906842624. lra. }
  eapply Rle_trans; [apply (dist3_triangle _ (turned (conjQ u) (valQ r)))|].
  assert (K : dist3 (turned (conjQ u) (valQ r)) (valQ v) = dist3 (valQ r) (turned u (valQ v))).
  { rewrite <- (dist3_eq3 _ _ _ (turned_conj u (valQ v) U)). apply dist3_turned, conj_unit, U. }
  rewrite K.
  assert (C : (151 / 16777216 + 29.2 * d) * len3 (valQ r) <= (151 / 16777216 + 29.2 * d) * (1.016 * L + bpow radix2 (-140))) by (apply Rmult_le_compat_l; lra).
  assert (C2 : d * bpow radix2 (-140) <= / 512 * bpow radix2 (-140)) by (apply Rmult_le_compat_r; lra). lra.
Qed.

(** ** The constructors from angles *)
Lemma half_near : forall x : f32, fin x -> Rabs (val x) <= 16384 -> fin (x * fhalf)%sc /\ Rabs (val (x * fhalf)%sc - val x / 2) <= 2 * eta0.
Proof.
  intros x Fx B. destruct half_val as [Fh Vh]. change (fin (fhalf : f32)) in Fh. change (val (fhalf : f32) = / 2) in Vh.
  destruct (mul_small x fhalf Fx Fh) as [F V].
  { rewrite Vh. apply small_num. rewrite Rabs_mult, (Rabs_right (/ 2)) by lra. lra. }
  split; [exact F|]. rewrite V, Vh. change (val x / 2) with (val x * / 2). pose proof eta0_pos as EP.
  destruct (Rle_or_lt (bpow radix2 (-125)) (Rabs (val x))) as [G|G].
  - assert (E : rnd (val x * / 2) = val x * / 2).
    { change (/ 2) with (bpow radix2 (-1)). apply round_generic; [apply valid_rnd_round_mode|].
      assert (P24 : Prec_gt_0 24) by reflexivity.
      apply (mult_bpow_exact_FLT radix2 (-149) 24); [apply (generic_format_B2R 24 128)|].
      assert (M : (-124 <= mag radix2 (val x))%Z); [|lia].
      apply Z.lt_pred_le. apply (mag_gt_bpow radix2) with (e := Z.pred (-124)). exact G. }
    rewrite E, Rminus_diag_eq, Rabs_R0 by reflexivity. lra.
  - eapply Rle_trans; [apply rnd_err|]. rewrite Rabs_mult, (Rabs_right (/ 2)) by lra.
    assert (u24 * (Rabs (val x) * / 2) <= eta0); [|lra]. unfold eta0. 
    replace (bpow radix2 (-150)) with (u24 * (bpow radix2 (-125) * / 2)); [pose proof u24_val; nra|].
    change (/ 2) with (bpow radix2 (-1)). rewrite u24_val. replace (/ 16777216) with (bpow radix2 (-24)) by (cbn; lra). rewrite <- !bpow_plus. reflexivity.
Qed.
Lemma half_trig : forall p (x : f32), p <> GEN -> fin x -> Rabs (val x) <= 16384 ->
  let '(s, c) := sinCosLane p (x * fhalf)%sc in
  ap s (sin (val x / 2)) 0.000000651 1 /\ ap c (cos (val x / 2)) 0.000000651 1.
Proof.
  intros p x Hp Fx B. destruct (half_near x Fx B) as [F E]. pose proof eta0_small as ES.
  assert (B2 : Rabs (val (x * fhalf)%sc) <= 8192 + / 1000000) by (apply abs2 in E, B; apply Rabs_le; lra).
  assert (B3 : Rabs (val (x * fhalf)%sc) <= 8192).
  { destruct half_val as [Fh Vh]. change (fin (fhalf : f32)) in Fh. change (val (fhalf : f32) = / 2) in Vh.
    destruct (mul_small x fhalf Fx Fh) as [_ V].
    { rewrite Vh. apply small_num. rewrite Rabs_mult, (Rabs_right (/ 2)) by lra. lra. }
    rewrite V, Vh. assert (R : rnd 8192 = 8192) by (destruct (lit_Z 8192 ltac:(cbn; lia)) as [_ W]; change 8192 with (IZR 8192); rewrite <- W; apply rnd_val).
    apply abs2 in B. apply Rabs_le. split.
    - replace (- (8192)) with (rnd (- (8192))); [apply F32Round.rnd_le; lra|].
      destruct (lit_Z (-8192) ltac:(cbn; lia)) as [_ W]. replace (- (8192)) with (IZR (-8192)) by (cbn; lra). rewrite <- W. apply rnd_val.
    - rewrite <- R. apply F32Round.rnd_le. lra. }
  pose proof (sinCos_accurate p (x * fhalf)%sc Hp F B3) as A. destruct (sinCosLane p (x * fhalf)%sc) as [s c]. destruct A as (Fs & Fc & As & Ac).
  pose proof (sin_lip (val (x * fhalf)%sc) (val x / 2)) as LS. pose proof (cos_lip (val (x * fhalf)%sc) (val x / 2)) as LC.
  split; (split; [assumption|]); (split; [|apply Rabs_le; first [apply SIN_bound|apply COS_bound]]).
  - replace (val s - sin (val x / 2)) with ((val s - sin (val (x * fhalf)%sc)) + (sin (val (x * fhalf)%sc) - sin (val x / 2))) by ring.
    eapply Rle_trans; [apply Rabs_triang|lra].
  - replace (val c - cos (val x / 2)) with ((val c - cos (val (x * fhalf)%sc)) + (cos (val (x * fhalf)%sc) - cos (val x / 2))) by ring.
    eapply Rle_trans; [apply Rabs_triang|lra].
Qed.
Lemma axisS_unit : forall n t, dotS n n = 1 -> unitQ (axisS n t).
Proof.
  intros n t H. unfold unitQ, norm2, axisS, dotS in *. cbn [vx vy vz vw]. pose proof (sin2_cos2 (t / 2)) as S. unfold Rsqr in S.
  set (s := sin (t / 2)) in *. set (c := cos (t / 2)) in *.
  replace (vx n * s * (vx n * s) + vy n * s * (vy n * s) + vz n * s * (vz n * s) + c * c) with ((vx n * vx n + vy n * vy n + vz n * vz n) * (s * s) + c * c) by ring.
  rewrite H. lra.
Qed.
Lemma distQ_split : forall a b, distQ a b <= dist3 a b + Rabs (vw a - vw b).
Proof.
  intros a b. pose proof (len3_nn (minusS a b)) as N. pose proof (len3_sq (minusS a b)) as S. fold (dist3 a b) in *.
  pose proof (Rabs_pos (vw a - vw b)) as W. apply sq_le; [apply lenQ_nn|lra|]. unfold distQ. rewrite lenQ_sq. unfold norm2, subQ. unfold dotS, minusS in S. cbn [vx vy vz vw] in *.
  assert (Q : Rabs (vw a - vw b) * Rabs (vw a - vw b) = (vw a - vw b) * (vw a - vw b)) by (rewrite <- Rabs_mult; apply Rabs_right, Rle_ge, Rle_0_sqr).
  nra.
Qed.
Theorem axisQuat_near : forall p d (angle : f32) (axis : vec4 f32) n, p <> GEN -> fin angle -> Rabs (val angle) <= 16384 ->
  allFin (l43 axis) -> dotS n n = 1 -> 0 <= d <= / 64 -> dist3 (valQ axis) n <= d ->
  nearU (0.0000015 + d) (axisQuat p angle axis) (axisS n (val angle)).
Proof.
  intros p d angle a n Hp Fx B Fa U D E. pose proof (half_trig p angle Hp Fx B) as T. unfold axisQuat.
  destruct (sinCosLane p (angle * fhalf)%sc) as [s c]. destruct T as ((Fs & Es & Bs) & (Fc & Ec & Bc)).
  set (S := sin (val angle / 2)) in *. set (C := cos (val angle / 2)) in *.
  assert (LN : len3 n = 1) by (unfold len3; rewrite U; apply sqrt_1).
  pose proof (len3_near (valQ a) n) as LA. rewrite LN in LA. destruct (len3_lane (valQ a)) as (A0 & A1 & A2). cbn [valQ vx vy vz vw] in A0, A1, A2.
  fins Fa. pose proof eta0_small as ES. pose proof eta0_pos as EP. pose proof u24_val as UV.
  assert (Ms : Rabs (val s) <= 1.000001) by (apply abs2 in Es, Bs; apply Rabs_le; lra).
  assert (K : forall x : f32, fin x -> Rabs (val x) <= len3 (valQ a) -> fin (x * s)%sc /\ Rabs (val (x * s)%sc - val x * val s) <= 1.03 / 16777216).
  { intros x Fx' Bx. assert (P : Rabs (val x * val s) <= 1.017) by (rewrite Rabs_mult; pose proof (Rabs_pos (val x)); pose proof (Rabs_pos (val s)); nra).
    destruct (mul_small x s Fx' Fs) as [F V]; [apply small_num; lra|]. split; [exact F|]. rewrite V. eapply Rle_trans; [apply rnd_err|]. rewrite UV. 
    assert (eta0 <= 0.001 / 16777216) by lra. lra. }
  destruct (K (vx a)) as [X1 X2]; [assumption..|]. destruct (K (vy a)) as [Y1 Y2]; [assumption..|]. destruct (K (vz a)) as [Z1 Z2]; [assumption..|].
  split; [unfold allFin, l4; cbn [vx vy vz vw]; repeat (apply Forall_cons; [assumption|]); apply Forall_nil|]. split; [apply axisS_unit, U|].
  eapply Rle_trans; [apply distQ_split|]. cbn [valQ vx vy vz vw axisS]. fold C. 
  set (r := V4 (vx a * s)%sc (vy a * s)%sc (vz a * s)%sc c).
  assert (P1 : dist3 (valQ r) (mul3 (val s) (valQ a)) <= 1.733 * (1.03 / 16777216)).
  { apply lanes3; [lra|..]; unfold r, mul3; cbn [valQ vx vy vz vw]; rewrite (Rmult_comm (val s)); assumption. }
  assert (P2 : dist3 (mul3 (val s) (valQ a)) (mul3 S (valQ a)) <= 0.000000651 * 1.016).
  { unfold dist3. replace (minusS _ _) with (mul3 (val s - S) (valQ a)) by (unfold minusS, mul3; cbn [vx vy vz vw]; f_equal; ring).
    rewrite len3_mul. apply Rmult_le_compat; try apply Rabs_pos; try apply len3_nn; [exact Es|lra]. }
  assert (P3 : dist3 (mul3 S (valQ a)) (axisS n (val angle)) <= d).
  { unfold dist3. replace (minusS _ _) with (mul3 S (minusS (valQ a) n)) by (unfold minusS, mul3, axisS, S; cbn [vx vy vz vw]; f_equal; ring).
    rewrite len3_mul. fold (dist3 (valQ a) n). pose proof (len3_nn (minusS (valQ a) n)) as N3. fold (dist3 (valQ a) n) in N3. pose proof (Rabs_pos S). nra. }
  pose proof (dist3_triangle (valQ r) (mul3 (val s) (valQ a)) (axisS n (val angle))).
  pose proof (dist3_triangle (mul3 (val s) (valQ a)) (mul3 S (valQ a)) (axisS n (val angle))). lra.
Qed.
Lemma axisS_rotates : forall n t v, dotS n n = 1 -> eq3 (turned (axisS n t) v) (rodrigues n t v).
Proof.
  intros n t v U. assert (E : axisS n t = quatOfAxis t n).
  { unfold axisS, quatOfAxis. cbv zeta. cbn [vx vy vz vw smul tsin tcos ScalarR TrigR]. rewrite !fhalfR. reflexivity. }
  rewrite E. apply (eq3_trans _ (qrot SSE2 (quatOfAxis t n) v)).
  - destruct (qrot_turned SSE2 (quatOfAxis t n) v (quatOfAxis_unit t n U)) as (A & B & C). repeat split; congruence.
  - apply quatOfAxis_rotates, U.
Qed.
Theorem axis_rotation : forall p d (angle : f32) (axis v : vec4 f32) n, p <> GEN -> fin angle -> Rabs (val angle) <= 16384 ->
  allFin (l43 axis) -> dotS n n = 1 -> 0 <= d <= / 65 -> dist3 (valQ axis) n <= d ->
  allFin (l43 v) -> len3 (valQ v) <= bpow radix2 50 ->
  allFin (l43 (qrot p (axisQuat p angle axis) v)) /\
  dist3 (valQ (qrot p (axisQuat p angle axis) v)) (rodrigues n (val angle) (valQ v)) <= (0.000017 + 8.1 * d) * len3 (valQ v) + bpow radix2 (-140).
Proof.
  intros p d angle a v n Hp Fx B Fa U D E Fv L. pose proof (axisQuat_near p d angle a n Hp Fx B Fa U ltac:(lra) E) as N.
  destruct (qrot_near p (0.0000015 + d) _ _ v ltac:(lra) N Fv L) as [F G]. split; [exact F|].
  rewrite <- (dist3_eq3 _ _ _ (axisS_rotates n (val angle) (valQ v) U)). pose proof (len3_nn (valQ v)). 
  eapply Rle_trans; [exact G|]. apply Rplus_le_compat_r. apply Rmult_le_compat_r; lra.
Qed.
Lemma abs1 : forall a b, Rabs a <= 1 -> Rabs b <= 1 -> Rabs (a * b) <= 1.
Proof. intros. rewrite <- (Rmult_1_l 1). apply absm; assumption. Qed.
Lemma ap_bound : forall x X e M, ap x X e M -> Rabs X <= M. Proof. intros x X e M (_ & _ & H). exact H. Qed.
Lemma triple : forall (a b c : f32) A B C, ap a A 0.000000651 1 -> ap b B 0.000000651 1 -> ap c C 0.000000651 1 ->
  ap (a * b * c)%sc (A * B * C) 0.00000208 1.
Proof.
  intros a b c A B C Ha Hb Hc. pose proof u24_val as UV. pose proof eta0_small.
  eapply ap_mul; [eapply ap_mul with (e := 0.000001362) (M := 1); [exact Ha|exact Hb|..]|exact Hc|..]; rewrite ?UV; try lra.
  - apply abs1; eapply ap_bound; eassumption.
  - apply abs1; [apply abs1|]; eapply ap_bound; eassumption.
Qed.
Lemma ham_unit : forall a b, unitQ a -> unitQ b -> unitQ (ham a b).
Proof. intros a b A B. unfold unitQ. rewrite <- lenQ_sq, lenQ_ham, (unit_len a A), (unit_len b B). ring. Qed.
Theorem eulerQuat_near : forall p (a : vec4 f32), p <> GEN -> allFin (l43 a) -> boundedBy 16384 (l43 a) ->
  nearU 0.000009 (eulerQuat p a) (ham (ham (axisS axisZ (val (vz a))) (axisS axisY (val (vy a)))) (axisS axisX (val (vx a)))).
Proof.
  intros p a Hp F B. unfold boundedBy, l43 in B. rewrite !Forall_cons_iff in B. destruct B as (BX & BY & BZ & _). fins F.
  pose proof (half_trig p (vx a) Hp ltac:(assumption) BX) as TX. pose proof (half_trig p (vy a) Hp ltac:(assumption) BY) as TY.
  pose proof (half_trig p (vz a) Hp ltac:(assumption) BZ) as TZ. unfold eulerQuat.
  destruct (sinCosLane p (vx a * fhalf)%sc) as [sX cX]. destruct (sinCosLane p (vy a * fhalf)%sc) as [sY cY]. destruct (sinCosLane p (vz a * fhalf)%sc) as [sZ cZ].
  destruct TX as [SX CX]. destruct TY as [SY CY]. destruct TZ as [SZ CZ].
  destruct axis_unit as (UX & UY & UZ).
  set (u := ham (ham (axisS axisZ (val (vz a))) (axisS axisY (val (vy a)))) (axisS axisX (val (vx a)))).
  assert (UU : unitQ u) by (unfold u; repeat apply ham_unit; apply axisS_unit; assumption).
  destruct (lane_len u) as (L0 & L1 & L2 & L3). rewrite (unit_len u UU) in *.
  pose proof u24_val as UV. pose proof eta0_small as ES.
  assert (K : forall (x y : f32) X Y, ap x X 0.00000208 1 -> ap y Y 0.00000208 1 -> Rabs (X + Y) <= 1 -> ap (x + y)%sc (X + Y) 0.0000044 1).
  { intros x y X Y Hx Hy H'. eapply ap_add; [exact Hx|exact Hy|exact H'|lra|rewrite UV; lra]. }
  assert (K' : forall (x y : f32) X Y, ap x X 0.00000208 1 -> ap y Y 0.00000208 1 -> Rabs (X - Y) <= 1 -> ap (x - y)%sc (X - Y) 0.0000044 1).
  { intros x y X Y Hx Hy H'. eapply ap_sub; [exact Hx|exact Hy|exact H'|lra|rewrite UV; lra]. }
  pose proof (K' _ _ _ _ (triple _ _ _ _ _ _ SX CY CZ) (triple _ _ _ _ _ _ CX SY SZ)) as R0.
  pose proof (K _ _ _ _ (triple _ _ _ _ _ _ CX SY CZ) (triple _ _ _ _ _ _ SX CY SZ)) as R1.
  pose proof (K' _ _ _ _ (triple _ _ _ _ _ _ CX CY SZ) (triple _ _ _ _ _ _ SX SY CZ)) as R2.
  pose proof (K _ _ _ _ (triple _ _ _ _ _ _ CX CY CZ) (triple _ _ _ _ _ _ SX SY SZ)) as R3.
  set (sx := sin (val (vx a) / 2)) in *. set (cx := cos (val (vx a) / 2)) in *. set (sy := sin (val (vy a) / 2)) in *.
  set (cy := cos (val (vy a) / 2)) in *. set (sz := sin (val (vz a) / 2)) in *. set (cz := cos (val (vz a) / 2)) in *.
  assert (E0 : vx u = sx * cy * cz - cx * sy * sz) by (unfold u, ham, axisS, axisX, axisY, axisZ; cbn [vx vy vz vw]; fold sx cx sy cy sz cz; ring).
  assert (E1 : vy u = cx * sy * cz + sx * cy * sz) by (unfold u, ham, axisS, axisX, axisY, axisZ; cbn [vx vy vz vw]; fold sx cx sy cy sz cz; ring).
  assert (E2 : vz u = cx * cy * sz - sx * sy * cz) by (unfold u, ham, axisS, axisX, axisY, axisZ; cbn [vx vy vz vw]; fold sx cx sy cy sz cz; ring).
  assert (E3 : vw u = cx * cy * cz + sx * sy * sz) by (unfold u, ham, axisS, axisX, axisY, axisZ; cbn [vx vy vz vw]; fold sx cx sy cy sz cz; ring).
  rewrite E0 in L0. rewrite E1 in L1. rewrite E2 in L2. rewrite E3 in L3.
  destruct (R0 L0) as (F0 & G0 & _). destruct (R1 L1) as (F1 & G1 & _). destruct (R2 L2) as (F2 & G2 & _). destruct (R3 L3) as (F3 & G3 & _).
  split; [unfold allFin, l4; cbn [vx vy vz vw]; repeat (apply Forall_cons; [assumption|]); apply Forall_nil|]. split; [exact UU|].
  eapply Rle_trans; [apply lanes_dist with (e := 0.0000044)|lra]; [lra|..]; cbn [valQ vx vy vz vw]; rewrite ?E0, ?E1, ?E2, ?E3; assumption.
Qed.
Lemma turned_ham : forall a b v, turned (ham a b) v = turned a (turned b v).
Proof. intros a b v. unfold turned, ham. cbn [vx vy vz vw]. f_equal; ring. Qed.
Lemma turned_eq3 : forall u a b, eq3 a b -> turned u a = turned u b.
Proof. intros u a b (X & Y & Z). unfold turned. rewrite X, Y, Z. reflexivity. Qed.
Theorem euler_rotation : forall p (a v : vec4 f32), p <> GEN -> allFin (l43 a) -> boundedBy 16384 (l43 a) ->
  allFin (l43 v) -> len3 (valQ v) <= bpow radix2 50 ->
  allFin (l43 (qrot p (eulerQuat p a) v)) /\
  dist3 (valQ (qrot p (eulerQuat p a) v))
    (rodrigues axisZ (val (vz a)) (rodrigues axisY (val (vy a)) (rodrigues axisX (val (vx a)) (valQ v)))) <= 0.000078 * len3 (valQ v) + bpow radix2 (-140).
Proof.
  intros p a v Hp F B Fv L. pose proof (eulerQuat_near p a Hp F B) as N.
  destruct (qrot_near p 0.000009 _ _ v ltac:(lra) N Fv L) as [G E]. split; [exact G|]. rewrite !turned_ham in E. destruct axis_unit as (UX & UY & UZ).
  pose proof (axisS_rotates axisX (val (vx a)) (valQ v) UX) as RX. rewrite (turned_eq3 _ _ _ RX) in E.
  pose proof (axisS_rotates axisY (val (vy a)) (rodrigues axisX (val (vx a)) (valQ v)) UY) as RY. rewrite (turned_eq3 _ _ _ RY) in E.
  pose proof (axisS_rotates axisZ (val (vz a)) (rodrigues axisY (val (vy a)) (rodrigues axisX (val (vx a)) (valQ v))) UZ) as RZ.
  rewrite (dist3_eq3 _ _ _ RZ) in E. pose proof (len3_nn (valQ v)). lra.
Qed.
