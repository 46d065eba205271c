(** Colours to linear light and back in binary32, for any sufficiently accurate power function. *)
From Coq Require Import ZArith Bool List Reals Lra Lia Psatz.
From Flocq Require Import Core.Core IEEE754.BinarySingleNaN IEEE754.Binary IEEE754.Bits.
From Verif.Model Require Import Outcome Scalar Vec Simd Hex Color Numeric ColorLinear Transc.
From Verif.Spec Require Import OrderSpec ColorSpec LinearSpec.
From Verif.Proofs Require Import OrdScalar F32Round F32Err Approx ExpProofs PowProofs ColorProofs GainProofs SrgbProofs.
Local Open Scope R_scope.

Ltac smallish := try rewrite u24_val; pose proof eta0_small; pose proof eta0_pos; lra.

(** constants *)
Lemma ap_f1 : ap (f1 : f32) 1 0 1.
Proof. destruct f1_fin as [A B]. split; [exact A|]. rewrite B. replace (1 - 1) with 0 by ring. rewrite Rabs_R0, Rabs_R1. lra. Qed.
Ltac apc := apply ap_const; [lia|lia|cbn [bpow]; unfold cC, cK, cA, cB, cG, cS; cbn; lra|cval|cval].
Lemma apK : ap (srgbK : f32) cK 0 13. Proof. unfold srgbK. apc. Qed.
Lemma apA : ap (srgbA : f32) cA 0 1.06. Proof. unfold srgbA. apc. Qed.
Lemma apB : ap (srgbB : f32) cB 0 0.0551. Proof. unfold srgbB. apc. Qed.
Lemma apG : ap (srgbG : f32) cG 0 2.41. Proof. unfold srgbG. apc. Qed.
Lemma apC : ap (srgbC : f32) cC 0 0.0032. Proof. unfold srgbC. apc. Qed.
Lemma apS : ap (srgbS : f32) cS 0 0.0405. Proof. unfold srgbS. apc. Qed.
Lemma ap_inv : forall (y : f32) Y L M e, ap y Y 0 M -> 0 < L -> L <= Y -> / L <= 100 -> u24 * / L + eta0 <= e ->
  ap (f1 / y)%sc (1 / Y) e (/ L).
Proof.
  intros y Y L M e H HL HY HI He. 
  assert (I : 0 < / L) by (apply Rinv_0_lt_compat, HL).
  apply ap_div with 0 0 1 M L; [exact ap_f1|exact H|exact HL|exact HY|exact HL| | |].
  - assert (0 < Y) by lra. rewrite Rabs_right by (left; apply Rdiv_lt_0_compat; lra). unfold Rdiv. rewrite Rmult_1_l.
    apply Rinv_le_contravar; assumption.
  - replace ((0 + / L * 0) / (L - 0)) with 0 by (field; lra). replace (/ L + 0) with (/ L) by ring. lra.
  - replace ((0 + / L * 0) / (L - 0)) with 0 by (field; lra). lra.
Qed.
Lemma ap_iK : ap (f1 / srgbK : f32)%sc (1 / cK) 0.00000001 (/ 12.5).
Proof. eapply ap_inv; [apply apK|lra|cval|lra|smallish]. Qed.
Lemma ap_iA : ap (f1 / srgbA : f32)%sc (1 / cA) 0.0000001 (/ 1).
Proof. eapply ap_inv; [apply apA|lra|cval|lra|smallish]. Qed.
Lemma ap_iG : ap (f1 / srgbG : f32)%sc (1 / cG) 0.00000003 (/ 2.4).
Proof. eapply ap_inv; [apply apG|lra|cval|lra|smallish]. Qed.
Lemma ap_i255 : ap (inv255 : f32) (1 / 255) 0.0000000003 (/ 255).
Proof.
  unfold inv255. eapply ap_inv; [apply ap_const with (M := 255); [lia|lia|cbn; lra|lra|lra]|lra|lra|lra|smallish].
Qed.
Definition chan (n : Z) : R := IZR n / 255.
Lemma chan_range : forall n, (0 <= n <= 255)%Z -> 0 <= chan n <= 1.
Proof. intros n [A B]. apply IZR_le in A, B. unfold chan. lra. Qed.
Lemma ap_norm : forall n, (0 <= n <= 255)%Z -> ap (normOf n : f32) (chan n) 0.00000015 1.
Proof.
  intros n [A B]. unfold normOf. apply IZR_le in A as A', B as B'.
  replace (chan n) with (IZR n * (1 / 255)) by (unfold chan; field).
  eapply ap_mul'; [apply ap_const with (c := IZR n) (M := 255); [lia|lia|cbn; lra|lra|lra]|apply ap_i255|lra|lra|smallish].
Qed.
Lemma abs2 : forall x a, Rabs x <= a -> - a <= x <= a.
Proof. intros x a H. apply Rabs_le_inv in H. exact H. Qed.

Lemma sel_mask_f : forall (b : bool) (x y : f32), sel (maskOf b) x y = if b then x else y.
Proof. intros [] x y; reflexivity. Qed.
(** the final rounding *)
Lemma unitClamp_near : forall v w e, 0 <= w <= 1 -> Rabs (v - w) <= e -> Rabs (unitClamp v - w) <= e.
Proof.
  intros v w e W H. apply abs2 in H. apply Rabs_le. unfold unitClamp, Rmax, Rmin.
  destruct (Rle_dec v 1), (Rle_dec _ 0); lra.
Qed.
Lemma quantize_near : forall p (x : f32) n, (0 <= n <= 255)%Z -> fin x -> Rabs (val x - chan n) <= 0.0015 ->
  quantizeSimd p x = Ok n.
Proof.
  intros p x n N F H. rewrite quantizeSimd_eq by (apply fin_num, F). rewrite fin_ext by exact F. f_equal.
  pose proof (unitClamp_near _ _ _ (chan_range n N) H) as U. pose proof (chanOf_err _ (unitClamp_bounds (val x))) as E.
  set (w := unitClamp (val x)) in *. apply abs2 in U, E. unfold chan in U.
  assert (-1 < IZR (chanOf w) - IZR n < 1) by lra. rewrite <- minus_IZR in H0. destruct H0 as [H1 H2].
  apply lt_IZR in H1, H2. lia.
Qed.

(** the linear part *)
Lemma low_linear : forall (P : Pow f32) n, (0 <= n <= 10)%Z ->
  ap (toRgbLane (normOf n : f32)) (chan n * (1 / cK)) 0.000000014 0.00304.
Proof.
  intros P n N. pose proof (ap_norm n ltac:(lia)) as Y. destruct N as [N1 N2]. apply IZR_le in N1 as M1, N2 as M2.
  assert (B : 0 <= chan n <= 10 / 255) by (unfold chan; lra).
  unfold toRgbLane. cbv zeta. rewrite sel_mask_f.
  destruct Y as (F & E & _). destruct apS as (FS & ES & _). rewrite sle_fin by assumption.
  apply abs2 in ES. apply abs2 in E as E'. rewrite Rle_bool_true by (unfold cS in *; lra).
  assert (KI : 0 < 1 / cK <= 0.0774) by (unfold cK; lra).
  eapply ap_mul with (ex := 0.00000015) (Mx := 10 / 255); [split; [exact F|split; [exact E|rewrite Rabs_right; lra]]|apply ap_iK| | |].
  - rewrite Rabs_right by nra. nra.
  - lra.
  - smallish.
Qed.
Lemma low_back : forall (P : Pow f32) p n, (0 <= n <= 10)%Z ->
  quantizeSimd p (toSrgbLane p (toRgbLane (normOf n : f32))) = Ok n.
Proof.
  intros P p n N. pose proof (low_linear P n N) as (F & E & M). set (x := toRgbLane (normOf n : f32)) in *.
  unfold toSrgbLane. cbv zeta. rewrite sel_mask_f. destruct apC as (FC & EC & _). rewrite sle_fin by assumption.
  apply abs2 in EC. apply abs2 in E as E'. apply abs2 in M as M'. rewrite Rle_bool_true by (unfold cC in *; lra).
  assert (A : ap (x * srgbK)%sc (chan n * (1 / cK) * cK) 0.001 1).
  { eapply ap_mul'; [split; [exact F|split; [exact E|exact M]]|apply apK|lra|lra|smallish]. }
  replace (chan n * (1 / cK) * cK) with (chan n) in A by (unfold cK; field).
  destruct A as (FA & EA & _). apply quantize_near; [lia|exact FA|lra].
Qed.

(** the curved part *)
Lemma ln_near : forall x r, Rabs (x - 1) <= r -> r <= / 2 -> Rabs (ln x) <= 2 * r.
Proof.
  intros x r H R. apply abs2 in H. assert (0 < x) by lra.
  assert (U : forall z, 0 < z -> ln z <= z - 1).
  { intros z Z. pose proof (exp_ineq1_le (ln z)) as K. rewrite exp_ln in K by exact Z. lra. }
  apply Rabs_le. split.
  - pose proof (U (/ x) ltac:(apply Rinv_0_lt_compat; lra)) as K. rewrite ln_Rinv in K by lra.
    assert (/ x - 1 <= 2 * r). { apply (Rmult_le_reg_r x); [lra|]. rewrite Rmult_minus_distr_r, Rinv_l by lra. nra. } lra.
  - pose proof (U x ltac:(lra)). lra.
Qed.
Lemma ln_div : forall x y, 0 < x -> 0 < y -> ln (x / y) = ln x - ln y.
Proof. intros x y X Y. unfold Rdiv. rewrite ln_mult, ln_Rinv; [ring|exact Y|exact X|apply Rinv_0_lt_compat, Y]. Qed.
Lemma ln_small : forall x, 0.09 <= x <= 1.01 -> Rabs (ln x) <= 3.
Proof.
  intros x H. apply Rabs_le. split.
  - apply Rle_trans with (ln (exp (-3))); [rewrite ln_exp; lra|]. left. apply ln_increasing; [apply exp_pos|].
    pose proof (exp_ineq1_le (1/2)) as E. pose proof (exp_pos (1/2)).
    assert (exp (-3) * (exp (1/2) * exp (1/2) * exp (1/2) * exp (1/2) * exp (1/2) * exp (1/2)) = 1).
    { rewrite <- !exp_plus. replace (-3 + _) with 0 by lra. apply exp_0. }
    pose proof (exp_pos (-3)).
    assert (1.5 * 1.5 * 1.5 * 1.5 * 1.5 * 1.5 <= exp (1/2) * exp (1/2) * exp (1/2) * exp (1/2) * exp (1/2) * exp (1/2)) by (repeat (apply Rmult_le_compat; try lra)).
    nra.
  - apply Rle_trans with (ln (exp 3)); [|rewrite ln_exp; lra].
    left. apply ln_increasing; [lra|]. pose proof (exp_ineq1_le 3). lra.
Qed.
(** the argument of the power *)
Definition alpha (n : Z) : R := (chan n + cB) * (1 / cA).
Lemma alpha_range : forall n, (11 <= n <= 255)%Z -> 0.093 <= alpha n <= 1.001.
Proof. intros n [A B]. apply IZR_le in A, B. unfold alpha, chan, cB, cA. lra. Qed.
Lemma ap_alpha : forall n, (11 <= n <= 255)%Z -> ap ((normOf n + srgbB) * (f1 / srgbA) : f32)%sc (alpha n) 0.0000006 1.001.
Proof.
  intros n N. pose proof (ap_norm n ltac:(lia)) as Y. pose proof (alpha_range n N) as R.
  assert (A : ap (normOf n + srgbB : f32)%sc (chan n + cB) 0.00000022 1.056).
  { eapply ap_add'; [exact Y|apply apB|lra|lra|smallish]. }
  unfold alpha in *. eapply ap_mul; [exact A|apply ap_iA|rewrite Rabs_right; lra|lra|smallish].
Qed.
Definition hi (P : Pow f32) (n : Z) : f32 := spow ((normOf n + srgbB) * (f1 / srgbA))%sc srgbG.
Lemma toRgb_hi32 : forall (P : Pow f32) n, (11 <= n <= 255)%Z -> toRgbLane (normOf n : f32) = hi P n.
Proof.
  intros P n N. pose proof (ap_norm n ltac:(lia)) as (F & E & _). destruct N as [N1 N2]. apply IZR_le in N1 as M1, N2 as M2.
  unfold toRgbLane. cbv zeta. rewrite sel_mask_f. destruct apS as (FS & ES & _). rewrite sle_fin by assumption.
  apply abs2 in ES. apply abs2 in E. rewrite Rle_bool_false by (unfold chan, cS in *; lra). reflexivity.
Qed.
Lemma hi_value : forall d (P : Pow f32) n, accuratePow d P -> d <= / 4096 -> (11 <= n <= 255)%Z ->
  let a := val ((normOf n + srgbB) * (f1 / srgbA) : f32)%sc in
  fin (hi P n) /\ Rabs (val (hi P n) - exp (cG * ln a)) <= d * exp (cG * ln a) /\ Rabs (a - alpha n) <= 0.0000006 /\
  0.0033 < exp (cG * ln a) <= 1.01.
Proof.
  intros d P n HP Hd N a. destruct (ap_alpha n N) as (F & E & _). fold a in E. pose proof (alpha_range n N) as R. apply abs2 in E as E'.
  destruct apG as (FG & EG & _). assert (VG : val (srgbG : f32) = cG) by (apply abs2 in EG; lra).
  destruct (HP ((normOf n + srgbB) * (f1 / srgbA))%sc srgbG F FG) as [FH EH]; [fold a; lra|rewrite VG; unfold cG; lra|].
  fold a in EH. rewrite VG in EH. unfold Rpower in EH. split; [exact FH|]. split; [exact EH|]. split; [exact E|].
  assert (A0 : 0.09299 <= a <= 1.0011) by lra.
  assert (Q : powR 0.09299 cG <= exp (cG * ln a)).
  { rewrite GainProofs.pow_pos by lra. unfold Rpower. destruct (Req_dec a 0.09299) as [->|Z]; [lra|]. left. apply exp_increasing.
    apply Rmult_lt_compat_l; [cval|]. apply ln_increasing; lra. }
  assert (K : 0.0033 < powR 0.09299 cG) by (apply pow_G_lower; unfold cD, cG; lra).
  split; [lra|].
  assert (L : ln a <= 0.0022). { pose proof (ln_near 1.0011 0.0011 ltac:(apply Rabs_le; lra) ltac:(lra)) as Z. apply abs2 in Z.
    destruct (Req_dec a 1.0011) as [->|NZ]; [lra|]. assert (ln a < ln 1.0011) by (apply ln_increasing; lra). lra. }
  pose proof (exp_near (0.006) 0 0.006 ltac:(apply Rabs_le; lra) ltac:(lra)) as X. rewrite exp_0 in X. apply abs2 in X.
  assert (exp (cG * ln a) <= exp 0.006).
  { assert (cG * ln a <= 0.006) by (unfold cG; lra). destruct (Req_dec (cG * ln a) 0.006) as [->|NZ]; [lra|]. left. apply exp_increasing. lra. }
  lra.
Qed.
Lemma hi_back : forall (P : Pow f32) p n, accuratePow (/ 4096) P -> (11 <= n <= 255)%Z ->
  quantizeSimd p (toSrgbLane p (toRgbLane (normOf n : f32))) = Ok n.
Proof.
  intros P p n HP N. rewrite toRgb_hi32 by exact N. pose proof (hi_value (/ 4096) P n HP ltac:(lra) N) as H. cbv zeta in H.
  set (a := val ((normOf n + srgbB) * (f1 / srgbA) : f32)%sc) in *. destruct H as (F & E & EA & B).
  set (x := hi P n) in *. set (e := exp (cG * ln a)) in *. apply abs2 in EA. pose proof (alpha_range n N) as R.
  apply abs2 in E as E'.
  unfold toSrgbLane. cbv zeta. rewrite sel_mask_f. destruct apC as (FC & EC & _). rewrite sle_fin by assumption.
  apply abs2 in EC. rewrite Rle_bool_false by (unfold cC in *; lra).
  destruct ap_iG as (FG & EG & _). set (g := (f1 / srgbG : f32)%sc) in *. apply abs2 in EG. assert (G1 : 0.4166 <= val g <= 0.4167) by (unfold cG in *; lra).
  destruct (HP x g F FG) as [FH EH]; [lra|lra|].
  set (l := spow x g) in *.
  (* ln x = cG ln a + small *)
  assert (LX : Rabs (ln (val x) - cG * ln a) <= 2 * / 4096).
  { replace (cG * ln a) with (ln e) by (unfold e; apply ln_exp). rewrite <- ln_div by lra.
    apply ln_near; [|lra]. replace (val x / e - 1) with ((val x - e) * / e) by (field; lra).
    rewrite Rabs_mult. rewrite (Rabs_right (/ e)) by (left; apply Rinv_0_lt_compat; lra).
    apply (Rmult_le_reg_r e); [lra|]. rewrite Rmult_assoc, Rinv_l by lra. lra. }
  pose proof (ln_small a ltac:(lra)) as LA. apply abs2 in LA as LA'.
  assert (T : Rabs (val g * ln (val x) - ln a) <= 0.00021).
  { replace (val g * ln (val x) - ln a) with (val g * (ln (val x) - cG * ln a) + (val g - 1 / cG) * cG * ln a) by (unfold cG; field).
    eapply Rle_trans; [apply Rabs_triang|]. rewrite !Rabs_mult.
    rewrite (Rabs_right (val g)) by lra. rewrite (Rabs_right cG) by (unfold cG; lra).
    assert (Rabs (val g - 1 / cG) <= 0.00000003) by (apply Rabs_le; lra).
    assert (val g * Rabs (ln (val x) - cG * ln a) <= 0.4167 * (2 * / 4096)) by (apply Rmult_le_compat; try lra; apply Rabs_pos).
    assert (Rabs (val g - 1 / cG) * cG * Rabs (ln a) <= 0.00000003 * 2.41 * 3).
    { apply Rmult_le_compat; [|apply Rabs_pos| |exact LA]; [apply Rmult_le_pos; [apply Rabs_pos|unfold cG; lra]|].
      apply Rmult_le_compat; [apply Rabs_pos|unfold cG; lra|assumption|unfold cG; lra]. }
    lra. }
  pose proof (exp_near _ _ _ T ltac:(lra)) as X. rewrite exp_ln in X by lra.
  change (exp (val g * ln (val x))) with (Rpower (val x) (val g)) in X. set (r := Rpower (val x) (val g)) in *.
  apply abs2 in X. apply abs2 in EH as EH'.
  assert (AL : ap l (alpha n) 0.0006 1.001).
  { split; [exact FH|]. split; [apply Rabs_le; lra|rewrite Rabs_right; lra]. }
  assert (NB : ap (- srgbB : f32)%sc (- cB) 0 0.0551).
  { destruct apB as (FB & EB & MB). cbn [sneg ScalarF32]. unfold b32_opp. split; [rewrite is_finite_Bopp; exact FB|].
    rewrite B2R_Bopp. rewrite Rabs_Ropp. split; [|exact MB]. apply abs2 in EB. apply Rabs_le. lra. }
  assert (AR : ap (simdfma p l srgbA (- srgbB)%sc) (- cB + alpha n * cA) 0.0007 1.2).
  { eapply ap_fma'; [exact AL|apply apA|exact NB|apply Rle_refl|lra|lra|lra|apply Rle_refl|smallish]. }
  replace (- cB + alpha n * cA) with (chan n) in AR by (unfold alpha, cA, cB; field).
  destruct AR as (FR & ER & _). apply quantize_near; [lia|exact FR|lra].
Qed.
Lemma lane_back : forall (P : Pow f32) p n, accuratePow (/ 4096) P -> byte n ->
  quantizeSimd p (toSrgbLane p (toRgbLane (normOf n : f32))) = Ok n.
Proof.
  intros P p n HP N. unfold byte in N. destruct (Z_le_gt_dec n 10); [apply low_back; lia|apply hi_back; [exact HP|lia]].
Qed.
Lemma linear_roundtrip : forall (P : Pow f32) p c, accuratePow (/ 4096) P -> isColor c ->
  fromLinear p (toLinear c : vec4 f32) = Ok c.
Proof.
  intros P p [r g b a] HP (R & G & B & A). cbn [cr cg cb ca] in *.
  unfold fromLinear, toLinear, colorOfF32x4, rgbToSrgb, srgbToRgb, float4OfColor, withW, map_4. cbn [vx vy vz vw cr cg cb ca].
  rewrite !lane_back by assumption. cbn [bind]. rewrite quantizeSimd_norm by exact A. reflexivity.
Qed.

(** accuracy of the linear values *)
Lemma ln_nearer : forall x r, Rabs (x - 1) <= r -> r <= 0.005 -> Rabs (ln x) <= 1.01 * r.
Proof.
  intros x r H R. apply abs2 in H. assert (0 < x) by lra.
  assert (U : forall z, 0 < z -> ln z <= z - 1).
  { intros z Z. pose proof (exp_ineq1_le (ln z)) as K. rewrite exp_ln in K by exact Z. lra. }
  apply Rabs_le. split.
  - pose proof (U (/ x) ltac:(apply Rinv_0_lt_compat; lra)) as K. rewrite ln_Rinv in K by lra.
    assert (/ x - 1 <= 1.01 * r). { apply (Rmult_le_reg_r x); [lra|]. rewrite Rmult_minus_distr_r, Rinv_l by lra. nra. } lra.
  - pose proof (U x ltac:(lra)). lra.
Qed.
Lemma zero_lane : forall (P : Pow f32), toRgbLane (normOf 0 : f32) = normOf 0.
Proof. intros P. unfold toRgbLane. cbv zeta. rewrite sel_mask_f. replace (sle (normOf 0 : f32) srgbS) with true by (vm_compute; reflexivity). vm_compute. reflexivity. Qed.
Lemma lane_accurate : forall d (P : Pow f32) n, accuratePow d P -> d <= / 4096 -> byte n ->
  fin (toRgbLane (normOf n : f32)) /\
  Rabs (val (toRgbLane (normOf n : f32)) - stdLinear (chan n)) <= (d + / 16384) * stdLinear (chan n).
Proof.
  intros d P n HP Hd N. unfold byte in N.
  assert (D0 : 0 <= d).
  { destruct f1_fin as [F1 V1]. destruct (HP f1 f1 F1 F1) as [_ K]; rewrite ?V1; try lra. rewrite V1 in K.
    unfold Rpower in K. pose proof (exp_pos (1 * ln 1)). pose proof (Rabs_pos (val (spow (f1 : f32) f1) - exp (1 * ln 1))). nra. }
  destruct (Z.eq_dec n 0) as [->|NZ].
  { rewrite zero_lane. destruct (ap_norm 0 ltac:(lia)) as (F & _). split; [exact F|].
    assert (V : val (normOf 0 : f32) = 0).
    { replace (normOf 0 : f32) with (B754_zero 24 128 false : f32) by (vm_compute; reflexivity). reflexivity. }
    rewrite V. unfold stdLinear, chan. destruct (Rle_dec _ _) as [_|K]; [|exfalso; lra].
    replace (0 / 255 / 12.92) with 0 by lra. replace (0 - 0) with 0 by ring. rewrite Rabs_R0. lra. }
  destruct (Z_le_gt_dec n 10) as [L|L].
  - destruct (low_linear P n ltac:(lia)) as (F & E & _). split; [exact F|].
    assert (M1 : 1 <= IZR n) by (apply (IZR_le 1); lia). assert (M2 : IZR n <= 10) by (apply (IZR_le _ 10); lia).
    apply abs2 in E. unfold stdLinear, chan in *. destruct (Rle_dec _ _) as [_|K]; [|exfalso; lra].
    assert (1 / cK = / 12.92 * (1 + (12.92 / cK - 1))) by (unfold cK; lra). assert (Rabs (12.92 / cK - 1) <= 0.0000001) by (apply Rabs_le; unfold cK; lra).
    apply abs2 in H0. set (z := 12.92 / cK - 1) in *. rewrite H in E.
    apply Rabs_le. nra.
  - destruct (hi_value d P n HP Hd ltac:(lia)) as (F & E & EA & B). rewrite toRgb_hi32 by lia. split; [exact F|].
    set (a := val ((normOf n + srgbB) * (f1 / srgbA) : f32)%sc) in *.
    pose proof (alpha_range n ltac:(lia)) as R. apply abs2 in EA, E.
    assert (M1 : 11 <= IZR n) by (apply (IZR_le 11); lia). assert (M2 : IZR n <= 255) by (apply (IZR_le _ 255); lia).
    unfold stdLinear. destruct (Rle_dec _ _) as [K|_]; [exfalso; unfold chan in K; lra|].
    set (s := (chan n + 0.055) / 1.055). assert (S : 0.093 <= s <= 1.001) by (unfold s, chan; lra).
    assert (AS : Rabs (a - s) <= 0.0000007).
    { apply Rabs_le. assert (Rabs (alpha n - s) <= 0.0000001).
      { apply Rabs_le. unfold s, alpha, chan, cA, cB. lra. } apply abs2 in H. lra. }
    assert (LL : Rabs (ln a - ln s) <= 0.0000077).
    { rewrite <- ln_div by lra. eapply Rle_trans; [apply ln_nearer with (r := 0.0000076); [|lra]|lra].
      replace (a / s - 1) with ((a - s) * / s) by (field; lra). rewrite Rabs_mult, (Rabs_right (/ s)) by (left; apply Rinv_0_lt_compat; lra).
      apply (Rmult_le_reg_r s); [lra|]. rewrite Rmult_assoc, Rinv_l by lra. lra. }
    pose proof (ln_small s ltac:(lra)) as LS.
    assert (T : Rabs (cG * ln a - 2.4 * ln s) <= 0.00002).
    { replace (cG * ln a - 2.4 * ln s) with (cG * (ln a - ln s) + (cG - 2.4) * ln s) by ring.
      eapply Rle_trans; [apply Rabs_triang|]. rewrite !Rabs_mult.
      rewrite (Rabs_right cG) by (unfold cG; lra). rewrite (Rabs_right (cG - 2.4)) by (unfold cG; lra).
      assert (cG - 2.4 <= 0.0000001) by (unfold cG; lra). assert (0 <= cG - 2.4) by (unfold cG; lra).
      assert (cG * Rabs (ln a - ln s) <= 2.41 * 0.0000077) by (apply Rmult_le_compat; [unfold cG; lra|apply Rabs_pos|unfold cG; lra|exact LL]).
      assert ((cG - 2.4) * Rabs (ln s) <= 0.0000001 * 3) by (apply Rmult_le_compat; [assumption|apply Rabs_pos|assumption|exact LS]).
      lra. }
    pose proof (exp_near _ _ _ T ltac:(lra)) as X. change (exp (2.4 * ln s)) with (Rpower s 2.4) in X.
    set (e := exp (cG * ln a)) in *. set (q := Rpower s 2.4) in *. assert (Q : 0 < q) by apply exp_pos.
    apply abs2 in X. apply Rabs_le. nra.
Qed.
(** the power function built from the SIMD exponential and logarithm is accurate enough *)
Definition fastPower : Pow f32 := {| spow := fastPowLane SSE2 |}.
Lemma fastPower_accurate : accuratePow (/ 4096) fastPower.
Proof.
  intros b e Fb Fe Hb He. cbn [spow fastPower].
  assert (L : Rabs (ln (val b)) <= 10).
  { assert (E : 1024 <= exp 10).
    { pose proof (exp_ineq1_le 1). replace 10 with (1+1+1+1+1+1+1+1+1+1) by ring. rewrite !exp_plus.
      assert (2*2*2*2*2*2*2*2*2*2 <= exp 1*exp 1*exp 1*exp 1*exp 1*exp 1*exp 1*exp 1*exp 1*exp 1) by (repeat (apply Rmult_le_compat; try lra)). lra. }
    apply Rabs_le. split.
    - assert (I : / exp 10 <= / 1024) by (apply Rinv_le_contravar; lra).
      assert (J : 0 < / exp 10) by (apply Rinv_0_lt_compat, exp_pos).
      assert (K : ln (/ exp 10) <= ln (val b)).
      { destruct (Rle_lt_or_eq_dec (/ exp 10) (val b) ltac:(lra)) as [N|N]; [left; apply ln_increasing; lra|rewrite <- N; apply Rle_refl]. }
      rewrite ln_Rinv, ln_exp in K by apply exp_pos. lra.
    - assert (K : ln (val b) < ln (exp 10)) by (apply ln_increasing; lra). rewrite ln_exp in K. lra. }
  destruct (fastPow_pos SSE2 b e) as [A B]; try assumption; try discriminate; try lra.
  - rewrite Rabs_right by lra. lra.
  - rewrite Rabs_mult. rewrite (Rabs_right (val e)) by lra. pose proof (Rabs_pos (ln (val b))). nra.
  - split; [exact A|]. eapply Rle_trans; [exact B|]. apply Rmult_le_compat_r; [left; apply exp_pos|]. rewrite Rabs_right by lra. lra.
Qed.
Lemma linear_accurate : forall d (P : Pow f32) c, accuratePow d P -> (d <= / 4096)%R -> isColor c ->
  (near d (vx (toLinear c)) (stdLinear (IZR (cr c) / 255)) /\ near d (vy (toLinear c)) (stdLinear (IZR (cg c) / 255)) /\
   near d (vz (toLinear c)) (stdLinear (IZR (cb c) / 255)))%R /\
  vw (toLinear c) = (normOf (ca c) : f32).
Proof.
  intros d P [r g b a] HP Hd (R & G & B & A). cbn [cr cg cb ca] in *.
  unfold toLinear, srgbToRgb, float4OfColor, withW, map_4. cbn [vx vy vz vw cr cg cb ca]. unfold near.
  split; [|reflexivity]. split; [|split]; apply lane_accurate; assumption.
Qed.
