(** The sRGB transfer functions and the XYZ / Yxy conversions of color-space.hpp. *)
From Coq Require Import ZArith Bool List Reals Lra Lia Psatz.
From Flocq Require Import Core.Core.
From Verif.Model Require Import Outcome Scalar Vec Simd Matrix Numeric.
From Verif.Spec Require Import GeomSpec NumericSpec.
From Verif.Proofs Require Import RealLits Frustum Euclid TransformProofs GainProofs.
Local Open Scope R_scope.

Definition cC : R := 3361671 / 1073741824.
Definition cK : R := 6773801 / 524288.
Definition cA : R := 8849981 / 8388608.
Definition cB : R := 7381975 / 134217728.
Definition cG : R := 5033165 / 2097152.
Definition cS : R := 5429107 / 134217728.
Ltac cval := unfold cC, cK, cA, cB, cG, cS in *; lra.
Lemma srgb_consts : (srgbC : R) = cC /\ (srgbK : R) = cK /\ (srgbA : R) = cA /\ (srgbB : R) = cB /\ (srgbG : R) = cG /\ (srgbS : R) = cS.
Proof.
  unfold srgbC, srgbK, srgbA, srgbB, srgbG, srgbS. cbn [slit ScalarR]. rewrite !Rlit_neg. repeat split; reflexivity.
Qed.

(** the curved parts *)
Definition up (x : R) : R := powR x (1 / cG) * cA - cB.
Definition dn (y : R) : R := powR ((y + cB) * (1 / cA)) cG.
Lemma toSrgbR : forall p x, toSrgbLane p x = if Rle_bool x cC then x * cK else up x.
Proof.
  intros p x. destruct srgb_consts as (EC & EK & EA & EB & EG & ES). unfold toSrgbLane, up, sel, maskOf.
  rewrite EC, EK, EA, EB, EG, f1R. rewrite simdfmaR. cbn [sle smul sneg sdiv spow ScalarR PowR].
  destruct (Rle_bool x cC); cbn; [reflexivity|]. ring.
Qed.
Lemma toRgbR : forall y, toRgbLane y = if Rle_bool y cS then y * (1 / cK) else dn y.
Proof.
  intros y. destruct srgb_consts as (EC & EK & EA & EB & EG & ES). unfold toRgbLane, dn, sel, maskOf.
  rewrite EK, EA, EB, EG, ES, f1R. cbn [sle smul sadd sdiv spow ScalarR PowR].
  destruct (Rle_bool y cS); cbn; reflexivity.
Qed.
Lemma toSrgb_lo : forall p x, x <= cC -> toSrgbLane p x = x * cK.
Proof. intros p x H. rewrite toSrgbR. destruct (Rle_bool_spec x cC); [reflexivity|lra]. Qed.
Lemma toSrgb_hi : forall p x, cC < x -> toSrgbLane p x = up x.
Proof. intros p x H. rewrite toSrgbR. destruct (Rle_bool_spec x cC); [lra|reflexivity]. Qed.
Lemma toRgb_lo : forall y, y <= cS -> toRgbLane y = y * (1 / cK).
Proof. intros x H. rewrite toRgbR. destruct (Rle_bool_spec x cS); [reflexivity|lra]. Qed.
Lemma toRgb_hi : forall y, cS < y -> toRgbLane y = dn y.
Proof. intros x H. rewrite toRgbR. destruct (Rle_bool_spec x cS); [lra|reflexivity]. Qed.

Lemma cG_pos : 0 < cG. Proof. cval. Qed.
Lemma cA_pos : 0 < cA. Proof. cval. Qed.
Lemma cK_pos : 0 < cK. Proof. cval. Qed.
Lemma iG_pos : 0 < 1 / cG.
Proof. pose proof cG_pos. unfold Rdiv. rewrite Rmult_1_l. apply Rinv_0_lt_compat. assumption. Qed.
Lemma dn_up : forall x, 0 <= x -> dn (up x) = x.
Proof.
  intros x H. unfold dn, up. pose proof cA_pos.
  replace ((powR x (1 / cG) * cA - cB + cB) * (1 / cA)) with (powR x (1 / cG)) by (field; lra).
  apply pow_inv'; [exact H|apply cG_pos].
Qed.
Lemma up_dn : forall y, 0 <= y + cB -> up (dn y) = y.
Proof.
  intros y H. unfold dn, up. pose proof cA_pos. assert (0 < / cA) by (apply Rinv_0_lt_compat; assumption).
  rewrite pow_inv; [field; lra| |apply cG_pos]. apply Rmult_le_pos; [exact H|]. unfold Rdiv. lra.
Qed.
Lemma up_lt : forall x y, 0 <= x < y -> up x < up y.
Proof.
  intros x y H. unfold up. pose proof (pow_lt x y (1 / cG) H iG_pos). pose proof cA_pos.
  assert (powR x (1 / cG) * cA < powR y (1 / cG) * cA) by (apply Rmult_lt_compat_r; assumption). lra.
Qed.
Lemma dn_lt : forall x y, 0 <= x + cB -> x < y -> dn x < dn y.
Proof.
  intros x y H0 H. unfold dn. apply pow_lt; [|apply cG_pos]. pose proof cA_pos.
  assert (0 < / cA) by (apply Rinv_0_lt_compat; assumption). unfold Rdiv. rewrite Rmult_1_l. split.
  - apply Rmult_le_pos; lra.
  - apply Rmult_lt_compat_r; lra.
Qed.

(** bounding q^G by comparing q^12 with fifth powers *)
Lemma fifth_lt : forall a b, 0 <= b -> a ^ 5 < b ^ 5 -> a < b.
Proof.
  intros a b Hb H. destruct (Rlt_dec a b) as [L|N]; [exact L|]. exfalso.
  assert (b ^ 5 <= a ^ 5) by (apply pow_incr; lra). lra.
Qed.
Lemma pow_12_5 : forall q, 0 < q -> powR q (12 / 5) ^ 5 = q ^ 12.
Proof.
  intros q H. rewrite <- (pow_nat (powR q (12 / 5)) 5) by (apply pow_gt0, H). rewrite pow_pow; [|lra|lra|cbn; lra].
  rewrite <- (pow_nat q 12) by exact H. f_equal. cbn. lra.
Qed.
Lemma pow_G_upper : forall q X, 0 < q <= 1 -> 0 <= X -> q ^ 12 < X ^ 5 -> powR q cG < X.
Proof.
  intros q X Hq HX H. apply Rle_lt_trans with (powR q (12 / 5)).
  - rewrite !pow_pos by lra. unfold Rpower. assert (L : ln q <= 0).
    { rewrite <- ln_1. destruct (Req_dec q 1) as [-> |]; [lra|]. apply Rlt_le, ln_increasing; lra. }
    assert (E : cG * ln q <= 12 / 5 * ln q) by (assert (12 / 5 <= cG) by cval; nra).
    destruct (Rle_lt_or_eq_dec _ _ E) as [L1| ->]; [apply Rlt_le, exp_increasing, L1|lra].
  - apply fifth_lt; [exact HX|]. rewrite pow_12_5 by lra. exact H.
Qed.
Lemma ln2_lt1 : ln 2 < 1.
Proof.
  rewrite <- (ln_exp 1). apply ln_increasing; [lra|]. pose proof (exp_ineq1 1 ltac:(lra)). lra.
Qed.
Definition cD : R := cG - 12 / 5.
Lemma pow_G_lower : forall q X, / 16 <= q -> q < 1 -> 0 < X -> X ^ 5 < q ^ 12 * (1 - 4 * cD) ^ 5 -> X < powR q cG.
Proof.
  intros q X Hq Hq1 HX H. replace cG with (12 / 5 + cD) by (unfold cD; ring). rewrite pow_add by lra.
  assert (D : 0 < cD < / 1000) by (unfold cD; cval).
  assert (E : 1 - 4 * cD <= powR q cD).
  { rewrite pow_pos by lra. unfold Rpower.
    assert (L : -4 <= ln q).
    { apply Rle_trans with (ln (/ 16)).
      - rewrite ln_Rinv by lra. replace 16 with (2 * (2 * (2 * 2))) by ring. rewrite !ln_mult by lra.
        pose proof ln2_lt1. lra.
      - destruct Hq as [L|E]; [apply Rlt_le, ln_increasing; lra|rewrite E; lra]. }
    destruct (Req_dec (cD * ln q) 0) as [Z|N].
    - rewrite Z, exp_0. lra.
    - pose proof (exp_ineq1 _ N). nra. }
  apply Rlt_le_trans with (powR q (12 / 5) * (1 - 4 * cD)).
  - apply fifth_lt.
    + apply Rmult_le_pos; [apply Rlt_le, pow_gt0; lra|lra].
    + rewrite Rpow_mult_distr, pow_12_5 by lra. exact H.
  - apply Rmult_le_compat_l; [apply Rlt_le, pow_gt0; lra|exact E].
Qed.
(** seam values *)
Definition qS : R := (cS + cB) * (1 / cA).
Definition qC : R := (cK * cC + cB) * (1 / cA).
Ltac cnum := unfold qS, qC, cD, cC, cK, cA, cB, cG, cS; field_simplify; lra.
Lemma dnS_upper : dn cS < 3131 / 1000000.
Proof. unfold dn. fold qS. apply pow_G_upper; [split| |]; try lra; unfold qS, cA, cB, cS; lra. Qed.
Lemma dnS_lower : cC < dn cS /\ cS * (1 / cK) < dn cS.
Proof. unfold dn. fold qS. split; apply pow_G_lower; unfold qS, cD, cG, cC, cK, cA, cB, cS; lra. Qed.
Lemma dnKC_lower : cC + / 10 ^ 10 < dn (cK * cC).
Proof. unfold dn. fold qC. apply pow_G_lower; unfold qC, cD, cG, cC, cK, cA, cB; lra. Qed.
Lemma upC_lower : 4044 / 100000 < up cC.
Proof.
  assert (H : dn (4044 / 100000) < cC).
  { unfold dn. apply pow_G_upper; [split| |]; unfold cC, cA, cB; lra. }
  destruct (Rlt_dec (4044 / 100000) (up cC)) as [L|N]; [exact L|exfalso].
  assert (E : dn (up cC) = cC) by (apply dn_up; cval).
  destruct (Req_dec (up cC) (4044 / 100000)) as [Q|Q]; [rewrite Q in E; lra|].
  assert (0 <= up cC + cB).
  { unfold up. pose proof (pow_gt0 cC (1 / cG) ltac:(cval)). pose proof cA_pos. nra. }
  pose proof (dn_lt (up cC) (4044 / 100000) ltac:(assumption) ltac:(lra)). lra.
Qed.
Lemma KC_lt_S : cK * cC < cS.
Proof. cval. Qed.
Lemma dn_back : forall x y, 0 <= x -> 0 <= y + cB -> dn y < x -> y < up x.
Proof.
  intros x y Hx Hy H. destruct (Rlt_dec y (up x)) as [L|N]; [exact L|exfalso].
  assert (E : dn (up x) = x) by (apply dn_up, Hx).
  destruct (Req_dec (up x) y) as [Q|Q]; [rewrite Q in E; lra|].
  assert (0 <= up x + cB).
  { unfold up. pose proof (pow_ge0 x (1 / cG) Hx ltac:(pose proof iG_pos; lra)). pose proof cA_pos. nra. }
  pose proof (dn_lt (up x) y ltac:(assumption) ltac:(lra)). lra.
Qed.

(** ** round trips *)
Lemma srgb_roundtrip : forall p x, x <= cC \/ 3131 / 1000000 <= x -> toRgbLane (toSrgbLane p x) = x.
Proof.
  intros p x [H|H].
  - rewrite toSrgb_lo by exact H. rewrite toRgb_lo; [field; cval|]. pose proof KC_lt_S. pose proof cK_pos. nra.
  - assert (cC < x) by (cval). rewrite toSrgb_hi by assumption. rewrite toRgb_hi; [apply dn_up; lra|].
    apply dn_back; [lra|cval|]. pose proof dnS_upper. lra.
Qed.
Lemma srgb_roundtrip_seam : forall p x, cC < x -> x < 3131 / 1000000 ->
  Rabs (toRgbLane (toSrgbLane p x) - x) <= 1 / 1000000.
Proof.
  intros p x H1 H2. assert (C0 : 0 < cC) by cval. rewrite toSrgb_hi by assumption.
  destruct (Rle_dec (up x) cS) as [L|G].
  - rewrite toRgb_lo by exact L.
    assert (U : 4044 / 100000 < up x) by (pose proof upC_lower; pose proof (up_lt cC x ltac:(lra)); lra).
    assert (IK : 0 < 1 / cK) by (unfold cK; lra).
    assert (A1 : 4044 / 100000 * (1 / cK) <= up x * (1 / cK)) by (apply Rmult_le_compat_r; lra).
    assert (A2 : up x * (1 / cK) <= cS * (1 / cK)) by (apply Rmult_le_compat_r; lra).
    assert (B1 : 31300 / 10000000 <= 4044 / 100000 * (1 / cK)) by (unfold cK; lra).
    assert (B2 : cS * (1 / cK) <= 31309 / 10000000) by (unfold cK, cS; lra).
    assert (31308 / 10000000 < cC) by cval.
    apply Rabs_le. lra.
  - rewrite toRgb_hi by lra. rewrite dn_up by lra. replace (x - x) with 0 by ring. rewrite Rabs_R0. lra.
Qed.
Lemma rgb_roundtrip : forall p y, y <= cK * cC \/ cS < y -> toSrgbLane p (toRgbLane y) = y.
Proof.
  intros p y [H|H]; pose proof cK_pos.
  - pose proof KC_lt_S. rewrite toRgb_lo by lra. rewrite toSrgb_lo; [field; lra|].
    apply Rmult_le_reg_r with cK; [lra|]. replace (y * (1 / cK) * cK) with y by (field; lra). lra.
  - rewrite toRgb_hi by exact H. assert (0 <= cS + cB) by cval.
    rewrite toSrgb_hi; [apply up_dn; lra|]. pose proof (dn_lt cS y ltac:(assumption) H). pose proof dnS_lower. lra.
Qed.

(** ** monotonicity *)
Lemma toRgb_mono : forall y y', y <= y' -> toRgbLane y <= toRgbLane y'.
Proof.
  intros y y' H. assert (IK : 0 < 1 / cK) by (unfold cK; lra). assert (0 <= cS + cB) by cval.
  destruct (Rle_dec y cS) as [L|G]; destruct (Rle_dec y' cS) as [L'|G']; try lra.
  - rewrite !toRgb_lo by assumption. apply Rmult_le_compat_r; lra.
  - rewrite (toRgb_lo y) by assumption. rewrite toRgb_hi by lra. pose proof (dn_lt cS y' ltac:(assumption) ltac:(lra)).
    pose proof dnS_lower. assert (y * (1 / cK) <= cS * (1 / cK)) by (apply Rmult_le_compat_r; lra). lra.
  - rewrite !toRgb_hi by lra. destruct H as [H|H]; [apply Rlt_le, dn_lt; lra|rewrite H; lra].
Qed.
Lemma toSrgb_mono : forall p x x', x <= x' -> x' <= cC \/ cC < x \/ 3131 / 1000000 <= x' ->
  toSrgbLane p x <= toSrgbLane p x'.
Proof.
  intros p x x' H K. pose proof cK_pos. assert (C0 : 0 < cC < 3131 / 1000000) by cval.
  destruct (Rle_dec x' cC) as [L'|G'].
  - rewrite !toSrgb_lo by lra. apply Rmult_le_compat_r; lra.
  - destruct (Rle_dec x cC) as [L|G].
    + rewrite toSrgb_lo by exact L. rewrite toSrgb_hi by lra. assert (X : 3131 / 1000000 <= x') by lra.
      assert (cS < up x').
      { apply dn_back; [lra|cval|]. pose proof dnS_upper. lra. }
      pose proof KC_lt_S. nra.
    + rewrite !toSrgb_hi by lra. destruct H as [H|H]; [apply Rlt_le, up_lt; lra|rewrite H; lra].
Qed.
Lemma toSrgb_not_mono : exists x y, unit x /\ unit y /\ x < y /\ forall p, toSrgbLane p y < toSrgbLane p x.
Proof.
  exists cC, (cC + / 10 ^ 10). assert (E : 0 < / 10 ^ 10 < / 1000) by lra. unfold unit.
  split; [cval|]. split; [cval|]. split; [lra|]. intros p. assert (C0 : 0 < cC) by cval.
  rewrite (toSrgb_lo p cC) by lra. rewrite (toSrgb_hi p (cC + _)) by lra.
  pose proof dnKC_lower as H.
  assert (K : up (cC + / 10 ^ 10) < up (dn (cK * cC))) by (apply up_lt; lra).
  rewrite up_dn in K by cval. lra.
Qed.
(** [0,1] is mapped into [0,1] *)
Lemma AB_one : cA - cB = 134217721 / 134217728.
Proof. cval. Qed.
Lemma srgb_range : forall p x, unit x -> unit (toSrgbLane p x).
Proof.
  unfold unit. intros p x H. assert (C0 : 0 < cC < 1) by cval.
  destruct (Rle_dec x cC) as [L|G].
  - rewrite toSrgb_lo by exact L. pose proof cK_pos. pose proof KC_lt_S. assert (cS < 1) by cval. nra.
  - rewrite toSrgb_hi by lra. pose proof upC_lower. pose proof (up_lt cC x ltac:(lra)).
    assert (U1 : up 1 = cA - cB) by (unfold up; rewrite pow_1; ring). pose proof AB_one.
    destruct (Req_dec x 1) as [-> |N]; [lra|]. pose proof (up_lt x 1 ltac:(lra)). lra.
Qed.

(** ** the four-lane functions *)
Lemma srgb_lanes : forall (F : Type) (S : Scalar F) (P : Pow F) p (v : vec4 F),
  rgbToSrgb p v = V4 (toSrgbLane p (vx v)) (toSrgbLane p (vy v)) (toSrgbLane p (vz v)) (vw v) /\
  srgbToRgb v = V4 (toRgbLane (vx v)) (toRgbLane (vy v)) (toRgbLane (vz v)) (vw v).
Proof. intros F S P p [x y z w]. split; reflexivity. Qed.
Lemma srgb_vec_roundtrip : forall p (v : vec4 R), awayFromSeam (vx v) -> awayFromSeam (vy v) -> awayFromSeam (vz v) ->
  srgbToRgb (rgbToSrgb p v) = v.
Proof.
  intros p [x y z w] Hx Hy Hz. cbn [vx vy vz] in *. rewrite (proj2 (srgb_lanes _ _ _ p _)), (proj1 (srgb_lanes _ _ _ p _)).
  cbn [vx vy vz vw]. rewrite !srgb_roundtrip; [reflexivity|assumption..].
Qed.
(** white: with any power function fixing 1, white becomes the largest float below 1 *)
Lemma white_not_white : forall (P : Pow f32), (forall y : f32, spow f1 y = (f1 : f32)) -> forall p,
  slt (toSrgbLane p (f1 : f32)) f1 = true /\ seq (toSrgbLane p (f1 : f32)) (slit 16777215 (-24)) = true.
Proof.
  intros P H p. unfold toSrgbLane. rewrite H. destruct p; vm_compute; split; reflexivity.
Qed.

(** ** XYZ and Yxy *)
Lemma yxy_roundtrip : forall p (c : vec4 R), vx c + vy c + vz c <> 0 -> vy c <> 0 ->
  eq3 (yxyToXyz (xyzToYxy p c)) c.
Proof.
  intros p [x y z w] H Hy. cbn [vx vy vz] in *. unfold yxyToXyz, xyzToYxy.
  rewrite dot3R. unfold eq3. rewrite f1R. cbn. rewrite ?f1R. repeat split; field; repeat split; lra.
Qed.
Lemma yxy_roundtrip' : forall p (c : vec4 R), vx c <> 0 -> vz c <> 0 -> eq3 (xyzToYxy p (yxyToXyz c)) c.
Proof.
  intros p [x y z w] H Hz. cbn [vx vy vz] in *. unfold yxyToXyz, xyzToYxy.
  rewrite dot3R. unfold eq3. rewrite f1R. cbn. rewrite ?f1R.
  assert (E : x * y / z * 1 + x * 1 + x * (1 - y - z) / z * 1 = x / z) by (field; lra). rewrite E.
  repeat split; field; repeat split; lra.
Qed.
(** the exact entries of the two matrices, by columns *)
Lemma rgbToXyzR : forall p (c : vec4 R), eq3 (rgbToXyz p c)
  (V4 (3459935 / 8388608 * vx c + 11998263 / 33554432 * vy c + 3027239 / 16777216 * vz c)
      (14272237 / 67108864 * vx c + 11998263 / 16777216 * vy c + 9687165 / 134217728 * vz c)
      (10379809 / 536870912 * vx c + 15997679 / 134217728 * vy c + 15943457 / 16777216 * vz c) 0).
Proof.
  intros p c. unfold rgbToXyz. cbn [slit ScalarR]. rewrite !Rlit_neg.
  match goal with |- eq3 (multiply3x3v _ ?m _) _ => destruct (multiply3x3vR p m c) as (E1 & E2 & E3) end.
  unfold eq3. rewrite E1, E2, E3. cbn. repeat split; lra.
Qed.
Lemma xyzToRgbR : forall p (c : vec4 R), eq3 (xyzToRgb p c)
  (V4 (6795725 / 2097152 * vx c - 3223613 / 2097152 * vy c - 8363969 / 16777216 * vz c)
      (- 16261585 / 16777216 * vx c + 15737119 / 8388608 * vy c + 348597 / 8388608 * vz c)
      (14936661 / 268435456 * vx c - 6845973 / 33554432 * vy c + 1108581 / 1048576 * vz c) 0).
Proof.
  intros p c. unfold xyzToRgb. cbn [slit ScalarR]. rewrite !Rlit_neg.
  match goal with |- eq3 (multiply3x3v _ ?m _) _ => destruct (multiply3x3vR p m c) as (E1 & E2 & E3) end.
  unfold eq3. rewrite E1, E2, E3. cbn. repeat split; lra.
Qed.
Lemma lin3 : forall a b c x y z t, Rabs a <= t -> Rabs b <= t -> Rabs c <= t ->
  Rabs (a * x + b * y + c * z) <= t * (Rabs x + Rabs y + Rabs z).
Proof.
  intros a b c x y z t Ha Hb Hc. eapply Rle_trans; [apply Rabs_triang|]. rewrite !Rmult_plus_distr_l.
  apply Rplus_le_compat; [eapply Rle_trans; [apply Rabs_triang|apply Rplus_le_compat]|];
  rewrite Rabs_mult; apply Rmult_le_compat_r; try apply Rabs_pos; assumption.
Qed.
Lemma xyz_rgb_near : forall p (c : vec4 R),
  near3 (21 / 100000000 * abs1 c) (xyzToRgb p (rgbToXyz p c)) c /\
  near3 (21 / 100000000 * abs1 c) (rgbToXyz p (xyzToRgb p c)) c.
Proof.
  intros p c. destruct (rgbToXyzR p c) as (A1 & A2 & A3). destruct (xyzToRgbR p c) as (B1 & B2 & B3).
  destruct (rgbToXyzR p (xyzToRgb p c)) as (C1 & C2 & C3). destruct (xyzToRgbR p (rgbToXyz p c)) as (D1 & D2 & D3).
  cbn [vx vy vz] in *. rewrite A1, A2, A3 in D1, D2, D3. rewrite B1, B2, B3 in C1, C2, C3.
  unfold near3, abs1. rewrite C1, C2, C3, D1, D2, D3. clear. destruct c as [x y z w]. cbn [vx vy vz].
  split; (split; [|split]).
  - match goal with |- Rabs ?e <= _ => replace e with ((-1864036897 / 9007199254740992) * x + (153803633 / 2251799813685248) * y + (9449111 / 140737488355328) * z) by lra end;
    apply lin3; apply Rabs_le; lra.
  - match goal with |- Rabs ?e <= _ => replace e with ((639696397 / 4503599627370496) * x + (29804405 / 1125899906842624) * y + (-18638993 / 1125899906842624) * z) by lra end;
    apply lin3; apply Rabs_le; lra.
  - match goal with |- Rabs ?e <= _ => replace e with ((-18405225 / 1125899906842624) * x + (-294754605 / 9007199254740992) * y + (101229145 / 2251799813685248) * z) by lra end;
    apply lin3; apply Rabs_le; lra.
  - match goal with |- Rabs ?e <= _ => replace e with ((-678540357 / 4503599627370496) * x + (62545087 / 562949953421312) * y + (14528725 / 281474976710656) * z) by lra end;
    apply lin3; apply Rabs_le; lra.
  - match goal with |- Rabs ?e <= _ => replace e with ((5508845825 / 36028797018963968) * x + (-132862529 / 4503599627370496) * y + (-23429645 / 1125899906842624) * z) by lra end;
    apply lin3; apply Rabs_le; lra.
  - match goal with |- Rabs ?e <= _ => replace e with ((88720747 / 4503599627370496) * x + (-30690219 / 562949953421312) * y + (402120695 / 9007199254740992) * z) by lra end;
    apply lin3; apply Rabs_le; lra.
Qed.
Lemma srgb_meaning : forall p x, (x <= 3361671 / 1073741824 -> toSrgbLane p x = x * (6773801 / 524288)) /\
  (3361671 / 1073741824 < x ->
     toSrgbLane p x = Rpower x (1 / (5033165 / 2097152)) * (8849981 / 8388608) - 7381975 / 134217728).
Proof.
  intros p x. split; intro H; [apply toSrgb_lo, H|]. rewrite toSrgb_hi by exact H. unfold up.
  rewrite pow_pos by lra. reflexivity.
Qed.
Lemma white_back : forall (P : Pow f32), (forall y : f32, spow f1 y = (f1 : f32)) ->
  seq (toRgbLane (f1 : f32)) f1 = true.
Proof.
  intros P H. unfold toRgbLane.
  assert (E : ((f1 + srgbB) * (f1 / srgbA) : f32)%sc = f1).
  { apply Binary.B2FF_inj. vm_compute. reflexivity. }
  rewrite E, H. vm_compute. reflexivity.
Qed.
Lemma black_black : forall (P : Pow f32) p,
  seq (toSrgbLane p (f0 : f32)) f0 = true /\ seq (toRgbLane (f0 : f32)) f0 = true.
Proof.
  intros P p. unfold toSrgbLane, toRgbLane, sel, maskOf.
  assert (E1 : sle (f0 : f32) srgbC = true) by (vm_compute; reflexivity). rewrite E1.
  assert (E2 : sle (f0 : f32) srgbS = true) by (vm_compute; reflexivity). rewrite E2.
  split; vm_compute; reflexivity.
Qed.
Lemma luminance : forall p (c : vec4 R), Rabs (vy (rgbToXyz p c) -
  (2126 / 10000 * vx c + 7152 / 10000 * vy c + 722 / 10000 * vz c)) <= / 10000 * abs1 c.
Proof.
  intros p c. destruct (rgbToXyzR p c) as (_ & E & _). rewrite E. cbn [vy]. unfold abs1.
  match goal with |- Rabs ?e <= _ => replace e with ((14272237 / 67108864 - 2126 / 10000) * vx c +
    (11998263 / 16777216 - 7152 / 10000) * vy c + (9687165 / 134217728 - 722 / 10000) * vz c) by lra end.
  apply lin3; apply Rabs_le; lra.
Qed.
