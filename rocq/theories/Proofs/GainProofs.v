(** Real powers, gain, lerpDelta, angles, ggx and reflectance. *)
From Coq Require Import ZArith Bool List Reals Lra Lia Psatz.
From Flocq Require Import Core.Core.
From Verif.Model Require Import Outcome Scalar Vec Simd Numeric.
From Verif.Spec Require Import NumericSpec.
From Verif.Proofs Require Import RealLits Frustum.
Local Open Scope R_scope.

(** ** literals *)
Lemma Rlit_neg : forall m p, Rlit m (Zneg p) = IZR m / IZR (2 ^ Zpos p).
Proof.
  intros m p. unfold Rlit, powerRZ. rewrite pow_IZR. rewrite positive_nat_Z. reflexivity.
Qed.
Lemma Rlit_0 : forall m, Rlit m 0 = IZR m.
Proof. intros m. unfold Rlit. cbn [powerRZ]. ring. Qed.

(** ** powR *)
Lemma pow_pos : forall x y, 0 < x -> powR x y = Rpower x y.
Proof. intros x y H. unfold powR. destruct (Req_EM_T x 0); [lra|reflexivity]. Qed.
Lemma pow_0 : forall y, y <> 0 -> powR 0 y = 0.
Proof. intros y H. unfold powR. destruct (Req_EM_T 0 0); [|lra]. destruct (Req_EM_T y 0); [lra|reflexivity]. Qed.
Lemma pow_1 : forall y, powR 1 y = 1.
Proof. intros y. rewrite pow_pos by lra. unfold Rpower. rewrite ln_1, Rmult_0_r. apply exp_0. Qed.
Lemma pow_gt0 : forall x y, 0 < x -> 0 < powR x y.
Proof. intros x y H. rewrite pow_pos by exact H. apply exp_pos. Qed.
Lemma pow_ge0 : forall x y, 0 <= x -> y <> 0 -> 0 <= powR x y.
Proof.
  intros x y H Hy. destruct (Rle_lt_or_eq_dec 0 x H) as [L|E]; [apply Rlt_le, pow_gt0, L|].
  rewrite <- E, pow_0 by exact Hy. lra.
Qed.
Lemma pow_lt : forall x x' k, 0 <= x < x' -> 0 < k -> powR x k < powR x' k.
Proof.
  intros x x' k [H0 H] Hk. destruct (Rle_lt_or_eq_dec 0 x H0) as [L|E].
  - rewrite !pow_pos by lra. unfold Rpower. apply exp_increasing. apply Rmult_lt_compat_l; [exact Hk|]. apply ln_increasing; lra.
  - rewrite <- E, pow_0 by lra. apply pow_gt0. lra.
Qed.
Lemma pow_le : forall x x' k, 0 <= x <= x' -> 0 < k -> powR x k <= powR x' k.
Proof.
  intros x x' k [H0 H] Hk. destruct (Rle_lt_or_eq_dec x x' H) as [L|E]; [apply Rlt_le, pow_lt; lra|]. rewrite E. lra.
Qed.
Lemma pow_pow : forall x j k, 0 <= x -> j <> 0 -> k <> 0 -> powR (powR x j) k = powR x (j * k).
Proof.
  intros x j k H Hj Hk. destruct (Rle_lt_or_eq_dec 0 x H) as [L|E].
  - rewrite (pow_pos (powR x j)) by (apply pow_gt0, L). rewrite !pow_pos by exact L. apply Rpower_mult.
  - rewrite <- E. rewrite !pow_0; try assumption; [reflexivity|]. apply Rmult_integral_contrapositive_currified; assumption.
Qed.
Lemma pow_id : forall x, 0 <= x -> powR x 1 = x.
Proof.
  intros x H. destruct (Rle_lt_or_eq_dec 0 x H) as [L|E].
  - rewrite pow_pos by exact L. apply Rpower_1, L.
  - rewrite <- E. apply pow_0. lra.
Qed.
Lemma pow_inv : forall x k, 0 <= x -> 0 < k -> powR (powR x k) (1 / k) = x.
Proof.
  intros x k H Hk. assert (0 < / k) by (apply Rinv_0_lt_compat, Hk).
  rewrite pow_pow; [|exact H|lra|unfold Rdiv; lra].
  replace (k * (1 / k)) with 1 by (field; lra). apply pow_id, H.
Qed.
Lemma pow_inv' : forall x k, 0 <= x -> 0 < k -> powR (powR x (1 / k)) k = x.
Proof.
  intros x k H Hk. assert (0 < / k) by (apply Rinv_0_lt_compat, Hk).
  rewrite pow_pow; [|exact H|unfold Rdiv; lra|lra].
  replace (1 / k * k) with 1 by (field; lra). apply pow_id, H.
Qed.
Lemma pow_add : forall x j k, 0 < x -> powR x (j + k) = powR x j * powR x k.
Proof. intros x j k H. rewrite !pow_pos by exact H. apply Rpower_plus. Qed.
Lemma pow_nat : forall x n, 0 < x -> powR x (INR n) = x ^ n.
Proof. intros x n H. rewrite pow_pos by exact H. apply Rpower_pow, H. Qed.

(** ** gain *)
Lemma gain_eq : forall x k : R, gainLane x k = gainS x k.
Proof.
  intros x k. unfold gainLane, gainS, sel, maskOf. rewrite fhalfR, f2R, f1R. cbn [slt ScalarR].
  destruct (Rlt_bool_spec x (/ 2)); cbn; reflexivity.
Qed.
Lemma gain_low : forall x k, x < / 2 -> gainS x k = / 2 * powR (2 * x) k.
Proof.
  intros x k H. unfold gainS. rewrite fhalfR, f2R, f1R. cbn [slt ScalarR]. destruct (Rlt_bool_spec x (/ 2)); [reflexivity|lra].
Qed.
Lemma gain_high : forall x k, / 2 <= x -> gainS x k = 1 - / 2 * powR (2 * (1 - x)) k.
Proof.
  intros x k H. unfold gainS. rewrite fhalfR, f2R, f1R. cbn [slt ScalarR]. destruct (Rlt_bool_spec x (/ 2)); [lra|reflexivity].
Qed.
Lemma gain_low_range : forall x k, 0 <= x < / 2 -> 0 < k -> 0 <= gainS x k < / 2.
Proof.
  intros x k [H0 H] Hk. rewrite gain_low by exact H.
  pose proof (pow_lt (2 * x) 1 k ltac:(lra) Hk) as L. rewrite pow_1 in L.
  pose proof (pow_ge0 (2 * x) k ltac:(lra) ltac:(lra)). lra.
Qed.
Lemma gain_high_range : forall x k, / 2 <= x <= 1 -> 0 < k -> / 2 <= gainS x k <= 1.
Proof.
  intros x k [H0 H] Hk. rewrite gain_high by exact H0.
  pose proof (pow_le (2 * (1 - x)) 1 k ltac:(lra) Hk) as L. rewrite pow_1 in L.
  pose proof (pow_ge0 (2 * (1 - x)) k ltac:(lra) ltac:(lra)). lra.
Qed.
Lemma gain_range : forall x k, unit x -> 0 < k -> unit (gainS x k).
Proof.
  unfold unit. intros x k H Hk. destruct (Rlt_dec x (/ 2)).
  - pose proof (gain_low_range x k ltac:(lra) Hk). lra.
  - pose proof (gain_high_range x k ltac:(lra) Hk). lra.
Qed.
Lemma gain_fix : forall k, 0 < k -> gainS 0 k = 0 /\ gainS (/ 2) k = / 2 /\ gainS 1 k = 1.
Proof.
  intros k Hk. rewrite gain_low, !gain_high by lra.
  replace (2 * 0) with 0 by ring. replace (2 * (1 - / 2)) with 1 by lra. replace (2 * (1 - 1)) with 0 by ring.
  rewrite !pow_0, pow_1 by lra. lra.
Qed.
Lemma gain_mono : forall x y k, unit x -> unit y -> 0 < k -> x < y -> gainS x k < gainS y k.
Proof.
  unfold unit. intros x y k Hx Hy Hk H. destruct (Rlt_dec x (/ 2)); destruct (Rlt_dec y (/ 2)); try lra.
  - rewrite !gain_low by lra. pose proof (pow_lt (2 * x) (2 * y) k ltac:(lra) Hk). lra.
  - pose proof (gain_low_range x k ltac:(lra) Hk). pose proof (gain_high_range y k ltac:(lra) Hk). lra.
  - rewrite !gain_high by lra. pose proof (pow_lt (2 * (1 - y)) (2 * (1 - x)) k ltac:(lra) Hk). lra.
Qed.
Lemma gain_inverse : forall x k, unit x -> 0 < k -> gainS (gainS x k) (1 / k) = x.
Proof.
  unfold unit. intros x k Hx Hk. destruct (Rlt_dec x (/ 2)).
  - pose proof (gain_low_range x k ltac:(lra) Hk). rewrite (gain_low (gainS x k)) by lra. rewrite gain_low by lra.
    replace (2 * (/ 2 * powR (2 * x) k)) with (powR (2 * x) k) by field. rewrite pow_inv by lra. lra.
  - pose proof (gain_high_range x k ltac:(lra) Hk). rewrite (gain_high (gainS x k)) by lra. rewrite gain_high by lra.
    replace (2 * (1 - (1 - / 2 * powR (2 * (1 - x)) k))) with (powR (2 * (1 - x)) k) by field. rewrite pow_inv by lra. lra.
Qed.
(** symmetric about the middle *)
Lemma gain_sym : forall x k, unit x -> 0 < k -> gainS (1 - x) k = 1 - gainS x k.
Proof.
  unfold unit. intros x k Hx Hk. destruct (Rtotal_order x (/ 2)) as [L|[E|G]].
  - rewrite (gain_low x), (gain_high (1 - x)) by lra. replace (2 * (1 - (1 - x))) with (2 * x) by ring. ring.
  - subst x. replace (1 - / 2) with (/ 2) by lra. destruct (gain_fix k Hk) as (_ & -> & _). lra.
  - rewrite (gain_low (1 - x)), (gain_high x) by lra. ring.
Qed.

(** ** lerpDelta *)
Lemma lerpDeltaR : forall a b f dt : R, lerpDelta a b f dt = a + (1 - powR f dt) * (b - a).
Proof. intros. unfold lerpDelta. rewrite f1R. reflexivity. Qed.
Lemma lerpDelta_compose : forall a b f dt1 dt2, 0 <= f -> 0 < dt1 -> 0 < dt2 ->
  lerpDelta (lerpDelta a b f dt1) b f dt2 = lerpDelta a b f (dt1 + dt2).
Proof.
  intros a b f dt1 dt2 Hf H1 H2. rewrite !lerpDeltaR. destruct (Rle_lt_or_eq_dec 0 f Hf) as [L|E].
  - rewrite pow_add by exact L. ring.
  - rewrite <- E, !pow_0 by lra. ring.
Qed.
Lemma lerpDelta_zero : forall a b f, 0 < f -> lerpDelta a b f 0 = a.
Proof. intros a b f H. rewrite lerpDeltaR, pow_pos by exact H. rewrite Rpower_O by exact H. ring. Qed.
Lemma lerpDelta_ends : forall a b dt, 0 < dt -> lerpDelta a b 0 dt = b /\ lerpDelta a b 1 dt = a.
Proof. intros a b dt H. rewrite !lerpDeltaR, pow_0, pow_1 by lra. split; ring. Qed.
Lemma lerpDelta_between : forall a b f dt, unit f -> 0 < dt -> between a b (lerpDelta a b f dt).
Proof.
  unfold unit, between. intros a b f dt Hf Hd. rewrite lerpDeltaR.
  pose proof (pow_le f 1 dt ltac:(lra) Hd) as L. rewrite pow_1 in L. pose proof (pow_ge0 f dt ltac:(lra) ltac:(lra)).
  destruct (Rle_dec a b); [left|right]; nra.
Qed.
(** the remaining distance shrinks by exactly f per unit of time *)
Lemma lerpDelta_rate : forall a b f n, 0 < f -> b - lerpDelta a b f (INR n) = f ^ n * (b - a).
Proof. intros a b f n H. rewrite lerpDeltaR, pow_nat by exact H. ring. Qed.

(** ** angles *)
Lemma angles_inverse : forall x : R, degreesS (radiansS x) = x /\ radiansS (degreesS x) = x /\
  degreesLane (radiansLane x) = x /\ radiansLane (degreesLane x) = x /\
  radiansLane x = radiansS x /\ degreesLane x = degreesS x.
Proof.
  intros x. unfold degreesS, radiansS, degreesLane, radiansLane, piF, n180. cbn [smul sdiv slit ScalarR]. unfold Rlit.
  cbn [powerRZ]. assert (2 ^ Pos.to_nat 22 <> 0) by (apply pow_nonzero; lra). repeat split; field; auto.
Qed.
Lemma piF_val : (piF : R) = 13176795 / 4194304.
Proof. unfold piF. cbn [slit ScalarR]. rewrite Rlit_neg. reflexivity. Qed.
Lemma radians_halfturn : radiansS 180 = piF.
Proof. unfold radiansS, n180. cbn [smul sdiv slit ScalarR]. rewrite Rlit_0. field. Qed.

(** ** ggx, reflectance *)
Lemma ggxR : forall n a : R, ggx n a = a * a / (piF * ((a * a - 1) * (n * n) + 1) * ((a * a - 1) * (n * n) + 1)).
Proof.
  intros n a. unfold ggx. rewrite f1R. cbn [sadd ssub smul sdiv ScalarR].
  replace ((a - 1) * ((a + 1) * (n * n)) + 1) with ((a * a - 1) * (n * n) + 1) by ring. reflexivity.
Qed.
Lemma ggx_pos : forall n a : R, -1 <= n <= 1 -> a <> 0 -> 0 < (a * a - 1) * (n * n) + 1 /\ 0 < ggx n a.
Proof.
  intros n a Hn Ha. assert (A : 0 < a * a) by (apply Rsqr_pos_lt in Ha; exact Ha).
  assert (N : n * n <= 1) by nra. assert (N0 : 0 <= n * n) by apply Rle_0_sqr.
  assert (D : 0 < (a * a - 1) * (n * n) + 1).
  { destruct (Req_dec (n * n) 1) as [E|E]; [rewrite E; lra|]. nra. }
  split; [exact D|]. rewrite ggxR. apply Rdiv_lt_0_compat; [exact A|]. rewrite piF_val.
  repeat apply Rmult_lt_0_compat; lra.
Qed.
Lemma iorR : forall n : R, n <> -1 ->
  iorToReflectance n = Rabs ((n - 1) / (n + 1)) / sqrt (5368709 / 33554432) /\
  Rabs (5368709 / 33554432 - 0.16) < / 10 ^ 8.
Proof.
  intros n Hn. split; [|cbn; apply Rabs_def1; lra].
  unfold iorToReflectance. rewrite f1R. cbn [sadd ssub smul sdiv ssqrt slit ScalarR].
  assert (E : Rlit 5368709 (-25) = 5368709 / 33554432) by (rewrite Rlit_neg; reflexivity). rewrite E.
  rewrite <- sqrt_Rsqr_abs. rewrite <- sqrt_div_alt by lra. f_equal. unfold Rsqr. field. lra.
Qed.
Lemma gain_two : forall x, 0 <= x < / 2 -> gainS x 2 = 2 * (x * x).
Proof.
  intros x H. rewrite gain_low by lra. destruct (Rle_lt_or_eq_dec 0 x ltac:(lra)) as [L|E].
  - replace 2 with (INR 2) at 3 by reflexivity. rewrite pow_nat by lra. cbn. field.
  - rewrite <- E, Rmult_0_r, pow_0 by lra. ring.
Qed.
Lemma radians_180 : radiansS 180 = 13176795 / 4194304.
Proof. rewrite radians_halfturn. apply piF_val. Qed.
Lemma ggx_formula : forall n a : R, ggx n a = a * a / (13176795 / 4194304 * ((a * a - 1) * (n * n) + 1) * ((a * a - 1) * (n * n) + 1)).
Proof. intros n a. rewrite ggxR, piF_val. reflexivity. Qed.
Lemma ggx_mono : forall n n' a : R, 0 < a <= 1 -> 0 <= n <= n' -> n' <= 1 -> ggx n a <= ggx n' a.
Proof.
  intros n n' a Ha Hn Hn'. destruct (ggx_pos n a ltac:(lra) ltac:(lra)) as [D _].
  destruct (ggx_pos n' a ltac:(lra) ltac:(lra)) as [D' _]. rewrite !ggx_formula.
  set (d := (a * a - 1) * (n * n) + 1) in *. set (d' := (a * a - 1) * (n' * n') + 1) in *.
  assert (L : d' <= d) by (unfold d, d'; assert (n * n <= n' * n') by nra; assert (a * a <= 1) by nra; nra).
  assert (d' * d' <= d * d) by nra. assert (0 < d' * d') by nra.
  unfold Rdiv at 1 3. apply Rmult_le_compat_l; [nra|]. apply Rinv_le; nra.
Qed.
