(** The window of the deringing in binary32. *)
From Coq Require Import ZArith Bool List Reals Lra Lia Psatz.
From Flocq Require Import Core.Core IEEE754.BinarySingleNaN IEEE754.Binary IEEE754.Bits.
From Verif.Model Require Import Outcome Scalar Vec Simd Trig Numeric Sh.
From Verif.Spec Require Import ShSpec SphereSpec WindowSpec.
From Verif.Proofs Require Import OrdScalar F32Round F32Err NumericProofs RayErr YxyErr YxyRgb CubeErr DirProofs ShErr DeringProofs AngleErr PiBounds SolidErr.
Import ListNotations.
Local Open Scope R_scope.

(** ** Real numbers *)
Lemma sin_lip : forall a b, Rabs (sin b - sin a) <= Rabs (b - a).
Proof.
  intros a b. rewrite form4. rewrite Rabs_mult, Rabs_mult, (Rabs_right 2) by lra.
  assert (A : Rabs (cos ((b + a) / 2)) <= 1) by (apply Rabs_le; pose proof (COS_bound ((b + a) / 2)); lra).
  assert (B : Rabs (sin ((b - a) / 2)) <= Rabs (b - a) / 2).
  { destruct (Rtotal_order (b - a) 0) as [N|[Z|P]].
    - destruct (sinc_bound (- ((b - a) / 2)) ltac:(lra)) as [S _]. unfold Rdiv at 1 in S. rewrite Rabs_mult, (Rabs_right (/ _)) in S by (apply Rle_ge, Rlt_le, Rinv_0_lt_compat; lra).
      rewrite sin_neg, Rabs_Ropp in S. rewrite (Rabs_left (b - a)) by lra.
      apply Rmult_le_reg_r with (/ - ((b - a) / 2)); [apply Rinv_0_lt_compat; lra|]. apply Rle_trans with (1 := S). right. field. lra.
    - rewrite Z. unfold Rdiv. rewrite Rmult_0_l, sin_0, Rabs_R0. lra.
    - destruct (sinc_bound ((b - a) / 2) ltac:(lra)) as [S _]. unfold Rdiv at 1 in S. rewrite Rabs_mult, (Rabs_right (/ _)) in S by (apply Rle_ge, Rlt_le, Rinv_0_lt_compat; lra).
      rewrite (Rabs_right (b - a)) by lra.
      apply Rmult_le_reg_r with (/ ((b - a) / 2)); [apply Rinv_0_lt_compat; lra|]. apply Rle_trans with (1 := S). right. field. lra. }
  pose proof (Rabs_pos (cos ((b + a) / 2))). pose proof (Rabs_pos (sin ((b - a) / 2))).
  assert (Rabs (cos ((b + a) / 2)) * Rabs (sin ((b - a) / 2)) <= 1 * (Rabs (b - a) / 2)) by (apply Rmult_le_compat; lra). lra.
Qed.
Lemma sinc_near : forall x y d, 0 < x -> 0 < y -> 0 <= d -> Rabs (y - x) <= d * y -> Rabs (sin y / y - sin x / x) <= 2 * d.
Proof.
  intros x y d X Y D H. destruct (sinc_bound x X) as [B _]. pose proof (sin_lip x y) as L.
  assert (I : 0 < / y) by (apply Rinv_0_lt_compat, Y).
  replace (sin y / y - sin x / x) with ((sin y - sin x) * / y + sin x / x * ((x - y) * / y)) by (field; lra).
  eapply Rle_trans; [apply Rabs_triang|]. rewrite !Rabs_mult, (Rabs_right (/ y)) by lra. rewrite (Rabs_minus_sym x y).
  assert (E : Rabs (y - x) * / y <= d) by (apply Rmult_le_reg_r with y; [exact Y|]; rewrite Rmult_assoc, Rinv_l by lra; lra).
  assert (E1 : Rabs (sin y - sin x) * / y <= d) by (apply Rle_trans with (2 := E); apply Rmult_le_compat_r; lra).
  assert (E2 : Rabs (sin x / x) * (Rabs (y - x) * / y) <= 1 * d).
  { apply Rmult_le_compat; [apply Rabs_pos| |exact B|exact E]. apply Rmult_le_pos; [apply Rabs_pos|lra]. }
  lra.
Qed.
Lemma rnd_pos0 : forall x, 0 <= x -> 0 <= rnd x.
Proof. intros x H. apply round_ge_generic; [apply (fexp_correct 24 128 eq_refl)|apply valid_rnd_round_mode|apply generic_format_0|exact H]. Qed.
Lemma rnd_neg0 : forall x, x <= 0 -> rnd x <= 0.
Proof. intros x H. apply round_le_generic; [apply (fexp_correct 24 128 eq_refl)|apply valid_rnd_round_mode|apply generic_format_0|exact H]. Qed.

(** ** One factor *)
Lemma pi_times : forall l, l = 1%Z \/ l = 2%Z -> fin (piF * ofInt l : f32)%sc /\ val (piF * ofInt l : f32)%sc = P0 * IZR l.
Proof.
  assert (R : forall x y : f32, B2FF 24 128 x = B2FF 24 128 y -> val x = val y) by (intros x y E; rewrite <- !FF2R_B2FF, E; reflexivity).
  intros l [-> | ->].
  - split; [vm_compute; reflexivity|]. rewrite (R _ (slit 13176795 (-22) : f32)) by (vm_compute; reflexivity). rewrite (proj2 (lit_exact 13176795 (-22) ltac:(lia) ltac:(lia))). unfold P0. cbn. lra.
  - split; [vm_compute; reflexivity|]. rewrite (R _ (slit 13176795 (-21) : f32)) by (vm_compute; reflexivity). rewrite (proj2 (lit_exact 13176795 (-21) ltac:(lia) ltac:(lia))). unfold P0. cbn. lra.
Qed.
Section Factor.
  Context (T : Trig f32) (HT : goodSin T).
  Lemma ratio_near : forall l (w : f32), l = 1%Z \/ l = 2%Z -> fin w -> IZR l < val w <= 1048576 ->
    let x := (piF * ofInt l / w)%sc in off (6.5 * U) (tsin x / x)%sc (sin (PI * IZR l / val w) / (PI * IZR l / val w)).
  Proof.
    intros l w Hl Fw W x. destruct (pi_times l Hl) as [Fp Vp]. assert (L : 1 <= IZR l <= 2) by (destruct Hl as [-> | ->]; lra).
    pose proof PI_upper as PU. pose proof PI_lower as PL. pose proof pi_close as PC. fold P0 in PC. apply Rabs_le_inv in PC.
    assert (I : 0 < / val w) by (apply Rinv_0_lt_compat; lra). assert (Q : IZR l / val w < 1) by (apply Rmult_lt_reg_r with (val w); [lra|]; unfold Rdiv; rewrite Rmult_assoc, Rinv_l by lra; lra).
    assert (Q0 : / 1048576 <= IZR l / val w) by (unfold Rdiv; apply Rle_trans with (1 * / val w); [rewrite Rmult_1_l; apply Rinv_le; lra|apply Rmult_le_compat_r; lra]).
    set (q := IZR l / val w) in *. assert (PQ : P0 * IZR l / val w = P0 * q) by (unfold q, Rdiv; ring).
    assert (P0b : 3.1415926 <= P0 <= 3.1415928) by (unfold P0; lra).
    assert (B : 3.1415926 * q <= P0 * q <= 3.1415928 * q) by (split; apply Rmult_le_compat_r; lra).
    destruct (div_small _ w Fp Fw ltac:(lra)) as [Fx Vx]; [rewrite Vp, PQ; apply small10; lra|]. rewrite Vp, PQ in Vx. fold x in Fx, Vx.
    pose proof (rerr (P0 * q)) as R. rewrite <- Vx, (Rabs_right (P0 * q)) in R by lra. apply Rabs_le_inv in R.
    assert (D : - (/ 8000000 * q) <= (P0 - PI) * q <= / 8000000 * q) by (split; [apply Rle_trans with (- / 8000000 * q); [lra|]|]; apply Rmult_le_compat_r; lra).
    replace (PI * IZR l / val w) with (PI * q) by (unfold q, Rdiv; ring).
    assert (BX : 3.14 * q <= val x <= 3.15 * q) by lra.
    pose proof (sinc_near (PI * q) (val x) (1.7 * U) ltac:(apply Rmult_lt_0_compat; lra) ltac:(lra) ltac:(lra) ltac:(apply Rabs_le; lra)) as N.
    destruct (HT x Fx ltac:(lra)) as [Fs Es]. destruct (sinc_bound (val x) ltac:(lra)) as [SB _].
    assert (IX : 0 < / val x <= 1000000) by (split; [apply Rinv_0_lt_compat; lra|apply Rle_trans with (/ (3.14 * / 1048576)); [apply Rinv_le; lra|lra]]).
    assert (E : Rabs (val (tsin x) / val x - sin (val x) / val x) <= 2.0001 * U).
    { replace (val (tsin x) / val x - sin (val x) / val x) with ((val (tsin x) - sin (val x)) * / val x) by (unfold Rdiv; ring). rewrite Rabs_mult, (Rabs_right (/ val x)) by lra.
      apply Rle_trans with ((2 / 16777216 * Rabs (sin (val x)) + bpow radix2 (-149)) * / val x); [apply Rmult_le_compat_r; lra|].
      unfold Rdiv in SB at 1. rewrite Rabs_mult, (Rabs_right (/ val x)) in SB by lra.
      assert (TB : bpow radix2 (-149) <= bpow radix2 (-100)) by (apply bpow_le; lia).
      assert (TC : bpow radix2 (-100) * 1000000 <= / 100000000000000000) by (cbn; lra).
      assert (TD : 0 < bpow radix2 (-149)) by apply bpow_gt_0.
      assert (bpow radix2 (-149) * / val x <= bpow radix2 (-100) * 1000000) by (apply Rmult_le_compat; lra).
      replace ((2 / 16777216 * Rabs (sin (val x)) + bpow radix2 (-149)) * / val x) with (2 / 16777216 * (Rabs (sin (val x)) * / val x) + bpow radix2 (-149) * / val x) by ring. lra. }
    destruct (sinc_bound (PI * q) ltac:(apply Rmult_lt_0_compat; lra)) as [SC _].
    destruct (off_rnd (6.5 * U) (5.4002 * U) 1 (val (tsin x) / val x) (sin (PI * q) / (PI * q))) as [S O].
    - replace (val (tsin x) / val x - sin (PI * q) / (PI * q)) with ((val (tsin x) / val x - sin (val x) / val x) + (sin (val x) / val x - sin (PI * q) / (PI * q))) by ring.
      eapply Rle_trans; [apply Rabs_triang|]. lra.
    - exact SC.
    - lra.
    - lra.
    - destruct (div_small (tsin x) x Fs Fx ltac:(lra) S) as [F V]. split; [exact F|]. rewrite V. exact O.
  Qed.
  Theorem window_near : forall l (w : f32), (0 <= l <= 2)%Z -> fin w -> 0 < val w <= 1048576 ->
    fin (sincWindow l w) /\ 0 <= val (sincWindow l w) /\ Rabs (val (sincWindow l w) - window l (val w)) <= 30 / 16777216.
  Proof.
    intros l w Hl Fw W. unfold sincWindow, window. destruct (l =? 0)%Z eqn:Z0.
    { destruct (lit_Z 1 ltac:(lia)) as [F V]. change (slit 1 0 : f32) with (@f1 f32 ScalarF32) in F, V. rewrite V. split; [exact F|]. split; [lra|]. rewrite Rminus_diag_eq, Rabs_R0; lra. }
    apply Z.eqb_neq in Z0. destruct (lit_Z l ltac:(lia)) as [Fl Vl]. change (slit l 0 : f32) with (@ofInt f32 ScalarF32 l) in Fl, Vl.
    unfold sge. rewrite (sle_fin w (ofInt l) Fw Fl), Vl. destruct (Rle_dec (val w) (IZR l)) as [C|C].
    { rewrite Rle_bool_true by exact C. destruct (lit_Z 0 ltac:(lia)) as [F V]. change (slit 0 0 : f32) with (@f0 f32 ScalarF32) in F, V. rewrite V. split; [exact F|]. split; [lra|]. rewrite Rminus_diag_eq, Rabs_R0; lra. }
    rewrite Rle_bool_false by lra. assert (Hl' : l = 1%Z \/ l = 2%Z) by lia. pose proof (ratio_near l w Hl' Fw ltac:(lra)) as O. cbv zeta in O |- *.
    set (r := (tsin (piF * ofInt l / w) / (piF * ofInt l / w))%sc) in *.
    assert (XP : 0 < PI * IZR l / val w). { apply Rmult_lt_0_compat; [apply Rmult_lt_0_compat; [exact PI_RGT_0|apply IZR_lt; lia]|apply Rinv_0_lt_compat; lra]. }
    destruct (sinc_bound _ XP) as [B _]. set (s := sin (PI * IZR l / val w) / (PI * IZR l / val w)) in *.
    assert (B2 : Rabs (s * s) <= 1) by (rewrite Rabs_mult; apply Rle_trans with (1 * 1); [apply Rmult_le_compat; try apply Rabs_pos; exact B|lra]).
    assert (B3 : Rabs (s * s * s) <= 1) by (rewrite Rabs_mult; apply Rle_trans with (1 * 1); [apply Rmult_le_compat; try apply Rabs_pos; assumption|lra]).
    assert (B4 : Rabs (s * s * s * s) <= 1) by (rewrite Rabs_mult; apply Rle_trans with (1 * 1); [apply Rmult_le_compat; try apply Rabs_pos; assumption|lra]).
    assert (O2 : off (14.1 * U) (r * r)%sc (s * s)) by (apply (off_mul (6.5 * U) (6.5 * U) 1 1 1); try assumption; lra).
    assert (O3 : off (21.7 * U) (r * r * r)%sc (s * s * s)) by (apply (off_mul (14.1 * U) (6.5 * U) 1 1 1); try assumption; lra).
    assert (O4 : off (30 * U) (r * r * r * r)%sc (s * s * s * s)) by (apply (off_mul (21.7 * U) (6.5 * U) 1 1 1); try assumption; lra).
    destruct O as [F1 E1]. destruct O2 as [F2 E2]. destruct O3 as [F3 E3]. destruct O4 as [F4 E4]. split; [exact F4|]. split.
    - assert (K : forall t e v, Rabs t <= 1 -> e <= 1 -> Rabs (v - t) <= e -> -2 <= v <= 2) by (intros t e v Ht He Hv; apply Rabs_le_inv in Ht; apply Rabs_le_inv in Hv; lra).
      pose proof (K _ (6.5 * U) _ B ltac:(lra) E1) as K1. pose proof (K _ (14.1 * U) _ B2 ltac:(lra) E2) as K2. pose proof (K _ (21.7 * U) _ B3 ltac:(lra) E3) as K3. 
      assert (SQ : 0 <= val r * val r) by apply Rle_0_sqr.
      destruct (mul_small r r F1 F1) as [_ V2]; [apply small10; nra|]. destruct (mul_small (r * r)%sc r F2 F1) as [_ V3]; [apply small10; nra|]. destruct (mul_small (r * r * r)%sc r F3 F1) as [_ V4]; [apply small10; nra|].
      rewrite V4. apply rnd_pos0. pose proof (rnd_pos0 _ SQ) as P2. rewrite <- V2 in P2.
      destruct (Rle_dec 0 (val r)) as [G|G].
      + apply Rmult_le_pos; [|exact G]. rewrite V3. apply rnd_pos0, Rmult_le_pos; assumption.
      + assert (val (r * r * r)%sc <= 0) by (rewrite V3; apply rnd_neg0; nra). nra.
    - replace (s ^ 4) with (s * s * s * s) by ring. unfold Rdiv. exact E4.
  Qed.
End Factor.
Lemma rounded_sin : goodSin roundedTrig.
Proof.
  intros x Fx Hx. change (@tsin f32 roundedTrig x) with (nearestF32 (sin (val x))). pose proof (SIN_bound (val x)) as B.
  destruct (nearest_ok (sin (val x)) ltac:(lra)) as [F V]. split; [exact F|]. rewrite V. eapply Rle_trans; [apply rnd_err|]. pose proof (Rabs_pos (sin (val x))) as Pa.
  apply Rplus_le_compat; [|unfold eta0; apply bpow_le; lia]. apply Rmult_le_compat_r; [exact Pa|]. unfold u24. cbn. lra.
Qed.
(** ** All coefficients *)
Lemma window_in : forall l w, (0 <= l)%Z -> 0 < w -> Rabs (window l w) <= 1.
Proof.
  intros l w L W. unfold window. destruct (l =? 0)%Z eqn:Z0; [rewrite Rabs_R1; lra|]. apply Z.eqb_neq in Z0. destruct (Rle_dec w (IZR l)) as [C|C]; [rewrite Rabs_R0; lra|].
  assert (XP : 0 < PI * IZR l / w) by (apply Rmult_lt_0_compat; [apply Rmult_lt_0_compat; [exact PI_RGT_0|apply IZR_lt; lia]|apply Rinv_0_lt_compat; lra]).
  destruct (sinc_bound _ XP) as [B _]. rewrite <- RPow_abs. rewrite <- (pow1 4). apply pow_incr. split; [apply Rabs_pos|exact B].
Qed.
Lemma scaled_near : forall (f : f32) k, fin f -> Rabs (val f - k) <= 30 / 16777216 -> Rabs k <= 1 -> forall v, moderate v -> timesNear k v (scalep4 v f).
Proof.
  intros f k F E K [x y z w] (X & Y & Z & W). cbn [vx vy vz vw] in *.
  assert (ONE : forall x : f32, fin x /\ Rabs (val x) <= 500000 -> fin (x * f)%sc /\ Rabs (val (x * f)%sc - k * val x) <= 31.1 / 16777216 * Rabs (val x) + / 1000000000000000000).
  { clear - F E K. intros x [Fx Bx]. pose proof (Rabs_pos (val x)) as P.
    assert (FB : Rabs (val f) <= 1.001) by (replace (val f) with (k + (val f - k)) by ring; eapply Rle_trans; [apply Rabs_triang|]; lra).
    assert (M : Rabs (val x * val f) <= Rabs (val x) * 1.001) by (rewrite Rabs_mult; apply Rmult_le_compat_l; assumption).
    destruct (mul_small x f Fx F) as [Fm Vm]; [apply small_le with 600000; lra|]. split; [exact Fm|]. pose proof (rerr (val x * val f)) as R. rewrite <- Vm in R.
    replace (val (x * f)%sc - k * val x) with ((val (x * f)%sc - val x * val f) + val x * (val f - k)) by ring. eapply Rle_trans; [apply Rabs_triang|]. rewrite (Rabs_mult (val x) (val f - k)).
    assert (Rabs (val x) * Rabs (val f - k) <= Rabs (val x) * (30 / 16777216)) by (apply Rmult_le_compat_l; assumption). lra. }
  unfold timesNear, scalep4. cbn [vx vy vz vw map_4]. split; [|split; [|split]]; apply ONE; assumption.
Qed.
Theorem windowing_near : forall (T : Trig f32), goodSin T -> forall (w : f32) a, fin w -> 0 < val w <= 1048576 -> length a = 9%nat -> Forall moderate a ->
  exists r, windowing scalep4 w a = Ok r /\ length r = 9%nat /\
    forall i d, (i < 9)%nat -> timesNear (window (Z.of_nat (bandOf i)) (val w)) (nth i a d) (nth i r d).
Proof.
  intros T HT w a Fw W L M. rewrite windowing_bands by exact L. eexists. split; [reflexivity|]. split; [apply bandScaled_length, L|].
  assert (N : forall l, (0 <= l <= 2)%Z -> forall v, moderate v -> timesNear (window l (val w)) v (scalep4 v (sincWindow l w))).
  { intros l Hl. destruct (window_near T HT l w Hl Fw W) as (F & _ & E). apply scaled_near; [exact F|exact E|apply window_in; [lia|lra]]. }
  destruct (DeringProofs.nine _ _ L) as (a0 & a1 & a2 & a3 & a4 & a5 & a6 & a7 & a8 & ->).
  repeat match goal with H : Forall _ (_ :: _) |- _ => inversion H; clear H; subst end.
  unfold bandScaled. cbn [map combine fst snd].
  intros i d Hi. do 9 (destruct i as [|i]; [cbn [bandOf Z.of_nat nth Pos.of_succ_nat Pos.succ]; (refine (N 0%Z _ _ _) || refine (N 1%Z _ _ _) || refine (N 2%Z _ _ _)); [lia|assumption]|]). lia.
Qed.
Lemma ex_moderate : Forall moderate (repeat (V4 f1 fhalf f0 (slit (-3) 0)) 9) /\ window 1 2 = (2 / PI) ^ 4.
Proof.
  split.
  - assert (M : moderate (V4 f1 fhalf f0 (slit (-3) 0))).
    { destruct (lit_Z 1 ltac:(lia)) as [F1 V1]. destruct (lit_exact 1 (-1) ltac:(lia) ltac:(lia)) as [F2 V2]. destruct (lit_Z 0 ltac:(lia)) as [F3 V3]. destruct (lit_Z (-3) ltac:(lia)) as [F4 V4].
      unfold moderate, f1, fhalf, f0. cbn [vx vy vz vw]. rewrite V1, V2, V3, V4. change (bpow radix2 (-1)) with (/ 2). split; [split; [exact F1|apply Rabs_le; lra]|]. split; [split; [exact F2|apply Rabs_le; lra]|]. split; [split; [exact F3|apply Rabs_le; lra]|]. split; [exact F4|apply Rabs_le; lra]. }
    apply Forall_forall. intros v Hv. apply repeat_spec in Hv. rewrite Hv. exact M.
  - unfold window. cbn [Z.eqb]. destruct (Rle_dec 2 1) as [C|_]; [lra|]. replace (PI * 1 / 2) with (PI / 2) by field. rewrite sin_PI2. f_equal. pose proof PI_RGT_0. field. lra.
Qed.
