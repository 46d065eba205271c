(** repeat, lerp and hammersley in binary32 and in exact arithmetic. *)
From Coq Require Import ZArith Bool List Reals Lra Lia Psatz.
From Flocq Require Import Core.Core IEEE754.BinarySingleNaN IEEE754.Binary IEEE754.Bits.
From Verif.Model Require Import Outcome Scalar Vec Simd Numeric.
From Verif.Spec Require Import OrderSpec NumericSpec.
From Verif.Proofs Require Import OrdScalar F32Round F32Err RealLits Frustum BitReverse.
Local Open Scope R_scope.

(** ** fractional parts *)
Definition frac (x : R) : R := x - IZR (Zfloor x).
Lemma frac_bounds : forall x, 0 <= frac x < 1.
Proof. intros x. unfold frac. pose proof (Zfloor_lb x). pose proof (Zfloor_ub x). lra. Qed.
Lemma frac_small : forall x, 0 <= x < 1 -> frac x = x.
Proof. intros x H. unfold frac. rewrite (Zfloor_imp 0); cbn; lra. Qed.

Lemma floor_fin : forall x : f32, fin x -> fin (sfloor x) /\ val (sfloor x) = IZR (Zfloor (val x)).
Proof.
  intros x Hx. cbn [sfloor ScalarF32].
  destruct (Binary.Bnearbyint_correct 24 128 eq_refl unop_nan_pl32 mode_DN x) as (A & B & _).
  split; [rewrite B; exact Hx|]. rewrite A. unfold round, F2R, scaled_mantissa, cexp, FIX_exp. cbn [Fnum Fexp round_mode bpow].
  rewrite Z.opp_0. cbn [bpow]. rewrite !Rmult_1_r. reflexivity.
Qed.
Lemma RX_val : forall x : f32, RX (val x) = val x.
Proof.
  intros x. pose proof (B2R_bound x). unfold RX. rewrite rnd_val. apply clampR_id.
  apply Rabs_le. lra.
Qed.
Lemma of_RXval : forall (y : f32) r, num y -> ext y = RX r -> RX r = r -> - maxF < r < maxF -> fin y /\ val y = r.
Proof.
  intros y r Hn E Er B. rewrite Er in E. assert (F : fin y) by (apply ext_fin; [exact Hn|rewrite E; exact B]).
  split; [exact F|]. rewrite <- fin_ext by exact F. exact E.
Qed.
(** the fractional part of a non-negative binary32 number is a binary32 number *)
Lemma frac_rnd : forall x : f32, fin x -> 0 <= val x -> rnd (frac (val x)) = frac (val x).
Proof.
  intros x Hx H0. destruct x as [s|s|s pl Hp|s m e He]; try discriminate.
  - cbn. unfold frac. rewrite (Zfloor_imp 0) by (cbn; lra). rewrite Rminus_0_r. apply rnd_0.
  - cbn [B2R] in *. unfold F2R in *. cbn [Fnum Fexp] in *. pose proof (bpow_gt_0 radix2 e) as Bp.
    destruct s; cbn [cond_Zopp] in *.
    { exfalso. assert (IZR (Z.neg m) < 0) by (apply (IZR_lt _ 0); lia). change (- Z.pos m)%Z with (Z.neg m) in H0. nra. }
    assert (Hb := He). unfold SpecFloat.bounded in Hb. apply andb_prop in Hb. destruct Hb as [Hm _].
    assert (Hm' : (Z.pos m < 2 ^ 24)%Z /\ (-149 <= e)%Z).
    { unfold SpecFloat.canonical_mantissa in Hm. apply Zeq_bool_eq in Hm. unfold SpecFloat.fexp, SpecFloat.emin in Hm.
      rewrite Digits.Zpos_digits2_pos in Hm. split; [|lia].
      apply Z.lt_le_trans with (2 ^ Digits.Zdigits radix2 (Z.pos m))%Z.
      - pose proof (Digits.Zdigits_correct radix2 (Z.pos m)) as [_ K]. exact K.
      - apply Z.pow_le_mono_r; lia. }
    destruct Hm' as [Hm1 He1].
    destruct (Z.le_gt_cases 0 e) as [Hpos|Hneg].
    + (* an integer *)
      replace (frac (IZR (Z.pos m) * bpow radix2 e)) with 0; [apply rnd_0|].
      assert (E : IZR (Z.pos m) * bpow radix2 e = IZR (Z.pos m * 2 ^ e)).
      { rewrite mult_IZR. f_equal. change 2%Z with (radix2 : Z). rewrite IZR_Zpower by lia. reflexivity. }
      rewrite E. unfold frac. rewrite Zfloor_IZR. ring.
    + set (fl := Zfloor (IZR (Z.pos m) * bpow radix2 e)).
      assert (E : frac (IZR (Z.pos m) * bpow radix2 e) = IZR (Z.pos m - fl * 2 ^ (- e)) * bpow radix2 e).
      { unfold frac. fold fl. rewrite minus_IZR, mult_IZR. change 2%Z with (radix2 : Z). rewrite IZR_Zpower by lia.
        rewrite Rmult_minus_distr_r, Rmult_assoc, <- bpow_plus. replace (- e + e)%Z with 0%Z by lia. cbn [bpow]. ring. }
      pose proof (frac_bounds (IZR (Z.pos m) * bpow radix2 e)) as B.
      assert (F0 : (0 <= fl)%Z) by (apply Zfloor_lub; cbn [IZR]; exact H0).
      rewrite E in *. apply rnd_lit; [|exact He1].
      assert (K : (0 <= Z.pos m - fl * 2 ^ (- e))%Z).
      { apply le_IZR. destruct B as [B _]. apply Rmult_le_reg_r with (bpow radix2 e); [exact Bp|]. lra. }
      rewrite Z.abs_eq by exact K. pose proof (Z.pow_pos_nonneg 2 (- e) ltac:(lia) ltac:(lia)). nia.
Qed.
Lemma fmod1_fin : forall x : f32, fin x -> 0 <= val x -> fin (fmod1 x) /\ val (fmod1 x) = frac (val x).
Proof.
  intros x Hx H0. destruct (floor_fin x Hx) as [Ff Vf]. unfold fmod1. pose proof (frac_bounds (val x)) as B.
  destruct (sub_small x (sfloor x) Hx Ff) as [A V].
  { apply small_le with 1; [|lra]. rewrite Vf. change (val x - IZR (Zfloor (val x))) with (frac (val x)). rewrite Rabs_right; lra. }
  split; [exact A|]. rewrite V, Vf. apply (frac_rnd x Hx H0).
Qed.
Lemma f0_f : fin (f0 : f32) /\ val (f0 : f32) = 0. Proof. apply (lit_Z 0). cbn. lia. Qed.
Lemma f1_f : fin (f1 : f32) /\ val (f1 : f32) = 1. Proof. apply (lit_Z 1). cbn. lia. Qed.
Lemma modLane1 : forall x : f32, fin x -> 0 <= val x -> fin (modLane x f1) /\ val (modLane x f1) = frac (val x).
Proof.
  intros x Hx H0. destruct f1_f as [F1 V1]. pose proof (B2R_bound x) as Bx.
  assert (D : fin (x / f1)%sc /\ val (x / f1)%sc = val x).
  { destruct (div_fin x f1 Hx F1 ltac:(rewrite V1; lra)) as [N E]. rewrite V1 in E. replace (val x / 1) with (val x) in E by lra.
    apply of_RXval; try assumption. apply RX_val. }
  destruct D as [Fd Vd]. destruct (floor_fin _ Fd) as [Ff Vf]. rewrite Vd in Vf.
  assert (M : fin (sfloor (x / f1) * f1)%sc /\ val (sfloor (x / f1) * f1)%sc = IZR (Zfloor (val x))).
  { destruct (mul_fin (sfloor (x / f1)%sc) f1 Ff F1) as [N E]. rewrite V1, Rmult_1_r in E. rewrite <- Vf.
    apply of_RXval; try assumption; [apply RX_val|apply B2R_bound]. }
  destruct M as [Fm Vm]. unfold modLane. pose proof (frac_bounds (val x)) as B.
  destruct (sub_small x _ Hx Fm) as [A V].
  { apply small_le with 1; [|lra]. rewrite Vm. change (val x - IZR (Zfloor (val x))) with (frac (val x)). rewrite Rabs_right; lra. }
  split; [exact A|]. rewrite V, Vm. apply (frac_rnd x Hx H0).
Qed.
Lemma neg_fin : forall x : f32, fin x -> fin (- x)%sc /\ val (- x)%sc = - val x.
Proof.
  intros x Hx. cbn [sneg ScalarF32]. unfold b32_opp. split; [rewrite is_finite_Bopp; exact Hx|apply B2R_Bopp].
Qed.
Lemma slt_fin : forall x y : f32, fin x -> fin y -> slt x y = Rlt_bool (val x) (val y).
Proof. intros x y Hx Hy. rewrite slt_ext by (apply fin_num; assumption). rewrite !fin_ext by assumption. reflexivity. Qed.
Lemma sle_fin : forall x y : f32, fin x -> fin y -> sle x y = Rle_bool (val x) (val y).
Proof. intros x y Hx Hy. rewrite sle_ext by (apply fin_num; assumption). rewrite !fin_ext by assumption. reflexivity. Qed.

Definition repeatVal (v : R) : R := if Rlt_dec v 0 then rnd (1 - frac (- v)) else frac v.
Lemma one_minus_fin : forall y : f32, fin y -> 0 <= val y < 1 -> fin (f1 - y)%sc /\ val (f1 - y)%sc = rnd (1 - val y).
Proof.
  intros y Hy B. destruct f1_f as [F1 V1]. destruct (sub_small f1 y F1 Hy) as [A V].
  { apply small_le with 1; [|lra]. rewrite V1. rewrite Rabs_right; lra. }
  rewrite V1 in V. auto.
Qed.
Lemma repeatS_val : forall v : f32, fin v -> fin (repeatS v) /\ val (repeatS v) = repeatVal (val v).
Proof.
  intros v Hv. destruct f0_f as [F0 V0], f1_f as [F1 V1]. unfold repeatS, repeatVal, sge.
  rewrite slt_fin, sle_fin, V0, V1 by assumption.
  destruct (Rlt_bool_spec (val v) 0) as [L|L].
  - destruct (Rlt_dec (val v) 0) as [_|N]; [|lra]. destruct (neg_fin v Hv) as [Fn Vn].
    destruct (fmod1_fin _ Fn ltac:(rewrite Vn; lra)) as [Fm Vm]. rewrite Vn in Vm.
    pose proof (frac_bounds (- val v)). rewrite <- Vm. apply one_minus_fin; [exact Fm|rewrite Vm; lra].
  - destruct (Rlt_dec (val v) 0) as [N|_]; [lra|]. destruct (Rle_bool_spec 1 (val v)) as [G|G].
    + apply fmod1_fin; assumption.
    + split; [exact Hv|]. rewrite frac_small; lra.
Qed.
Lemma repeatLane_val : forall v : f32, fin v -> fin (repeatLane v) /\ val (repeatLane v) = repeatVal (val v).
Proof.
  intros v Hv. destruct f0_f as [F0 V0], f1_f as [F1 V1]. unfold repeatLane, repeatVal. cbv zeta.
  rewrite !sel_mask. rewrite !slt_fin, V0, V1 by assumption.
  destruct (Rlt_bool_spec (val v) 1) as [L1|L1]; destruct (Rlt_bool_spec (val v) 0) as [L|L]; try lra.
  - destruct (Rlt_dec (val v) 0) as [_|N]; [|lra]. destruct (neg_fin v Hv) as [Fn Vn].
    destruct (modLane1 _ Fn ltac:(rewrite Vn; lra)) as [Fm Vm]. rewrite Vn in Vm.
    pose proof (frac_bounds (- val v)). rewrite <- Vm. apply one_minus_fin; [exact Fm|rewrite Vm; lra].
  - destruct (Rlt_dec (val v) 0) as [N|_]; [lra|]. split; [exact Hv|]. rewrite frac_small; lra.
  - destruct (Rlt_dec (val v) 0) as [N|_]; [lra|]. apply modLane1; assumption.
Qed.
Lemma repeatVal_nonneg : forall v, 0 <= v -> 0 <= repeatVal v < 1 /\ integerApart v (repeatVal v).
Proof.
  intros v H. unfold repeatVal. destruct (Rlt_dec v 0); [lra|]. split; [apply frac_bounds|].
  exists (Zfloor v). unfold frac. ring.
Qed.
Lemma repeatVal_neg : forall v, v < 0 -> 0 <= repeatVal v <= 1 /\ exists y, integerApart v y /\ Rabs (repeatVal v - y) <= / 8388608.
Proof.
  intros v H. unfold repeatVal. destruct (Rlt_dec v 0) as [_|]; [|lra]. pose proof (frac_bounds (- v)) as B.
  pose proof (rnd_Z 1 ltac:(cbn; lia)) as E1. split.
  - split; [rewrite <- rnd_0|rewrite <- E1]; apply F32Round.rnd_le; lra.
  - exists (1 - frac (- v)). split.
    + exists (- Zfloor (- v) - 1)%Z. unfold frac. rewrite minus_IZR, opp_IZR. ring.
    + pose proof (rnd_err (1 - frac (- v))) as E. rewrite (Rabs_right (1 - frac (- v))) in E by lra.
      rewrite u24_val in E. pose proof eta0_small. nra.
Qed.

Lemma repeat_f32 : forall v : f32, fin v ->
  fin (repeatS v) /\ fin (repeatLane v) /\ val (repeatLane v) = val (repeatS v) /\
  (0 <= val v -> 0 <= val (repeatS v) < 1 /\ integerApart (val v) (val (repeatS v))) /\
  (val v < 0 -> 0 <= val (repeatS v) <= 1 /\
     exists y, integerApart (val v) y /\ Rabs (val (repeatS v) - y) <= / 8388608).
Proof.
  intros v Hv. destruct (repeatS_val v Hv) as [A B], (repeatLane_val v Hv) as [C D].
  split; [exact A|]. split; [exact C|]. rewrite B, D. split; [reflexivity|].
  split; [apply repeatVal_nonneg|apply repeatVal_neg].
Qed.
(** exact arithmetic: the interval is closed at 1 below zero *)
Lemma repeat_real : forall v : R,
  repeatLane v = repeatS v /\ 0 <= repeatS v <= 1 /\ integerApart v (repeatS v) /\
  (repeatS v = 1 <-> v < 0 /\ exists n : Z, v = IZR n).
Proof.
  intros v.
  assert (E : repeatS v = if Rlt_dec v 0 then 1 - frac (- v) else frac v).
  { unfold repeatS, fmod1, sge. rewrite f0R, f1R. cbn [slt sle ssub sneg sfloor ScalarR].
    destruct (Rlt_bool_spec v 0) as [L|L]; destruct (Rlt_dec v 0); try lra; [reflexivity|].
    destruct (Rle_bool_spec 1 v); [reflexivity|]. rewrite frac_small; lra. }
  assert (E2 : repeatLane v = if Rlt_dec v 0 then 1 - frac (- v) else frac v).
  { unfold repeatLane, modLane. cbv zeta. rewrite !sel_mask, f0R, f1R. cbn [slt ssub smul sdiv sneg sfloor ScalarR].
    replace (v / 1) with v by lra. replace (- v / 1) with (- v) by lra.
    destruct (Rlt_bool_spec v 1), (Rlt_bool_spec v 0), (Rlt_dec v 0); try lra; unfold frac.
    - ring.
    - change (v = frac v). rewrite frac_small; lra.
    - ring. }
  split; [congruence|]. rewrite E. pose proof (frac_bounds v). pose proof (frac_bounds (- v)).
  destruct (Rlt_dec v 0) as [L|L].
  - split; [lra|]. split.
    + exists (- Zfloor (- v) - 1)%Z. unfold frac. rewrite minus_IZR, opp_IZR. ring.
    + unfold frac. split.
      * intros H1. split; [exact L|]. exists (- Zfloor (- v))%Z. rewrite opp_IZR. lra.
      * intros [_ [n ->]]. rewrite <- opp_IZR, Zfloor_IZR. ring.
  - split; [lra|]. split; [exists (Zfloor v); unfold frac; ring|]. split; [intros; lra|intros [? _]; lra].
Qed.
Lemma repeat_minus1 : exists v : f32, fin v /\ val (repeatS v) = 1 /\ val v = -1.
Proof.
  exists (b32_lit (-1) 0). split; [reflexivity|].
  assert (V : val (b32_lit (-1) 0) = -1) by apply (lit_Z (-1) ltac:(cbn; lia)). split; [|exact V].
  destruct (repeatS_val (b32_lit (-1) 0) eq_refl) as [_ ->]. rewrite V. unfold repeatVal.
  destruct (Rlt_dec (-1) 0); [|lra]. replace (- (-1)) with (IZR 1) by (cbn; lra). unfold frac. rewrite Zfloor_IZR.
  replace (1 - (1 - 1)) with 1 by lra. apply (rnd_Z 1). cbn; lia.
Qed.
Lemma repeat_tiny : let v : f32 := b32_lit (-1) (-60) in fin v /\ seq (repeatS v) f1 = true /\ seq (repeatLane v) f1 = true.
Proof. vm_compute. repeat split. Qed.
