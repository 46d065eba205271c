(** Accuracy of the SIMD logarithm. *)
From Coq Require Import ZArith Bool Reals Lra Lia Psatz List.
From Flocq Require Import Core.Core IEEE754.BinarySingleNaN IEEE754.Binary IEEE754.Bits.
From Flocq Require Mult_error.
From Verif.Model Require Import Outcome Scalar Vec Simd IntVec SimdInt Lanes Transc.
From Verif.Proofs Require Import OrdScalar F32Round F32Err NumericProofs LaneProofs IntConv Approx RealTrans ExpProofs.
Local Open Scope R_scope.

(** ** The bits of a positive normal number *)
Lemma norm_form : forall x : f32, fin x -> bpow radix2 (-126) <= val x ->
  exists m e H, x = B754_finite 24 128 false m e H /\ (2 ^ 23 <= Zpos m < 2 ^ 24)%Z /\ (-149 <= e <= 104)%Z.
Proof.
  intros x Fx Hx. pose proof (bpow_gt_0 radix2 (-126)) as P0.
  destruct x as [s|s|s pl E|s m e H]; try discriminate; [cbn in Hx; lra|].
  destruct s.
  { exfalso. pose proof (F2R_lt_0 radix2 (Float radix2 (Zneg m) e) eq_refl) as K. cbn [B2R cond_Zopp] in Hx.
    change (- Z.pos m)%Z with (Zneg m) in Hx. lra. }
  exists m, e, H. split; [reflexivity|].
  pose proof H as H'. unfold SpecFloat.bounded in H'. apply andb_prop in H'. destruct H' as [C L]. apply Zle_bool_imp_le in L.
  unfold SpecFloat.canonical_mantissa in C. apply Zeq_bool_eq in C. unfold SpecFloat.fexp, SpecFloat.emin in C.
  rewrite Digits.Zpos_digits2_pos in C.
  pose proof (Zdigits_correct radix2 (Zpos m)) as D. cbn [Z.abs] in D. change (radix2 : Z) with 2%Z in D.
  set (d := Zdigits radix2 (Zpos m)) in *.
  assert (De : (d = 24 \/ (e = -149 /\ d < 24))%Z) by lia.
  destruct De as [Hd|[He Hd]].
  - rewrite Hd in D. cbn in D. change (2 ^ 23)%Z with 8388608%Z. change (2 ^ 24)%Z with 16777216%Z.
    change (radix2 : Z) with 2%Z in *. cbn in D. lia.
  - exfalso. cbn [B2R cond_Zopp] in Hx. unfold F2R in Hx. cbn [Fnum Fexp] in Hx. subst e.
    assert (M : (Zpos m < 2 ^ 23)%Z).
    { apply Z.lt_le_trans with (1 := proj2 D). change (2 ^ 23)%Z with (Zpower 2 23). apply (Zpower_le radix2). lia. }
    apply IZR_lt in M. change (IZR (2 ^ 23)) with (bpow radix2 23) in M.
    assert (bpow radix2 (-126) = bpow radix2 23 * bpow radix2 (-149)) by (rewrite <- bpow_plus; reflexivity).
    pose proof (bpow_gt_0 radix2 (-149)). nra.
Qed.
Lemma norm_val : forall m e H, val (B754_finite 24 128 false m e H) = IZR (Zpos m) * bpow radix2 e.
Proof. reflexivity. Qed.
Lemma norm_bits : forall m e H, (2 ^ 23 <= Zpos m < 2 ^ 24)%Z ->
  bits_of_b32 (B754_finite 24 128 false m e H) = ((e + 150) * 2 ^ 23 + (Zpos m - 2 ^ 23))%Z.
Proof.
  intros m e H Hm. unfold bits_of_b32, bits_of_binary_float, join_bits.
  destruct (Z.leb_spec 0 (Zpos m - Zpower 2 23)) as [L|L].
  - rewrite Z.shiftl_mul_pow2 by lia. change (Zpower 2 23) with (2 ^ 23)%Z. change (2 ^ (8 - 1))%Z with 128%Z. f_equal. f_equal.
    cbn. lia.
  - exfalso. change (Zpower 2 23) with (2 ^ 23)%Z in L. lia.
Qed.
Lemma norm_bounded : forall m e, (2 ^ 23 <= Zpos m < 2 ^ 24)%Z -> (-149 <= e <= 104)%Z -> SpecFloat.bounded 24 128 m e = true.
Proof.
  intros m e Hm He. unfold SpecFloat.bounded. apply andb_true_intro. split; [|apply Zle_bool_true; lia].
  unfold SpecFloat.canonical_mantissa. apply Zeq_bool_true. unfold SpecFloat.fexp, SpecFloat.emin.
  rewrite Digits.Zpos_digits2_pos.
  replace (Zdigits radix2 (Zpos m)) with 24%Z; [lia|]. symmetry.
  apply (Zdigits_unique radix2). cbn. change (2 ^ 23)%Z with 8388608%Z in Hm. change (2 ^ 24)%Z with 16777216%Z in Hm. lia.
Qed.
(** the field that the code extracts *)
Lemma exp_field : forall m e H, (2 ^ 23 <= Zpos m < 2 ^ 24)%Z -> (-149 <= e <= 104)%Z ->
  Z.land (Z.shiftr (bits_of_b32 (B754_finite 24 128 false m e H)) 23) 255 = (e + 150)%Z.
Proof.
  intros m e H Hm He. rewrite norm_bits by exact Hm. rewrite Z.shiftr_div_pow2 by lia.
  rewrite Z.div_add_l by lia. rewrite (Z.div_small (Zpos m - 2 ^ 23)) by lia. rewrite Z.add_0_r.
  change 255%Z with (Z.ones 8). rewrite Z.land_ones by lia. apply Z.mod_small. lia.
Qed.
Lemma toI32_small : forall z, (- 2 ^ 31 <= z < 2 ^ 31)%Z -> toI32 z = z.
Proof.
  intros z Hz. unfold toI32. destruct (Z_lt_ge_dec z 0) as [N|P].
  - replace (z mod 2 ^ 32)%Z with (z + 2 ^ 32)%Z by (apply Z.mod_unique_pos with (-1)%Z; lia).
    destruct (Z.ltb_spec (z + 2 ^ 32) (2 ^ 31)); lia.
  - rewrite Z.mod_small by lia. destruct (Z.ltb_spec z (2 ^ 31)); lia.
Qed.
Lemma toI32_toU32 : forall z, (- 2 ^ 31 <= z < 2 ^ 31)%Z -> toI32 (toU32 z) = z.
Proof.
  intros z Hz. unfold toI32, toU32. rewrite Z.mod_mod by lia. apply toI32_small, Hz.
Qed.
(** lowering the exponent field by [k] divides by 2^k *)
Lemma lower_exponent : forall m e H k, (2 ^ 23 <= Zpos m < 2 ^ 24)%Z -> (-149 <= e <= 104)%Z ->
  (-149 <= e - k <= 104)%Z -> (-126 <= k <= 128)%Z ->
  exists H', intAsF (iadd (asInt (B754_finite 24 128 false m e H)) (ishl (toI32 (- k)) 23)) = B754_finite 24 128 false m (e - k) H'.
Proof.
  intros m e H k Hm He Hk Kk. exists (norm_bounded m (e - k) Hm Hk).
  unfold asInt. rewrite norm_bits by exact Hm.
  rewrite (toI32_small ((e + 150) * 2 ^ 23 + (Z.pos m - 2 ^ 23))) by lia.
  rewrite (toI32_small (- k)) by lia. unfold ishl. rewrite Z.shiftl_mul_pow2 by lia.
  rewrite (toI32_small (- k * 2 ^ 23)) by lia. unfold iadd.
  rewrite toI32_small by lia. unfold intAsF, toU32. rewrite Z.mod_small by lia.
  transitivity (b32_of_bits (bits_of_b32 (B754_finite 24 128 false m (e - k) (norm_bounded m (e - k) Hm Hk)))).
  - f_equal. rewrite norm_bits by exact Hm. lia.
  - unfold b32_of_bits, bits_of_b32. apply (binary_float_of_bits_of_binary_float 23 8 eq_refl eq_refl eq_refl).
Qed.

(** ** Exponent and mantissa *)
Lemma fourThirds_val : fin fourThirds /\ val fourThirds = 11184811 / 8388608.
Proof.
  destruct (lit_val 11184811 (-23) ltac:(lia) ltac:(lia)) as [F V]. split; [exact F|].
  change (val fourThirds = IZR 11184811 * bpow radix2 (-23)) in V. rewrite V. cbn. lra.
Qed.
Lemma bpow_neg : forall k, bpow radix2 (- k) * bpow radix2 k = 1.
Proof. intros k. rewrite <- bpow_plus. replace (- k + k)%Z with 0%Z by lia. reflexivity. Qed.
Lemma scale_range : forall W Y k, bpow radix2 (-126) <= W ->
  Rabs (Y - W * (11184811 / 8388608)) <= u24 * Rabs (W * (11184811 / 8388608)) + eta0 ->
  bpow radix2 k <= Y < bpow radix2 (k + 1) ->
  0.7499 <= W * bpow radix2 (- k) <= 1.5001.
Proof.
  intros W Y k HW HY [K1 K2]. pose proof (bpow_gt_0 radix2 (-126)) as P.
  assert (E0 : eta0 <= u24 * W).
  { unfold eta0, u24. replace (-150)%Z with (-24 + -126)%Z by lia. rewrite bpow_plus.
    apply Rmult_le_compat_l; [apply bpow_ge_0|exact HW]. }
  rewrite (Rabs_right (W * (11184811 / 8388608))) in HY by lra. apply Rabs_le_inv in HY. rewrite u24_val in HY, E0.
  rewrite bpow_plus in K2. change (bpow radix2 1) with 2 in K2.
  pose proof (bpow_gt_0 radix2 (- k)) as Pk. pose proof (bpow_neg k) as N.
  set (b := bpow radix2 (- k)) in *. set (c := bpow radix2 k) in *.
  assert (L1 : c * 0.7499 <= W) by lra. assert (L2 : W <= c * 1.5001) by lra.
  split.
  - apply Rle_trans with (c * 0.7499 * b); [right; replace (c * 0.7499 * b) with (0.7499 * (b * c)) by ring; rewrite N; ring|].
    apply Rmult_le_compat_r; lra.
  - apply Rle_trans with (c * 1.5001 * b); [|right; replace (c * 1.5001 * b) with (1.5001 * (b * c)) by ring; rewrite N; ring].
    apply Rmult_le_compat_r; lra.
Qed.
Lemma mul_overflow : forall a b : f32, fin a -> fin b -> Rlt_bool (Rabs (rnd (val a * val b))) maxF = false ->
  0 < val a -> 0 < val b -> (a * b)%sc = pinf.
Proof.
  intros a b Ha Hb E Pa Pb. cbn [smul ScalarF32]. unfold b32_mult. cbv zeta.
  pose proof (Binary.Bmult_correct 24 128 eq_refl eq_refl binop_nan_pl32 mode_NE a b) as H.
  change (round radix2 (SpecFloat.fexp 24 128) (round_mode mode_NE) (val a * val b)) with (rnd (val a * val b)) in H.
  rewrite E in H. apply overflow_inf in H.
  replace (xorb (Bsign 24 128 a) (Bsign 24 128 b)) with false in H; [exact H|].
  pose proof (sign_val a Ha) as Sa. pose proof (sign_val b Hb) as Sb.
  destruct (Bsign 24 128 a), (Bsign 24 128 b); cbn in *; try reflexivity; lra.
Qed.
Lemma log_reduce : forall w : f32, fin w -> bpow radix2 (-126) <= val w ->
  exists k, logExp w = toU32 k /\ (-126 <= k <= 128)%Z /\
    fin (logMant w) /\ val (logMant w) = val w * bpow radix2 (- k) /\ 0.7499 <= val (logMant w) <= 1.5001.
Proof.
  intros w Fw Hw. destruct fourThirds_val as [FF VF]. pose proof (bpow_gt_0 radix2 (-126)) as P0.
  assert (R : exists k, logExp w = toU32 k /\ (-126 <= k <= 128)%Z /\ 0.7499 <= val w * bpow radix2 (- k) <= 1.5001).
  { destruct (Rlt_bool (Rabs (rnd (val w * val fourThirds))) maxF) eqn:O.
    - assert (FY : fin (w * fourThirds)%sc /\ val (w * fourThirds)%sc = rnd (val w * val fourThirds)).
      { destruct (mul_fin w fourThirds Fw FF) as [N E]. rewrite RX_normal in E by exact O.
        assert (F : fin (w * fourThirds)%sc).
        { apply ext_fin; [exact N|]. rewrite E.
          destruct (Rlt_bool_spec (Rabs (rnd (val w * val fourThirds))) maxF) as [L|]; [|discriminate].
          apply Rabs_def2 in L. lra. }
        split; [exact F|]. rewrite <- fin_ext by exact F. exact E. }
      destruct FY as [FY VY]. pose proof (rnd_err (val w * val fourThirds)) as ER. rewrite <- VY in ER. rewrite VF in ER.
      assert (LY : bpow radix2 (-126) <= val (w * fourThirds)%sc).
      { rewrite VY. pose proof (rnd_lit 1 (-126) ltac:(lia) ltac:(lia)) as RL. rewrite Rmult_1_l in RL. rewrite <- RL.
        apply F32Round.rnd_le. rewrite VF. lra. }
      unfold logExp. set (y := (w * fourThirds)%sc) in *.
      destruct (norm_form y FY LY) as (m & e & H & Ey & Hm & He). exists (e + 23)%Z.
      rewrite Ey, exp_field by assumption. split; [f_equal; lia|]. split; [lia|].
      apply scale_range with (val y); [exact Hw|exact ER|].
      rewrite Ey, norm_val. replace (e + 23 + 1)%Z with (24 + e)%Z by lia. replace (e + 23)%Z with (23 + e)%Z by lia.
      rewrite !bpow_plus. pose proof (bpow_gt_0 radix2 e).
      change (bpow radix2 23) with (IZR (2 ^ 23)). change (bpow radix2 24) with (IZR (2 ^ 24)).
      destruct Hm as [Hm1 Hm2]. apply IZR_le in Hm1. apply IZR_lt in Hm2. split.
      + apply Rmult_le_compat_r; lra.
      + apply Rmult_lt_compat_r; lra.
    - exists 128%Z. unfold logExp. rewrite (mul_overflow w fourThirds Fw FF O) by (rewrite ?VF; lra).
      split; [vm_compute; reflexivity|]. split; [lia|].
      destruct (Rlt_bool_spec (Rabs (rnd (val w * val fourThirds))) maxF) as [|L]; [discriminate|].
      pose proof (rnd_err (val w * val fourThirds)) as ER. rewrite VF in *.
      assert (PY : 0 <= rnd (val w * (11184811 / 8388608))) by (rewrite <- rnd_0; apply F32Round.rnd_le; lra).
      rewrite Rabs_right in L by lra.
      pose proof (abs_B2R_lt_emax 24 128 w) as MX. rewrite Rabs_right in MX by lra.
      assert (LO : 0.7499 <= val w * bpow radix2 (- (128))).
      { 
        assert (E0 : eta0 <= u24 * val w).
        { unfold eta0, u24. replace (-150)%Z with (-24 + -126)%Z by lia. rewrite bpow_plus.
          apply Rmult_le_compat_l; [apply bpow_ge_0|exact Hw]. }
        apply Rabs_le_inv in ER. rewrite (Rabs_right (val w * (11184811/8388608))) in ER by lra. rewrite u24_val in ER, E0.
        pose proof (bpow_gt_0 radix2 (- (128))) as Pk. pose proof (bpow_neg 128) as N.
        set (b := bpow radix2 (- (128))) in *. set (c := maxF) in *.
        assert (L1 : c * 0.7499 <= val w) by lra.
        apply Rle_trans with (c * 0.7499 * b); [right; replace (c * 0.7499 * b) with (0.7499 * (b * c)) by ring; rewrite N; ring|].
        apply Rmult_le_compat_r; lra. }
      split; [exact LO|].
      pose proof (bpow_gt_0 radix2 (- (128))) as Pk. pose proof (bpow_neg 128) as N.
      set (b := bpow radix2 (- (128))) in *. set (c := maxF) in *.
      apply Rle_trans with (c * b); [apply Rmult_le_compat_r; lra|]. rewrite Rmult_comm, N. lra. }
  destruct R as (k & Ek & Hk & Rk). exists k. split; [exact Ek|]. split; [exact Hk|].
  unfold logMant. rewrite Ek, toI32_toU32 by lia.
  destruct (norm_form w Fw Hw) as (m & e & H & Ew & Hm & He).
  assert (Vw : val w = IZR (Zpos m) * bpow radix2 e) by (rewrite Ew; apply norm_val).
  assert (EK : val w * bpow radix2 (- k) = IZR (Zpos m) * bpow radix2 (e - k)).
  { rewrite Vw, Rmult_assoc, <- bpow_plus. reflexivity. }
  destruct Hm as [Hm1 Hm2]. pose proof Hm1 as Hm1'. pose proof Hm2 as Hm2'. apply IZR_le in Hm1'. apply IZR_lt in Hm2'.
  change (IZR (2 ^ 23)) with 8388608 in Hm1'. change (IZR (2 ^ 24)) with 16777216 in Hm2'.
  assert (Hek : (-24 <= e - k <= -23)%Z).
  { rewrite EK in Rk. pose proof (bpow_gt_0 radix2 (e - k)) as Pb. split.
    - destruct (Z_lt_ge_dec (e - k) (-24)) as [L|]; [|lia]. exfalso.
      pose proof (bpow_le radix2 (e - k) (-25) ltac:(lia)) as B. change (bpow radix2 (-25)) with (/ 33554432) in B. nra.
    - destruct (Z_lt_ge_dec (-23) (e - k)) as [L|]; [|lia]. exfalso.
      pose proof (bpow_le radix2 (-22) (e - k) ltac:(lia)) as B. change (bpow radix2 (-22)) with (/ 4194304) in B. nra. }
  destruct (lower_exponent m e H k (conj Hm1 Hm2) He ltac:(lia) Hk) as (H' & EL).
  rewrite <- Ew in EL. rewrite EL. split; [reflexivity|]. rewrite norm_val, <- EK. split; [reflexivity|exact Rk].
Qed.

(** ** The polynomial *)
Definition logP (X : R) : R := X * (2 + ((11184811 / 16777216) + ((2392281 / 8388608) + ((6710985 / 16777216) + ((2392281 / 8388608) + (1003625 / 4194304) * (X * X)) * (X * X)) * (X * X)) * (X * X)) * (X * X)).
Lemma log_poly_near : forall p (m ef : f32) k, fin m -> 0.7499 <= val m <= 1.5001 -> fin ef -> val ef = IZR k -> (-190 <= k <= 190)%Z ->
  let x := ((m - f1) / (m + f1))%sc in
  ap (simdfma p x (logPoly p (x * x)%sc) (ln2F * ef)%sc)
    (1453635 / 2097152 * IZR k + logP ((val m - 1) / (val m + 1))) 0.00001588 132.105.
Proof.
  intros p m ef k Fm Hm Fe Ve Hk x. subst x. pose proof u24_val as Hu. pose proof eta0_small as He. unfold logP.
  assert (AM : ap m (val m) 0 1.5001) by (apply ap_bnd with (Rabs (val m)); [apply ap_exact, Fm|apply Rabs_le; lra]).
  assert (AO : ap f1 1 0 1) by (apply ap_const; [lia|lia|cbn; lra|lra|lra]).
  assert (AE : ap ef (IZR k) 0 190).
  { rewrite <- Ve. apply ap_bnd with (Rabs (val ef)); [apply ap_exact, Fe|]. rewrite Ve, <- abs_IZR. apply IZR_le. lia. }
  set (X := (val m - 1) / (val m + 1)).
  assert (BX : Rabs X <= 0.2001).
  { unfold X, Rdiv. rewrite Rabs_mult, (Rabs_inv (val m + 1)), (Rabs_right (val m + 1)) by lra.
    apply Rmult_le_reg_r with (val m + 1); [lra|]. rewrite Rmult_assoc, Rinv_l, Rmult_1_r by lra. apply Rabs_le. lra. }
  assert (A1 : ap (m - f1)%sc (val m - 1) 0.00000002981 0.5001).
  { refine (ap_sub _ _ _ _ _ _ _ _ _ _ AM AO _ _ _); [apply Rabs_le; lra|rewrite ?Hu; lra..]. }
  assert (A2 : ap (m + f1)%sc (val m + 1) 0.0000001491 2.5001).
  { refine (ap_add _ _ _ _ _ _ _ _ _ _ AM AO _ _ _); [apply Rabs_le; lra|rewrite ?Hu; lra..]. }
  assert (AX : ap ((m - f1) / (m + f1))%sc X 0.00000004602 0.2001).
  { refine (ap_div _ _ _ _ _ _ _ _ 1.7499 _ _ A1 A2 _ _ _ BX _ _); rewrite ?Hu; lra. }
  set (x := ((m - f1) / (m + f1))%sc) in *.
  assert (A3 : ap (x * x)%sc (X * X) 0.00000002081 0.0400401) by (refine (ap_mul' _ _ _ _ _ _ _ _ _ _ AX AX _ _ _); rewrite ?Hu; lra).
  assert (KlogC5 : ap logC5 (1003625 / 4194304) 0 0.23929) by (apply ap_const; [lia|lia|cbn; lra|lra|lra]).
  assert (KlogC4 : ap logC4 (2392281 / 8388608) 0 0.28519) by (apply ap_const; [lia|lia|cbn; lra|lra|lra]).
  assert (KlogC3 : ap logC3 (6710985 / 16777216) 0 0.40001) by (apply ap_const; [lia|lia|cbn; lra|lra|lra]).
  assert (KlogC1 : ap logC1 (11184811 / 16777216) 0 0.66667) by (apply ap_const; [lia|lia|cbn; lra|lra|lra]).
  assert (Kf2 : ap f2 2 0 2) by (apply ap_const; [lia|lia|cbn; lra|lra|lra]).
  assert (T0 : ap _ ((2392281 / 8388608) + (1003625 / 4194304) * (X * X)) 0.00000002313 0.294772) by (refine (ap_fma' p _ _ _ _ _ _ _ _ _ _ _ _ 0.0095812 0.000000005552 _ _ KlogC5 A3 KlogC4 _ _ _ _ _ _); rewrite ?Hu; lra).
  assert (T1 : ap _ ((6710985 / 16777216) + ((2392281 / 8388608) + (1003625 / 4194304) * (X * X)) * (X * X)) 0.00000003232 0.411813) by (refine (ap_fma' p _ _ _ _ _ _ _ _ _ _ _ _ 0.011803 0.000000007765 _ _ T0 A3 KlogC3 _ _ _ _ _ _); rewrite ?Hu; lra).
  assert (T2 : ap _ ((2392281 / 8388608) + ((6710985 / 16777216) + ((2392281 / 8388608) + (1003625 / 4194304) * (X * X)) * (X * X)) * (X * X)) 0.00000002884 0.301680) by (refine (ap_fma' p _ _ _ _ _ _ _ _ _ _ _ _ 0.016490 0.00000001085 _ _ T1 A3 KlogC4 _ _ _ _ _ _); rewrite ?Hu; lra).
  assert (T3 : ap _ ((11184811 / 16777216) + ((2392281 / 8388608) + ((6710985 / 16777216) + ((2392281 / 8388608) + (1003625 / 4194304) * (X * X)) * (X * X)) * (X * X)) * (X * X)) 0.00000004862 0.678750) by (refine (ap_fma' p _ _ _ _ _ _ _ _ _ _ _ _ 0.012080 0.000000008154 _ _ T2 A3 KlogC1 _ _ _ _ _ _); rewrite ?Hu; lra).
  assert (T4 : ap _ (2 + ((11184811 / 16777216) + ((2392281 / 8388608) + ((6710985 / 16777216) + ((2392281 / 8388608) + (1003625 / 4194304) * (X * X)) * (X * X)) * (X * X)) * (X * X)) * (X * X)) 0.0000001386 2.02718) by (refine (ap_fma' p _ _ _ _ _ _ _ _ _ _ _ _ 0.027178 0.00000001770 _ _ T3 A3 Kf2 _ _ _ _ _ _); rewrite ?Hu; lra).
  assert (KL : ap ln2F (1453635 / 2097152) 0 0.69315) by (apply ap_const; [lia|lia|cbn; lra|lra|lra]).
  assert (AL : ap (ln2F * ef)%sc (1453635 / 2097152 * IZR k) 0.000007850 131.699) by (refine (ap_mul' _ _ _ _ _ _ _ _ _ _ KL AE _ _ _); rewrite ?Hu; lra).
  assert (R : ap (simdfma p x (logPoly p (x * x)%sc) (ln2F * ef)%sc) (1453635 / 2097152 * IZR k + X * (2 + ((11184811 / 16777216) + ((2392281 / 8388608) + ((6710985 / 16777216) + ((2392281 / 8388608) + (1003625 / 4194304) * (X * X)) * (X * X)) * (X * X)) * (X * X)) * (X * X))) 0.00001588 132.105) by (refine (ap_fma' p _ _ _ _ _ _ _ _ _ _ _ _ 0.40564 0.000007996 _ _ AX T4 AL _ _ _ _ _ _); rewrite ?Hu; lra).
  exact R.
Qed.
Lemma logP_near : forall X, Rabs X <= 0.2001 -> Rabs (logP X - at2 X) <= 0.000037.
Proof.
  intros X H. pose proof (at2_bound 5 X ltac:(lra)) as T.
  assert (T' : Rabs (at2 X - atS 5 X) <= 0.000000001).
  { eapply Rle_trans; [exact T|]. 
    assert (P : Rabs X ^ 13 <= 0.2001 ^ 13) by (apply pow_incr; split; [apply Rabs_pos|exact H]).
    change (2 * 5 + 3)%nat with 13%nat. cbn [INR]. cbn [pow] in P |- *. lra. }
  assert (D : Rabs (logP X - atS 5 X) <= 0.00003695).
  { pose proof (pow_bound X _ 3 0.00802 H ltac:(cbn [pow]; lra)). pose proof (pow_bound X _ 5 0.000321 H ltac:(cbn [pow]; lra)) as P5.
    pose proof (pow_bound X _ 2 0.04005 H ltac:(cbn [pow]; lra)). pose proof (pow_bound X _ 4 0.00161 H ltac:(cbn [pow]; lra)).
    pose proof (pow_bound X _ 6 0.0000643 H ltac:(cbn [pow]; lra)).
    assert (S2 : 0 <= X ^ 2) by (cbn; nra).
    set (g := (2392281/8388608 - 2/5) + (6710985/16777216 - 2/7) * X^2 + (2392281/8388608 - 2/9) * X^4 + (1003625/4194304 - 2/11) * X^6).
    replace (logP X - atS 5 X) with ((11184811/16777216 - 2/3) * X^3 + X^5 * g).
    - assert (G : Rabs g <= 0.115) by (unfold g; apply Rabs_le; lra).
      eapply Rle_trans; [apply Rabs_triang|]. rewrite (Rabs_mult (X^5)).
      assert (Rabs (X^5) * Rabs g <= 0.000321 * 0.115) by (apply Rmult_le_compat; try apply Rabs_pos; [apply Rabs_le; exact P5|exact G]).
      assert (Rabs ((11184811/16777216 - 2/3) * X^3) <= 0.000000001) by (apply Rabs_le; lra). lra.
    - unfold g, logP. cbn [atS INR Nat.mul Nat.add]. cbn [INR]. field. }
  replace (logP X - at2 X) with ((logP X - atS 5 X) + - (at2 X - atS 5 X)) by ring.
  eapply Rle_trans; [apply Rabs_triang|]. rewrite Rabs_Ropp. lra.
Qed.

(** ** The result *)
Lemma fltMin_val : fin (fltMin : f32) /\ val (fltMin : f32) = bpow radix2 (-126).
Proof.
  destruct (lit_exact 1 (-126) ltac:(lia) ltac:(lia)) as [A B]. split; [exact A|].
  change (fltMin : f32) with (slit 1 (-126) : f32). rewrite B. ring.
Qed.
Lemma pos_ge_min : forall v : f32, fin v -> 0 < val v -> bpow radix2 (-149) <= val v.
Proof.
  intros v Fv Pv. destruct v as [s|s|s pl E|s m e H]; try discriminate; [cbn in Pv; lra|].
  destruct s.
  { exfalso. pose proof (F2R_lt_0 radix2 (Float radix2 (Zneg m) e) eq_refl) as K. cbn [B2R cond_Zopp] in Pv.
    change (- Z.pos m)%Z with (Zneg m) in Pv. lra. }
  rewrite norm_val. pose proof H as H'. unfold SpecFloat.bounded in H'. apply andb_prop in H'. destruct H' as [C _].
  unfold SpecFloat.canonical_mantissa in C. apply Zeq_bool_eq in C. unfold SpecFloat.fexp, SpecFloat.emin in C.
  assert (He : (-149 <= e)%Z) by lia. pose proof (bpow_le radix2 _ _ He) as B.
  assert (M : 1 <= IZR (Zpos m)) by (apply IZR_le; lia). pose proof (bpow_gt_0 radix2 e). nra.
Qed.
Lemma logScaled_normal : forall v : f32, fin v -> 0 < val v ->
  exists o w, logScaled v = (o, w) /\ fin w /\ bpow radix2 (-126) <= val w /\
    val w = val v * (if o then bpow radix2 64 else 1) /\ (o = false -> w = v) /\ (1 <= val v -> o = false).
Proof.
  intros v Fv Pv. destruct fltMin_val as [Fm Vm]. unfold logScaled. rewrite slt_fin by assumption. rewrite Vm.
  destruct (Rlt_bool_spec (val v) (bpow radix2 (-126))) as [L|G].
  - destruct (lit_val 1 64 ltac:(lia) ltac:(lia)) as [Fl Vl]. rewrite Rmult_1_l in Vl.
    assert (X : rnd (val v * bpow radix2 64) = val v * bpow radix2 64).
    { apply round_generic; [apply valid_rnd_round_mode|]. assert (P24 : Prec_gt_0 24) by reflexivity.
      apply (Mult_error.mult_bpow_pos_exact_FLT radix2 (-149) 24); [apply (generic_format_B2R 24 128)|lia]. }
    assert (U : bpow radix2 (-126) * bpow radix2 64 <= 1) by (rewrite <- bpow_plus; apply (bpow_le radix2 _ 0); lia).
    pose proof (bpow_gt_0 radix2 64) as P64.
    destruct (mul_small v (slit 1 64) Fv Fl) as [Fw Vw].
    { rewrite Vl. apply small_le with 1; [|lra]. rewrite Rabs_right by nra. nra. }
    rewrite Vl, X in Vw. exists true, (v * slit 1 64)%sc. split; [reflexivity|]. split; [exact Fw|]. split.
    + rewrite Vw. pose proof (pos_ge_min v Fv Pv) as B. apply Rle_trans with (bpow radix2 (-149) * bpow radix2 64).
      * rewrite <- bpow_plus. apply bpow_le. lia.
      * apply Rmult_le_compat_r; lra.
    + split; [exact Vw|]. split; [discriminate|]. intros B.
      assert (bpow radix2 (-126) <= 1) by (apply (bpow_le radix2 _ 0); lia). lra.
  - exists false, v. split; [reflexivity|]. split; [exact Fv|]. split; [exact G|]. split; [ring|]. split; reflexivity.
Qed.
Lemma pos_selects : forall w : f32, fin w -> 0 < val w ->
  seq w pinf = false /\ seq w ninf = false /\ slt w f0 = false /\ seq w qnan = false /\ seq w f0 = false.
Proof.
  intros w Fw Pw. destruct f0_f as [F0 V0].
  assert (S : slt w f0 = false) by (rewrite slt_fin by assumption; apply Rlt_bool_false; rewrite V0; lra).
  assert (Q : seq w f0 = false).
  { rewrite seq_ext by (apply fin_num; assumption). rewrite !fin_ext by assumption. apply Req_bool_false. rewrite V0. lra. }
  repeat split; try assumption; destruct w as [s|s|s pl E|s m e H]; try discriminate; try reflexivity; destruct s; reflexivity.
Qed.
Lemma ln_bpow : forall x k, 0 < x -> ln (x * bpow radix2 k) = ln x + IZR k * ln 2.
Proof.
  intros x k Hx. rewrite ln_mult by (try exact Hx; apply bpow_gt_0). f_equal.
  rewrite <- exp_pow2, ln_exp. reflexivity.
Qed.
Lemma logLane_accurate : forall p (v : f32), p <> GEN -> (p = NEON -> 1 <= val v) -> fin v -> 0 < val v ->
  fin (logLane p v) /\ Rabs (val (logLane p v) - ln (val v)) <= 0.00006.
Proof.
  intros p v Hp HN Fv Pv. destruct (logScaled_normal v Fv Pv) as (o & w & E & Fw & Lw & Vw & Ow & O1).
  assert (Pw : 0 < val w) by (pose proof (bpow_gt_0 radix2 (-126)); lra).
  destruct (pos_selects w Fw Pw) as (S1 & S2 & S3 & S4 & S5).
  destruct (log_reduce w Fw Lw) as (k & Ek & Hk & Fm & Vm & Bm).
  assert (EL : logLane p v = logCore p v) by (unfold logLane; rewrite E; cbn [snd]; rewrite S1, S2, S3, S4, S5; reflexivity).
  rewrite EL. unfold logCore. rewrite E, Ek. cbv zeta.
  set (k' := (if o then k - 64 else k)%Z).
  assert (Lv : ln (val v) = at2 ((val (logMant w) - 1) / (val (logMant w) + 1)) + IZR k' * ln 2).
  { rewrite <- ln_at2 by lra. rewrite Vm. rewrite ln_bpow by exact Pw. rewrite Vw. unfold k'. destruct o.
    - rewrite ln_bpow by exact Pv. rewrite opp_IZR, minus_IZR. ring.
    - rewrite Rmult_1_r, opp_IZR. ring. }
  assert (Hk' : (-190 <= k' <= 190)%Z) by (unfold k'; destruct o; lia).
  assert (Fe : fin (f32ofU32 p (if o then toU32 (toU32 k - 64) else toU32 k)) /\
               val (f32ofU32 p (if o then toU32 (toU32 k - 64) else toU32 k)) = IZR k').
  { assert (T : (if o then toU32 (toU32 k - 64) else toU32 k) = toU32 k').
    { unfold k'. destruct o; [|reflexivity]. unfold toU32. rewrite Zminus_mod_idemp_l. reflexivity. }
    rewrite T.
    destruct (Z_lt_ge_dec k' 0) as [N|N].
    - destruct (match p with NEON => true | _ => false end) eqn:Ep.
      + exfalso. destruct p; try discriminate. specialize (HN eq_refl). specialize (O1 HN). subst o. specialize (Ow eq_refl). subst w.
        unfold k' in N. rewrite Vm in Bm. pose proof (bpow_le radix2 1 (- k) ltac:(lia)) as B. change (bpow radix2 1) with 2 in B. nra.
      + assert (EE : f32ofU32 p (toU32 k') = slit k' 0) by (destruct p; try discriminate; try congruence; cbn [f32ofU32]; rewrite toI32_toU32 by lia; reflexivity).
        rewrite EE. apply lit_Z. lia.
    - assert (EE : f32ofU32 p (toU32 k') = slit k' 0).
      { destruct p; try congruence; cbn [f32ofU32]; rewrite ?toI32_toU32 by lia; try reflexivity.
        unfold toU32. rewrite Z.mod_small by lia. reflexivity. }
      rewrite EE. apply lit_Z. lia. }
  destruct Fe as [Fe Ve].
  destruct (log_poly_near p (logMant w) _ k' Fm Bm Fe Ve Hk') as (Fr & Er & _). split; [exact Fr|].
  set (X := (val (logMant w) - 1) / (val (logMant w) + 1)) in *.
  assert (BX : Rabs X <= 0.2001).
  { unfold X, Rdiv. rewrite Rabs_mult, (Rabs_inv (val (logMant w) + 1)), (Rabs_right (val (logMant w) + 1)) by lra.
    apply Rmult_le_reg_r with (val (logMant w) + 1); [lra|]. rewrite Rmult_assoc, Rinv_l, Rmult_1_r by lra. apply Rabs_le. lra. }
  pose proof (logP_near X BX) as PN. rewrite Lv.
  match goal with |- Rabs (?r - _) <= _ => set (r0 := r) in * end.
  replace (r0 - (at2 X + IZR k' * ln 2)) with
    ((r0 - (1453635 / 2097152 * IZR k' + logP X)) + ((logP X - at2 X) + (1453635 / 2097152 - ln 2) * IZR k')) by ring.
  eapply Rle_trans; [apply Rabs_triang|]. eapply Rle_trans; [apply Rplus_le_compat_l, Rabs_triang|].
  rewrite (Rabs_mult (1453635 / 2097152 - ln 2)).
  pose proof ln_2_bounds as [L U].
  assert (A1 : Rabs (1453635 / 2097152 - ln 2) <= 0.00000001) by (apply Rabs_le; lra).
  assert (A2 : Rabs (IZR k') <= 190) by (rewrite <- abs_IZR; apply IZR_le; lia).
  assert (Rabs (1453635 / 2097152 - ln 2) * Rabs (IZR k') <= 0.00000001 * 190) by (apply Rmult_le_compat; try apply Rabs_pos; assumption).
  lra.
Qed.
