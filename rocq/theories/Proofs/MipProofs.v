(** Mip counts and sizes. *)
From Coq Require Import ZArith Reals Bool List Lia Lra Psatz.
From Flocq Require Import Core.Core.
From Verif.Model Require Import Outcome Scalar Vec Simd IntVec SimdInt.
From Verif.Spec Require Import OrderSpec IntSpec.
From Verif.Proofs Require Import IntProofs IntArith IntOrder.
Import ListNotations.
Local Open Scope Z_scope.

Notation fexp := (FLT_exp (-149) 24).
Notation fmt := (generic_format radix2 fexp).
Local Instance prec24 : Prec_gt_0 24. Proof. reflexivity. Qed.
Local Instance valid24 : Valid_exp fexp := FLT_exp_valid (-149) 24.

Lemma fmt_dyadic : forall m e, Z.abs m < 2 ^ 24 -> -149 <= e -> fmt (F2R (Float radix2 m e)).
Proof.
  intros m e Hm He. apply generic_format_FLT. exists (Float radix2 m e); [reflexivity | exact Hm | exact He].
Qed.
Lemma fmt_int : forall z, Z.abs z <= 2 ^ 24 -> fmt (IZR z).
Proof.
  intros z Hz. destruct (Z.eq_dec (Z.abs z) (2 ^ 24)) as [E|N].
  - replace (IZR z) with (F2R (Float radix2 (Z.sgn z) 24)).
    + apply fmt_dyadic; [|lia]. destruct z; cbn; lia.
    + unfold F2R; cbn [Fnum Fexp]. change (bpow radix2 24) with (IZR (2 ^ 24)).
      rewrite <- mult_IZR. f_equal. lia.
  - replace (IZR z) with (F2R (Float radix2 z 0)) by (unfold F2R; cbn; ring).
    apply fmt_dyadic; lia.
Qed.
Lemma fmt_shift : forall m e, Z.abs m < 2 ^ 24 -> 0 <= e -> fmt (IZR (m * 2 ^ e)).
Proof.
  intros m e Hm He. replace (IZR (m * 2 ^ e)) with (F2R (Float radix2 m e)).
  - apply fmt_dyadic; lia.
  - unfold F2R; cbn [Fnum Fexp]. rewrite mult_IZR. change (2 ^ e) with (radix2 ^ e)%Z. rewrite (IZR_Zpower radix2 e He). reflexivity.
Qed.
Lemma rnd_id : forall x, fmt x -> rnd32 x = x.
Proof. intros. apply round_generic; [apply valid_rnd_N | assumption]. Qed.
Lemma rnd_le : forall x y, (x <= y)%R -> (rnd32 x <= rnd32 y)%R.
Proof. intros. apply round_le; [apply valid24 | apply valid_rnd_N | assumption]. Qed.
Lemma rnd_near : forall x f, fmt f -> (Rabs (rnd32 x - x) <= Rabs (f - x))%R.
Proof. intros x f Hf. apply (round_N_pt radix2 fexp (fun x => negb (Z.even x)) x). exact Hf. Qed.
Lemma rnd_fmt : forall x, fmt (rnd32 x).
Proof. intros. apply generic_format_round; [apply valid24 | apply valid_rnd_N]. Qed.

(** ** Logarithms *)
Local Open Scope R_scope.
Lemma ln2_bounds : 3 / 5 < ln 2 < 1.
Proof.
  split.
  - assert (E : exp 3 < 2 ^ 5).
    { replace 3 with (1 + 1 + 1) by ring. rewrite !exp_plus. pose proof exp_le_3. pose proof (exp_pos 1). nra. }
    assert (L : 3 < ln (2 ^ 5)).
    { rewrite <- (ln_exp 3). apply ln_increasing; [apply exp_pos | exact E]. }
    rewrite ln_pow in L by lra. simpl INR in L. lra.
  - replace 1 with (ln (exp 1)) by apply ln_exp. apply ln_increasing; [lra|]. pose proof (exp_ineq1 1 ltac:(lra)). lra.
Qed.
Lemma ln_mono : forall x y, 0 < x -> x <= y -> ln x <= ln y.
Proof. intros x y Hx [H| ->]; [left; apply ln_increasing; assumption | lra]. Qed.
Lemma ln_1m_upper : forall u, u < 1 -> ln (1 - u) <= - u.
Proof.
  intros u Hu. rewrite <- (ln_exp (- u)). apply ln_mono; [lra|].
  pose proof (exp_ineq1_le (- u)). lra.
Qed.
Lemma ln_1m_lower : forall u, u < 1 -> - (u / (1 - u)) <= ln (1 - u).
Proof.
  intros u Hu. replace (1 - u) with (/ (1 + u / (1 - u))) at 2 by (field; lra).
  assert (P : 0 < 1 + u / (1 - u)).
  { replace (1 + u / (1 - u)) with (/ (1 - u)) by (field; lra). apply Rinv_0_lt_compat. lra. }
  rewrite ln_Rinv by assumption. apply Ropp_le_contravar.
  apply Rle_trans with (ln (exp (u / (1 - u)))); [|right; apply ln_exp].
  apply ln_mono; [assumption|]. apply exp_ineq1_le.
Qed.
Definition log2 (x : R) : R := ln x / ln 2.
Lemma log2_le : forall x y, 0 < x -> x <= y -> log2 x <= log2 y.
Proof.
  intros x y Hx Hy. unfold log2, Rdiv. pose proof ln2_bounds.
  apply Rmult_le_compat_r; [left; apply Rinv_0_lt_compat; lra | apply ln_mono; assumption].
Qed.
Lemma log2_pow : forall n, (0 <= n)%Z -> log2 (IZR (2 ^ n)) = IZR n.
Proof.
  intros n Hn. unfold log2. pose proof ln2_bounds.
  rewrite <- (Z2Nat.id n) by assumption. rewrite <- pow_IZR, ln_pow by lra.
  rewrite <- INR_IZR_INZ. field. lra.
Qed.
Lemma log2_mul : forall x y, 0 < x -> 0 < y -> log2 (x * y) = log2 x + log2 y.
Proof. intros. unfold log2. rewrite ln_mult by assumption. pose proof ln2_bounds. field. lra. Qed.

(** rounding a number near the integer n *)
Lemma fmt_below : forall n, (1 <= n <= 32)%Z -> fmt (IZR n - / 524288).
Proof.
  intros n Hn. replace (IZR n - / 524288) with (F2R (Float radix2 (n * 524288 - 1) (-19))).
  - apply fmt_dyadic; lia.
  - unfold F2R; cbn [Fnum Fexp]. change (bpow radix2 (-19)) with (/ IZR 524288).
    rewrite minus_IZR, mult_IZR. field.
Qed.
Lemma round_stays : forall x n, (1 <= n <= 32)%Z -> x < IZR n - / 1048576 -> rnd32 x < IZR n.
Proof.
  intros x n Hn Hx. pose proof (fmt_below n Hn) as F.
  destruct (Rle_or_lt x (IZR n - / 524288)) as [L|G].
  - apply rnd_le in L. rewrite (rnd_id _ F) in L. lra.
  - destruct (Rlt_or_le (rnd32 x) (IZR n)) as [K|K]; [exact K|].
    pose proof (rnd_near x _ F) as N. rewrite Rabs_right in N by lra. rewrite Rabs_left in N by lra. lra.
Qed.
Lemma fmt_grid : forall y, fmt y -> 16 <= y -> exists z, y = IZR z / 524288.
Proof.
  intros y Hy Hb. unfold generic_format in Hy. unfold scaled_mantissa, cexp in Hy.
  set (e := fexp (mag radix2 y)) in *.
  assert (E : (-19 <= e)%Z).
  { assert (4 < mag radix2 y)%Z.
    { apply mag_gt_bpow. rewrite Rabs_right by lra. change (bpow radix2 4) with 16. exact Hb. }
    unfold e, FLT_exp. lia. }
  exists (Ztrunc (y * bpow radix2 (- e)) * 2 ^ (e + 19))%Z.
  rewrite Hy at 1. unfold F2R; cbn [Fnum Fexp]. rewrite mult_IZR.
  change (2 ^ (e + 19))%Z with (radix2 ^ (e + 19))%Z. rewrite (IZR_Zpower radix2) by lia. rewrite bpow_plus. change (bpow radix2 19) with 524288.
  field.
Qed.
Lemma round_jumps : forall x n, (17 <= n <= 32)%Z -> IZR n - / 1048576 < x <= IZR n -> rnd32 x = IZR n.
Proof.
  intros x n Hn [Hl Hu].
  assert (F : fmt (IZR n)) by (apply fmt_int; lia).
  assert (U : rnd32 x <= IZR n) by (rewrite <- (rnd_id _ F); apply rnd_le; exact Hu).
  pose proof (rnd_near x _ F) as N.
  assert (B : 16 <= rnd32 x).
  { rewrite <- (rnd_id 16) by (apply (fmt_int 16); lia). apply rnd_le.
    assert (17 <= IZR n) by (apply (IZR_le 17); lia). lra. }
  destruct (fmt_grid _ (rnd_fmt x) B) as [z Z].
  destruct (Req_dec (rnd32 x) (IZR n)) as [E|D]; [exact E | exfalso].
  assert (L : rnd32 x <= IZR n - / 524288).
  { rewrite Z in *. assert (C : IZR z / 524288 < IZR n) by lra.
    assert (z < n * 524288)%Z by (apply lt_IZR; rewrite mult_IZR; lra).
    assert (IZR z <= IZR (n * 524288 - 1)) by (apply IZR_le; lia).
    rewrite minus_IZR, mult_IZR in H0. lra. }
  rewrite Rabs_left in N by lra. rewrite Rabs_right in N by lra. lra.
Qed.
Local Close Scope R_scope.

(** The size as a float stays within bounds that are floats themselves. *)
Lemma mip_log : forall size k, 0 <= k <= 31 -> 2 ^ k <= size < 2 ^ (k + 1) ->
  (IZR k <= log2f (rnd32 (IZR size)) /\ log2f (rnd32 (IZR size)) <= IZR (k + 1))%R.
Proof.
  intros size k Hk Hs.
  assert (P : forall n, 0 <= n <= 32 -> fmt (IZR (2 ^ n))).
  { intros n Hn. replace (2 ^ n) with (1 * 2 ^ n) by ring. apply fmt_shift; lia. }
  assert (L : (IZR (2 ^ k) <= rnd32 (IZR size))%R).
  { rewrite <- (rnd_id (IZR (2 ^ k))) by (apply P; lia). apply rnd_le, IZR_le. lia. }
  assert (U : (rnd32 (IZR size) <= IZR (2 ^ (k + 1)))%R).
  { rewrite <- (rnd_id (IZR (2 ^ (k + 1)))) by (apply P; lia). apply rnd_le, IZR_le. lia. }
  assert (Z2 : (0 < IZR (2 ^ k))%R) by (apply (IZR_lt 0); apply Z.pow_pos_nonneg; lia).
  unfold log2f. fold (log2 (rnd32 (IZR size))). split.
  - rewrite <- (rnd_id (IZR k)) by (apply fmt_int; lia). apply rnd_le.
    rewrite <- (log2_pow k) by lia. apply log2_le; assumption.
  - rewrite <- (rnd_id (IZR (k + 1))) by (apply fmt_int; lia). apply rnd_le.
    rewrite <- (log2_pow (k + 1)) by lia. apply log2_le; lra.
Qed.

(** gap: 2^n - 2^n / 2^j as a product *)
Lemma log2_gap : forall n j, 0 <= n -> (0 < j)%Z ->
  let u := (/ IZR (2 ^ j))%R in
  (log2 (IZR (2 ^ n) * (1 - u)) = IZR n + log2 (1 - u))%R /\ (0 < u <= / 2)%R.
Proof.
  intros n j Hn Hj u.
  assert (B : (2 <= IZR (2 ^ j))%R).
  { apply (IZR_le 2). change 2 with (2 ^ 1) at 1. apply Z.pow_le_mono_r; lia. }
  assert (U : (0 < u <= / 2)%R).
  { unfold u. split; [apply Rinv_0_lt_compat; lra | apply Rinv_le_contravar; lra]. }
  split; [|exact U]. rewrite log2_mul.
  - rewrite log2_pow by assumption. reflexivity.
  - apply (IZR_lt 0). apply Z.pow_pos_nonneg; lia.
  - lra.
Qed.

(** Right: at least 2^-20 of the next power of two away from it. *)
Lemma mipCount_right : forall size k, 0 <= k <= 31 -> 2 ^ k <= size < 2 ^ (k + 1) ->
  2 ^ 20 * (2 ^ (k + 1) - size) >= 2 ^ (k + 1) -> calcMipCount size = Ok (k + 1).
Proof.
  intros size k Hk Hs Hg.
  pose proof (Z.pow_pos_nonneg 2 k ltac:(lia) ltac:(lia)) as Pk.
  unfold calcMipCount. destruct (Z.eqb_spec size 0); [lia|].
  destruct (mip_log size k Hk Hs) as [L U].
  assert (S : (log2f (rnd32 (IZR size)) < IZR (k + 1))%R).
  { unfold log2f. apply round_stays; [lia|]. fold (log2 (rnd32 (IZR size))).
    set (u := (/ IZR (2 ^ 20))%R).
    destruct (log2_gap (k + 1) 20 ltac:(lia) ltac:(lia)) as [G Hu]. fold u in G, Hu.
    assert (B : (rnd32 (IZR size) <= IZR (2 ^ (k + 1)) * (1 - u))%R).
    { assert (R0 : (IZR size <= IZR (2 ^ (k + 1)) * (1 - u))%R).
      { assert (I : (IZR (2 ^ 20) * (IZR (2 ^ (k + 1)) - IZR size) >= IZR (2 ^ (k + 1)))%R)
          by (rewrite <- minus_IZR, <- mult_IZR; apply IZR_ge; exact Hg).
        unfold u. change (IZR (2 ^ 20)) with 1048576%R in *. lra. }
      destruct (Z.le_gt_cases 24 (k + 1)) as [K|K].
      - assert (E : (IZR (2 ^ (k + 1)) * (1 - u) = IZR ((2 ^ 20 - 1) * 2 ^ (k + 1 - 20)))%R).
        { rewrite mult_IZR. replace (2 ^ (k + 1)) with (2 ^ 20 * 2 ^ (k + 1 - 20))
            by (rewrite <- Z.pow_add_r by lia; f_equal; lia).
          rewrite mult_IZR. unfold u. change (IZR (2 ^ 20)) with 1048576%R.
          change (IZR (2 ^ 20 - 1)) with 1048575%R. field. }
        rewrite E in *. rewrite <- (rnd_id (IZR ((2 ^ 20 - 1) * 2 ^ (k + 1 - 20)))) by (apply fmt_shift; lia).
        apply rnd_le. exact R0.
      - rewrite (rnd_id (IZR size)); [exact R0|]. apply fmt_int.
        assert (2 ^ (k + 1) <= 2 ^ 24) by (apply Z.pow_le_mono_r; lia). lia. }
    assert (Z1 : (IZR (2 ^ k) <= rnd32 (IZR size))%R).
    { rewrite <- (rnd_id (IZR (2 ^ k))); [apply rnd_le, IZR_le; lia|].
      replace (2 ^ k) with (1 * 2 ^ k) by ring. apply fmt_shift; lia. }
    assert (Z2 : (0 < IZR (2 ^ k))%R) by (apply (IZR_lt 0); lia).
    apply log2_le in B; [|lra]. rewrite G in B.
    pose proof ln2_bounds as B2. pose proof (ln_1m_upper u ltac:(lra)) as LU.
    assert (C : (log2 (1 - u) < - u)%R).
    { unfold log2. apply Rmult_lt_reg_r with (ln 2); [lra|].
      replace (ln (1 - u) / ln 2 * ln 2)%R with (ln (1 - u)) by (field; lra). nra. }
    unfold u in C at 2. change (IZR (2 ^ 20)) with 1048576%R in C. lra. }
  rewrite (Zfloor_imp k); [|split; assumption]. rewrite Z.mod_small by lia. reflexivity.
Qed.

(** Wrong: within 2^-21 of the next power of two, from 2^21 on. *)
Lemma mipCount_wrong : forall size k, 16 <= k <= 31 -> 2 ^ k <= size < 2 ^ (k + 1) ->
  2 ^ 21 * (2 ^ (k + 1) - size) <= 2 ^ (k + 1) -> calcMipCount size = Ok (k + 2).
Proof.
  intros size k Hk Hs Hg.
  pose proof (Z.pow_pos_nonneg 2 k ltac:(lia) ltac:(lia)) as Pk.
  unfold calcMipCount. destruct (Z.eqb_spec size 0); [lia|].
  set (u := (/ IZR (2 ^ 21))%R).
  destruct (log2_gap (k + 1) 21 ltac:(lia) ltac:(lia)) as [G Hu]. fold u in G, Hu.
  assert (B : (IZR (2 ^ (k + 1)) * (1 - u) <= rnd32 (IZR size))%R).
  { assert (R0 : (IZR (2 ^ (k + 1)) * (1 - u) <= IZR size)%R).
    { assert (I : (IZR (2 ^ 21) * (IZR (2 ^ (k + 1)) - IZR size) <= IZR (2 ^ (k + 1)))%R)
        by (rewrite <- minus_IZR, <- mult_IZR; apply IZR_le; exact Hg).
      unfold u. change (IZR (2 ^ 21)) with 2097152%R in *. lra. }
    destruct (Z.le_gt_cases 24 (k + 1)) as [K|K].
    - assert (E : (IZR (2 ^ (k + 1)) * (1 - u) = IZR ((2 ^ 21 - 1) * 2 ^ (k + 1 - 21)))%R).
      { rewrite mult_IZR. replace (2 ^ (k + 1)) with (2 ^ 21 * 2 ^ (k + 1 - 21))
          by (rewrite <- Z.pow_add_r by lia; f_equal; lia).
        rewrite mult_IZR. unfold u. change (IZR (2 ^ 21)) with 2097152%R.
        change (IZR (2 ^ 21 - 1)) with 2097151%R. field. }
      rewrite E in *. rewrite <- (rnd_id (IZR ((2 ^ 21 - 1) * 2 ^ (k + 1 - 21)))) by (apply fmt_shift; lia).
      apply rnd_le. exact R0.
    - rewrite (rnd_id (IZR size)); [exact R0|]. apply fmt_int.
      assert (2 ^ (k + 1) <= 2 ^ 24) by (apply Z.pow_le_mono_r; lia). lia. }
  assert (U : (rnd32 (IZR size) <= IZR (2 ^ (k + 1)))%R).
  { rewrite <- (rnd_id (IZR (2 ^ (k + 1)))); [apply rnd_le, IZR_le; lia|].
    replace (2 ^ (k + 1)) with (1 * 2 ^ (k + 1)) by ring. apply fmt_shift; lia. }
  assert (Z3 : (0 < IZR (2 ^ (k + 1)))%R) by (apply (IZR_lt 0); apply Z.pow_pos_nonneg; lia).
  assert (Z2 : (0 < IZR (2 ^ (k + 1)) * (1 - u))%R) by (apply Rmult_lt_0_compat; lra).
  assert (J : log2f (rnd32 (IZR size)) = IZR (k + 1)).
  { unfold log2f. apply round_jumps; [lia|]. fold (log2 (rnd32 (IZR size))). split.
    - apply log2_le in B; [|exact Z2]. rewrite G in B.
      pose proof ln2_bounds as B2. pose proof (ln_1m_lower u ltac:(lra)) as LU.
      assert (C : (- / 1048576 < log2 (1 - u))%R).
      { unfold log2. apply Rmult_lt_reg_r with (ln 2); [lra|].
        replace (ln (1 - u) / ln 2 * ln 2)%R with (ln (1 - u)) by (field; lra).
        apply Rlt_le_trans with (- (u / (1 - u)))%R; [|exact LU].
        replace (u / (1 - u))%R with (/ 2097151)%R
          by (unfold u; change (IZR (2 ^ 21)) with 2097152%R; field).
        lra. }
      lra.
    - rewrite <- (log2_pow (k + 1)) by lia. apply log2_le; [lra | exact U]. }
  rewrite J, Zfloor_IZR, Z.mod_small by lia. f_equal. lia.
Qed.

(** ** Sizes *)
Lemma sizeAtMip : forall size mip, u32 size -> 0 <= mip ->
  match calcSizeAtMip size mip with
  | Ok s => mip < 32 /\ isMipSize size mip s
  | UB => 32 <= mip
  | _ => False
  end.
Proof.
  intros size mip Hs Hm. unfold calcSizeAtMip, mipDivisor. destruct (Z.ltb_spec mip 32); cbn [bind]; [|assumption].
  split; [assumption|]. unfold u32, isMipSize in *.
  pose proof (Z.pow_pos_nonneg 2 mip ltac:(lia) Hm) as P.
  pose proof (Z.div_mod size (2 ^ mip) ltac:(lia)). pose proof (Z.mod_pos_bound size (2 ^ mip) P).
  destruct (Z.lt_ge_cases size (2 ^ mip)) as [L|G].
  - right. split; [assumption|]. rewrite Z.div_small by lia. reflexivity.
  - left. split; [lia|]. assert (1 <= size / 2 ^ mip) by (apply Z.div_le_lower_bound; lia).
    rewrite Z.max_l by lia. nia.
Qed.
Lemma ulane_div : forall a d, u32 a -> 0 < d -> ulane ODiv a d = Ok (a / d).
Proof. intros a d Ha Hd. cbn [ulane]. destruct (Z.eqb_spec d 0); [lia | reflexivity]. Qed.
Lemma sizeAtMip_lanes : forall size mip s, 0 <= mip -> calcSizeAtMip size mip = Ok s ->
  mip < 32 /\ s = Z.max (size / 2 ^ mip) 1.
Proof.
  intros size mip s Hm. unfold calcSizeAtMip, mipDivisor.
  destruct (Z.ltb_spec mip 32); cbn [bind]; [|discriminate]. intros H0. injection H0 as <-. auto.
Qed.
Lemma sizeAtMip2 : forall size mip, Forall u32 (lanes2 size) -> 0 <= mip < 32 ->
  calcSizeAtMip2 size mip = Ok (V2 (Z.max (x2 size / 2 ^ mip) 1) (Z.max (y2 size / 2 ^ mip) 1)).
Proof.
  intros [x y] mip H Hm. unfold lanes2 in H. cbn [x2 y2] in *. apply Forall2l_iff in H.
  pose proof (Z.pow_pos_nonneg 2 mip ltac:(lia) ltac:(lia)) as P.
  unfold calcSizeAtMip2, mipDivisor. destruct (Z.ltb_spec mip 32); [|lia]. cbn [bind].
  unfold uintOp2, seqO2, map2_2, dup2. cbn [x2 y2]. rewrite !ulane_div by tauto. reflexivity.
Qed.
Lemma sizeAtMip3 : forall size mip, Forall u32 (lanes3 size) -> 0 <= mip < 32 ->
  calcSizeAtMip3 size mip = Ok (V3 (Z.max (x3 size / 2 ^ mip) 1) (Z.max (y3 size / 2 ^ mip) 1)
                                   (Z.max (z3 size / 2 ^ mip) 1)).
Proof.
  intros [x y z] mip H Hm. unfold lanes3 in H. cbn [x3 y3 z3] in *. apply Forall3l_iff in H.
  pose proof (Z.pow_pos_nonneg 2 mip ltac:(lia) ltac:(lia)) as P.
  unfold calcSizeAtMip3, mipDivisor. destruct (Z.ltb_spec mip 32); [|lia]. cbn [bind].
  unfold uintOp3, seqO3, map2_3, dup3. cbn [x3 y3 z3]. rewrite !ulane_div by tauto. reflexivity.
Qed.
Lemma isMipSize_max : forall size mip, 0 <= mip -> 0 <= size -> isMipSize size mip (Z.max (size / 2 ^ mip) 1).
Proof.
  intros size mip Hm Hs. unfold isMipSize.
  pose proof (Z.pow_pos_nonneg 2 mip ltac:(lia) Hm) as P.
  pose proof (Z.div_mod size (2 ^ mip) ltac:(lia)). pose proof (Z.mod_pos_bound size (2 ^ mip) P).
  destruct (Z.lt_ge_cases size (2 ^ mip)) as [L|G].
  - right. split; [assumption|]. rewrite Z.div_small by lia. reflexivity.
  - left. split; [lia|]. assert (1 <= size / 2 ^ mip) by (apply Z.div_le_lower_bound; lia).
    rewrite Z.max_l by lia. nia.
Qed.
(** The vector form on the SIMD paths *)
Lemma sizeAtMip3s : forall p size mip, Forall u32 (lanes4 size) -> 0 <= mip < 32 ->
  (p = NEON \/ p = GEN \/ p = SSE2 \/ 1 <= mip \/ Forall low31 (lanes4 size)) ->
  exists s, calcSizeAtMip3s p size mip = Ok s /\
    Forall2 (fun x y => isMipSize x mip y) (lanes4 size) (lanes4 s).
Proof.
  intros p [x y z w] mip H Hm Hp. unfold lanes4 in *. cbn [vx vy vz vw] in *. apply Forall4_iff in H.
  pose proof (Z.pow_pos_nonneg 2 mip ltac:(lia) ltac:(lia)) as P.
  unfold calcSizeAtMip3s, mipDivisor. destruct (Z.ltb_spec mip 32); [|lia]. cbn [bind].
  unfold u32Op, seqO4, map2_4, dup4. cbn [vx vy vz vw].
  replace (u32lane p ODiv) with (ulane ODiv) by (destruct p; reflexivity).
  rewrite !ulane_div by tauto. cbn [bind]. eexists; split; [reflexivity|].
  unfold u32max, map2_4, dup4. cbn [vx vy vz vw].
  assert (Q : forall a, u32 a -> (p = NEON \/ p = GEN \/ p = SSE2 \/ 1 <= mip \/ low31 a) ->
     u32maxLane p (a / 2 ^ mip) 1 = Z.max (a / 2 ^ mip) 1).
  { intros a Ha Hd. unfold u32, low31 in *.
    assert (D : 0 <= a / 2 ^ mip <= a).
    { split; [apply Z.div_pos; lia | apply Z.div_le_upper_bound; nia]. }
    apply u32min_lane; [unfold u32; lia | unfold u32; lia|]. unfold sameHalf.
    destruct Hd as [->|[->|[->|[Hd|Hd]]]]; auto; right; right; right.
    - assert (a / 2 ^ mip <= a / 2).
      { apply Z.div_le_compat_l; [lia|]. split; [lia|]. change 2 with (2 ^ 1) at 1. apply Z.pow_le_mono_r; lia. }
      assert (a / 2 < 2 ^ 31) by (apply Z.div_lt_upper_bound; lia). lia.
    - lia. }
  assert (W : forall a, In a [x; y; z; w] -> p = NEON \/ p = GEN \/ p = SSE2 \/ 1 <= mip \/ low31 a).
  { intros a Ia. destruct Hp as [K|[K|[K|[K|K]]]]; auto. right; right; right; right.
    rewrite Forall_forall in K. apply K, Ia. }
  destruct H as (Hx & Hy & Hz & Hw).
  rewrite (Q x Hx (W x ltac:(cbn; auto))), (Q y Hy (W y ltac:(cbn; auto))), (Q z Hz (W z ltac:(cbn; auto))),
    (Q w Hw (W w ltac:(cbn; auto))).
  unfold u32 in *. apply F2_4. split; [|split; [|split]]; apply isMipSize_max; lia.
Qed.
