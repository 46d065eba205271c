(** binary32 operations as correctly rounded (and clamped) real operations; monotonicity. *)
From Coq Require Import ZArith Bool Reals Lra Lia Psatz.
From Flocq Require Import Core.Core IEEE754.BinarySingleNaN IEEE754.Binary IEEE754.Bits.
From Verif.Model Require Import Scalar.
From Verif.Proofs Require Import OrdScalar.
Local Open Scope R_scope.

Notation fin x := (is_finite 24 128 x = true).
Notation val x := (B2R 24 128 x).
Notation maxF := (bpow radix2 128).

Definition rnd (r : R) : R := round radix2 (SpecFloat.fexp 24 128) (round_mode mode_NE) r.
Definition clampR (r : R) : R := Rmax (- maxF) (Rmin r maxF).
Definition RX (r : R) : R := clampR (rnd r).

#[local] Instance fexp_ok : Valid_exp (SpecFloat.fexp 24 128) := fexp_correct 24 128 eq_refl.

Lemma maxF_pos : 0 < maxF.
Proof. apply bpow_gt_0. Qed.

Lemma rnd_le : forall a b, a <= b -> rnd a <= rnd b.
Proof. intros a b H. apply round_le; auto with typeclass_instances. Qed.
Lemma rnd_0 : rnd 0 = 0.
Proof. apply round_0. auto with typeclass_instances. Qed.
Lemma clampR_le : forall a b, a <= b -> clampR a <= clampR b.
Proof. intros a b H. unfold clampR. apply Rle_max_compat_l, Rle_min_compat_r, H. Qed.
Lemma clampR_id : forall a, Rabs a <= maxF -> clampR a = a.
Proof.
  intros a H. apply Rabs_le_inv in H. unfold clampR.
  rewrite Rmin_left by lra. rewrite Rmax_right by lra. reflexivity.
Qed.
Lemma clampR_bound : forall a, - maxF <= clampR a <= maxF.
Proof.
  intros a. pose proof maxF_pos. unfold clampR. split; [apply Rmax_l|].
  apply Rmax_lub; [lra|apply Rmin_r].
Qed.
Lemma RX_le : forall a b, a <= b -> RX a <= RX b.
Proof. intros. apply clampR_le, rnd_le. assumption. Qed.
Lemma RX_nonneg : forall a, 0 <= a -> 0 <= RX a.
Proof.
  intros a H. pose proof maxF_pos. apply rnd_le in H. rewrite rnd_0 in H. unfold RX, clampR.
  eapply Rle_trans; [|apply Rmax_r]. apply Rmin_glb; lra.
Qed.
Lemma RX_nonpos : forall a, a <= 0 -> RX a <= 0.
Proof.
  intros a H. pose proof maxF_pos. apply rnd_le in H. rewrite rnd_0 in H. unfold RX, clampR.
  apply Rmax_lub; [lra|]. eapply Rle_trans; [apply Rmin_l|lra].
Qed.

Lemma fin_num : forall x : f32, fin x -> num x.
Proof. intros [] H; cbn in *; congruence. Qed.
Lemma fin_ext : forall x : f32, fin x -> ext x = val x.
Proof. exact ext32_finite. Qed.
Lemma ext_fin : forall x : f32, num x -> - maxF < ext x < maxF -> fin x.
Proof.
  intros x H HB. destruct x as [s|s|s pl Hp|s m e He]; try reflexivity.
  - exfalso. cbn in HB. destruct s; cbn in HB; lra.
  - cbn in H. discriminate.
Qed.
Lemma num_ext_bound : forall x : f32, num x -> - maxF <= ext x <= maxF.
Proof.
  intros x H. pose proof maxF_pos. destruct (is_finite 24 128 x) eqn:E.
  - rewrite fin_ext by assumption. pose proof (B2R_bound x). lra.
  - destruct x as [s|s|s pl Hp|s m e He]; try discriminate. destruct s; cbn; lra.
Qed.
Lemma ext_pinf : forall x : f32, num x -> ext x = maxF -> x = B754_infinity 24 128 false.
Proof.
  intros x H E. pose proof maxF_pos. destruct (is_finite 24 128 x) eqn:Ef.
  - rewrite fin_ext in E by assumption. pose proof (B2R_bound x). lra.
  - destruct x as [s|s|s pl Hp|s m e He]; try discriminate. destruct s; cbn in E; [lra|reflexivity].
Qed.
Lemma ext_ninf : forall x : f32, num x -> ext x = - maxF -> x = B754_infinity 24 128 true.
Proof.
  intros x H E. pose proof maxF_pos. destruct (is_finite 24 128 x) eqn:Ef.
  - rewrite fin_ext in E by assumption. pose proof (B2R_bound x). lra.
  - destruct x as [s|s|s pl Hp|s m e He]; try discriminate. destruct s; cbn in E; [reflexivity|lra].
Qed.

Lemma sign_val : forall x : f32, fin x ->
  if Bsign 24 128 x then val x <= 0 else 0 <= val x.
Proof.
  intros [s|s|s pl Hp|s m e He] H; try discriminate; cbn.
  - destruct s; lra.
  - pose proof (bpow_gt_0 radix2 e). destruct s; unfold F2R; cbn [Fnum Fexp cond_Zopp].
    + assert (IZR (Z.neg m) <= 0) by (apply IZR_le; lia).
      change (IZR (- Z.pos m)) with (IZR (Z.neg m)) || idtac. nra.
    + assert (0 <= IZR (Z.pos m)) by (apply IZR_le; lia). nra.
Qed.

Lemma overflow_inf : forall (x : f32) s,
  B2FF 24 128 x = binary_overflow 24 128 mode_NE s -> x = B754_infinity 24 128 s.
Proof.
  intros x s H. destruct x as [sx|sx|sx pl Hp|sx m e He]; cbn in H; try discriminate.
  injection H as <-. reflexivity.
Qed.

Lemma RX_overflow : forall r (s : bool), Rlt_bool (Rabs (rnd r)) maxF = false ->
  (if s then r <= 0 else 0 <= r) -> RX r = ext (B754_infinity 24 128 s : f32).
Proof.
  intros r s H Hs. pose proof maxF_pos.
  destruct (Rlt_bool_spec (Rabs (rnd r)) maxF) as [|Hge]; [discriminate|].
  unfold RX, clampR. destruct s; cbn [ext OrdF32 ext32].
  - apply rnd_le in Hs. rewrite rnd_0 in Hs. rewrite Rabs_left1 in Hge by exact Hs.
    rewrite Rmin_left by lra. rewrite Rmax_left by lra. reflexivity.
  - apply rnd_le in Hs. rewrite rnd_0 in Hs. rewrite Rabs_right in Hge by lra.
    rewrite Rmin_right by lra. rewrite Rmax_right by lra. reflexivity.
Qed.
Lemma RX_normal : forall r, Rlt_bool (Rabs (rnd r)) maxF = true -> RX r = rnd r.
Proof.
  intros r H. destruct (Rlt_bool_spec (Rabs (rnd r)) maxF) as [Hlt|]; [|discriminate].
  apply clampR_id. lra.
Qed.

Lemma add_fin : forall a b : f32, fin a -> fin b ->
  num (a + b)%sc /\ ext (a + b)%sc = RX (val a + val b).
Proof.
  intros a b Ha Hb. cbn [sadd ScalarF32]. unfold b32_plus. cbv zeta.
  pose proof (Binary.Bplus_correct 24 128 eq_refl eq_refl binop_nan_pl32 mode_NE a b Ha Hb) as H.
  change (round radix2 (SpecFloat.fexp 24 128) (round_mode mode_NE) (val a + val b)) with (rnd (val a + val b)) in H.
  destruct (Rlt_bool (Rabs (rnd (val a + val b))) maxF) eqn:E.
  - destruct H as (H1 & H2 & _). split; [apply fin_num, H2|].
    rewrite fin_ext by exact H2. rewrite RX_normal by exact E. exact H1.
  - destruct H as (H1 & H2). apply overflow_inf in H1. rewrite H1. split; [reflexivity|].
    symmetry. apply RX_overflow; [exact E|].
    pose proof (sign_val a Ha) as Sa. pose proof (sign_val b Hb) as Sb. rewrite <- H2 in Sb.
    destruct (Bsign 24 128 a); lra.
Qed.

Lemma sub_fin : forall a b : f32, fin a -> fin b ->
  num (a - b)%sc /\ ext (a - b)%sc = RX (val a - val b).
Proof.
  intros a b Ha Hb. cbn [ssub ScalarF32]. unfold b32_minus. cbv zeta.
  pose proof (Binary.Bminus_correct 24 128 eq_refl eq_refl binop_nan_pl32 mode_NE a b Ha Hb) as H.
  change (round radix2 (SpecFloat.fexp 24 128) (round_mode mode_NE) (val a - val b)) with (rnd (val a - val b)) in H.
  destruct (Rlt_bool (Rabs (rnd (val a - val b))) maxF) eqn:E.
  - destruct H as (H1 & H2 & _). split; [apply fin_num, H2|].
    rewrite fin_ext by exact H2. rewrite RX_normal by exact E. exact H1.
  - destruct H as (H1 & H2). apply overflow_inf in H1. rewrite H1. split; [reflexivity|].
    symmetry. apply RX_overflow; [exact E|].
    pose proof (sign_val a Ha) as Sa. pose proof (sign_val b Hb) as Sb.
    rewrite H2 in *. destruct (Bsign 24 128 b); cbn in *; lra.
Qed.

Lemma mul_fin : forall a b : f32, fin a -> fin b ->
  num (a * b)%sc /\ ext (a * b)%sc = RX (val a * val b).
Proof.
  intros a b Ha Hb. cbn [smul ScalarF32]. unfold b32_mult. cbv zeta.
  pose proof (Binary.Bmult_correct 24 128 eq_refl eq_refl binop_nan_pl32 mode_NE a b) as H.
  change (round radix2 (SpecFloat.fexp 24 128) (round_mode mode_NE) (val a * val b)) with (rnd (val a * val b)) in H.
  destruct (Rlt_bool (Rabs (rnd (val a * val b))) maxF) eqn:E.
  - destruct H as (H1 & H2 & _). rewrite Ha, Hb in H2. split; [apply fin_num, H2|].
    rewrite fin_ext by exact H2. rewrite RX_normal by exact E. exact H1.
  - apply overflow_inf in H. rewrite H. split; [reflexivity|].
    symmetry. apply RX_overflow; [exact E|].
    pose proof (sign_val a Ha) as Sa. pose proof (sign_val b Hb) as Sb.
    destruct (Bsign 24 128 a), (Bsign 24 128 b); cbn in *; nra.
Qed.

Lemma div_fin : forall a b : f32, fin a -> fin b -> val b <> 0 ->
  num (a / b)%sc /\ ext (a / b)%sc = RX (val a / val b).
Proof.
  intros a b Ha Hb Hnz. cbn [sdiv ScalarF32]. unfold b32_div. cbv zeta.
  pose proof (Binary.Bdiv_correct 24 128 eq_refl eq_refl binop_nan_pl32 mode_NE a b Hnz) as H.
  change (round radix2 (SpecFloat.fexp 24 128) (round_mode mode_NE) (val a / val b)) with (rnd (val a / val b)) in H.
  destruct (Rlt_bool (Rabs (rnd (val a / val b))) maxF) eqn:E.
  - destruct H as (H1 & H2 & _). rewrite Ha in H2. split; [apply fin_num, H2|].
    rewrite fin_ext by exact H2. rewrite RX_normal by exact E. exact H1.
  - apply overflow_inf in H. rewrite H. split; [reflexivity|].
    symmetry. apply RX_overflow; [exact E|].
    pose proof (sign_val a Ha) as Sa. pose proof (sign_val b Hb) as Sb.
    unfold Rdiv.
    destruct (Bsign 24 128 b).
    + assert (/ val b < 0) by (apply Rinv_lt_0_compat; lra).
      destruct (Bsign 24 128 a); cbn in *; nra.
    + assert (0 < / val b) by (apply Rinv_0_lt_compat; lra).
      destruct (Bsign 24 128 a); cbn in *; nra.
Qed.

(** a product with a fixed finite factor is monotone *)
Lemma mul_mono_r : forall n x y : f32, fin n -> fin x -> fin y -> 0 <= val n -> val x <= val y ->
  ext (n * x)%sc <= ext (n * y)%sc.
Proof.
  intros n x y Hn Hx Hy H0 H.
  rewrite (proj2 (mul_fin n x Hn Hx)), (proj2 (mul_fin n y Hn Hy)). apply RX_le. nra.
Qed.
Lemma mul_anti_r : forall n x y : f32, fin n -> fin x -> fin y -> val n <= 0 -> val x <= val y ->
  ext (n * y)%sc <= ext (n * x)%sc.
Proof.
  intros n x y Hn Hx Hy H0 H.
  rewrite (proj2 (mul_fin n x Hn Hx)), (proj2 (mul_fin n y Hn Hy)). apply RX_le. nra.
Qed.

(** a sum that is a number below +inf has such summands *)
Lemma add_below : forall a b : f32, num (a + b)%sc -> ext (a + b)%sc < maxF ->
  (num a /\ ext a < maxF) /\ (num b /\ ext b < maxF).
Proof.
  intros a b Hn Hl.
  assert (Ha : num a).
  { destruct a as [s|s|s pl Hp|s m e He]; try reflexivity. exfalso. cbn in Hn. destruct b; discriminate. }
  assert (Hb : num b).
  { destruct b as [s|s|s pl Hp|s m e He]; try reflexivity. exfalso. cbn in Hn. destruct a; discriminate. }
  pose proof (num_ext_bound a Ha). pose proof (num_ext_bound b Hb).
  split; split; try assumption.
  - destruct (Req_dec (ext a) maxF) as [E|]; [|lra]. apply ext_pinf in E; [|assumption]. subst a. exfalso.
    destruct b as [s|s|s pl Hp|s m e He]; cbn in Hn, Hl; try (cbn in Hl; lra); try discriminate.
    destruct s; cbn in Hn, Hl; [discriminate|lra].
  - destruct (Req_dec (ext b) maxF) as [E|]; [|lra]. apply ext_pinf in E; [|assumption]. subst b. exfalso.
    destruct a as [s|s|s pl Hp|s m e He]; cbn in Hn, Hl; try (cbn in Hl; lra); try discriminate.
    destruct s; cbn in Hn, Hl; [discriminate|lra].
Qed.

Lemma add_num : forall a b : f32, num a -> num b -> ext a < maxF -> ext b < maxF ->
  num (a + b)%sc.
Proof.
  intros a b Ha Hb La Lb.
  destruct (is_finite 24 128 a) eqn:Fa; [destruct (is_finite 24 128 b) eqn:Fb|].
  - apply add_fin; assumption.
  - destruct b as [s|s|s pl Hp|s m e He]; try discriminate.
    destruct a as [s'|s'|s' pl Hp|s' m e He]; try discriminate; reflexivity.
  - destruct a as [s|s|s pl Hp|s m e He]; try discriminate.
    destruct s; [|exfalso; cbn in La; lra].
    destruct b as [s'|s'|s' pl Hp|s' m e He]; try discriminate; try reflexivity.
    destruct s'; [reflexivity|exfalso; cbn in Lb; lra].
Qed.

Lemma add_mono : forall a1 a2 b1 b2 : f32, num a1 -> num a2 -> num (b1 + b2)%sc -> ext (b1 + b2)%sc < maxF ->
  ext a1 <= ext b1 -> ext a2 <= ext b2 ->
  num (a1 + a2)%sc /\ ext (a1 + a2)%sc <= ext (b1 + b2)%sc.
Proof.
  intros a1 a2 b1 b2 Ha1 Ha2 Hn Hl H1 H2.
  destruct (add_below _ _ Hn Hl) as ((Nb1 & Lb1) & (Nb2 & Lb2)).
  assert (Na : num (a1 + a2)%sc) by (apply add_num; try assumption; lra).
  split; [exact Na|].
  pose proof maxF_pos.
  destruct (Req_dec (ext a1) (- maxF)) as [E1|E1].
  { apply ext_ninf in E1; [|assumption]. subst a1.
    apply Rle_trans with (- maxF); [|apply num_ext_bound; exact Hn].
    destruct a2 as [s|s|s pl Hp|s m e He]; try discriminate; try (apply Req_le; reflexivity).
    destruct s; [apply Req_le; reflexivity|exfalso].
    change (ext (B754_infinity 24 128 false : f32)) with maxF in H2. lra. }
  destruct (Req_dec (ext a2) (- maxF)) as [E2|E2].
  { apply ext_ninf in E2; [|assumption]. subst a2.
    apply Rle_trans with (- maxF); [|apply num_ext_bound; exact Hn].
    destruct a1 as [s|s|s pl Hp|s m e He]; try discriminate; try (apply Req_le; reflexivity).
    destruct s; [apply Req_le; reflexivity|exfalso].
    change (ext (B754_infinity 24 128 false : f32)) with maxF in H1. lra. }
  pose proof (num_ext_bound a1 Ha1). pose proof (num_ext_bound a2 Ha2).
  assert (F1 : fin a1) by (apply ext_fin; [assumption|lra]).
  assert (F2 : fin a2) by (apply ext_fin; [assumption|lra]).
  assert (G1 : fin b1) by (apply ext_fin; [assumption|lra]).
  assert (G2 : fin b2) by (apply ext_fin; [assumption|lra]).
  rewrite (proj2 (add_fin _ _ F1 F2)), (proj2 (add_fin _ _ G1 G2)).
  rewrite !fin_ext in * by assumption. apply RX_le. lra.
Qed.

(** literals with at most 24 bits are exact *)
Lemma lit_exact : forall m e, (Z.abs m < 2 ^ 24)%Z -> (-149 <= e <= 104)%Z ->
  fin (slit m e : f32) /\ val (slit m e : f32) = IZR m * bpow radix2 e.
Proof.
  intros m e Hm He.
  pose proof (binary_normalize_correct 24 128 eq_refl eq_refl mode_NE m e false) as H. cbv zeta in H.
  assert (E : round radix2 (SpecFloat.fexp 24 128) (round_mode mode_NE) (F2R (Float radix2 m e)) = F2R (Float radix2 m e)).
  { apply round_generic; [apply valid_rnd_round_mode|].
    apply generic_format_FLT. exists (Float radix2 m e); [reflexivity| |]; cbn [Fnum Fexp]; [exact Hm|]. change (SpecFloat.emin 24 128) with (-149)%Z. lia. }
  rewrite E in H.
  assert (B : Rabs (F2R (Float radix2 m e)) < bpow radix2 128).
  { apply Rlt_le_trans with (bpow radix2 (24 + e)); [|apply bpow_le; lia].
    rewrite <- F2R_Zabs. unfold F2R. cbn [Fnum Fexp]. rewrite bpow_plus.
    apply Rmult_lt_compat_r; [apply bpow_gt_0|]. change (bpow radix2 24) with (IZR (2 ^ 24)). apply IZR_lt. exact Hm. }
  rewrite Rlt_bool_true in H by exact B. destruct H as (H1 & H2 & _). split; [exact H2|exact H1].
Qed.
