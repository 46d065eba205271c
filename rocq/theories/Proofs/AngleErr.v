(** Conversion of angles in binary32. *)
From Coq Require Import ZArith Bool List Reals Lra Lia Psatz.
From Flocq Require Import Core.Core IEEE754.BinarySingleNaN IEEE754.Binary IEEE754.Bits.
From Verif.Model Require Import Scalar Vec Simd Numeric.
From Verif.Spec Require Import AngleSpec.
From Verif.Proofs Require Import OrdScalar F32Round F32Err NumericProofs PiBounds RayErr ViewErr YxyErr YxyRgb.
Local Open Scope R_scope.

(** ** Factors close to one *)
Definition fac (k f : R) : Prop := Rabs (f - 1) <= k * U.
Lemma fac_mul : forall a b k f g, 0 <= a <= 10 -> 0 <= b <= 10 -> fac a f -> fac b g -> a + b + 0.0001 <= k -> fac k (f * g).
Proof.
  intros a b k f g A B F G K. unfold fac in *.
  replace (f * g - 1) with ((f - 1) + (g - 1) + (f - 1) * (g - 1)) by ring.
  eapply Rle_trans; [apply Rabs_triang|]. eapply Rle_trans; [apply Rplus_le_compat_r, Rabs_triang|]. rewrite Rabs_mult.
  assert (Rabs (f - 1) * Rabs (g - 1) <= (10 * U) * (10 * U)).
  { apply Rmult_le_compat; try apply Rabs_pos; lra. }
  lra.
Qed.
Lemma fac_inv : forall a k f, 0 <= a <= 10 -> fac a f -> a + 0.0001 <= k -> fac k (/ f).
Proof.
  intros a k f A F K. unfold fac in *. apply Rabs_le_inv in F.
  assert (P : 0.9 <= f) by lra. assert (I : / f * f = 1) by (apply Rinv_l; lra).
  assert (J : 0 < / f) by (apply Rinv_0_lt_compat; lra).
  assert (E : / f - 1 = (1 - f) + (1 - f) * (1 - f) * / f).
  { field. lra. }
  assert (J2 : / f <= 2) by nra.
  assert (S : 0 <= (1 - f) * (1 - f) <= (10 * U) * (10 * U)).
  { split; [apply Rle_0_sqr|]. apply Rsqr_le_abs_1. apply Rabs_le. rewrite (Rabs_right (10 * U)) by lra. lra. }
  assert (T : 0 <= (1 - f) * (1 - f) * / f <= (10 * U) * (10 * U) * 2).
  { split; [apply Rmult_le_pos; lra|]. apply Rmult_le_compat; lra. }
  apply Rabs_le. rewrite E. lra.
Qed.
Lemma fac_within : forall k (y : f32) Y f, fin y -> val y = Y * f -> fac k f -> within k y Y.
Proof.
  intros k y Y f F E H. split; [exact F|]. rewrite E. replace (Y * f - Y) with ((f - 1) * Y) by ring. rewrite Rabs_mult.
  apply Rmult_le_compat_r; [apply Rabs_pos|]. unfold fac in H. lra.
Qed.

(** ** One operation *)
Definition mid (n : Z) (x : f32) : Prop := fin x /\ (val x = 0 \/ bpow radix2 (- n) <= Rabs (val x) <= bpow radix2 n).
Definition handy (c : R) : Prop := bpow radix2 (-8) <= Rabs c <= bpow radix2 8.
Lemma rnd_step : forall n t, (0 <= n <= 118)%Z -> t = 0 \/ bpow radix2 (- (n + 8)) <= Rabs t <= bpow radix2 (n + 8) ->
  small t /\ exists f, fac 1 f /\ rnd t = t * f /\ (rnd t = 0 \/ bpow radix2 (- (n + 9)) <= Rabs (rnd t) <= bpow radix2 (n + 9)).
Proof.
  intros n t N [->|[L H]].
  - split; [unfold small; rewrite Rabs_R0; apply bpow_ge_0|]. exists 1. unfold fac.
    assert (Z : rnd 0 = 0) by apply rnd_0. rewrite Z. replace (1 - 1) with 0 by ring. rewrite Rabs_R0. repeat split; lra.
  - split; [unfold small; eapply Rle_trans; [exact H|]; apply bpow_le; lia|].
    destruct (rel_normal t) as (e & He & E); [eapply Rle_trans; [|exact L]; apply bpow_le; lia|].
    assert (He' : Rabs e <= U) by (eapply Rle_trans; [exact He|]; unfold u24; cbn; lra).
    exists (1 + e). split; [unfold fac; replace (1 + e - 1) with e by ring; lra|]. split; [exact E|]. right. rewrite E, Rabs_mult.
    apply Rabs_le_inv in He'. rewrite (Rabs_right (1 + e)) by lra.
    replace (- (n + 9))%Z with (- (n + 8) + -1)%Z by lia. replace (n + 9)%Z with (n + 8 + 1)%Z by lia.
    rewrite (bpow_plus radix2 (- (n + 8)) (-1)), (bpow_plus radix2 (n + 8) 1).
    change (bpow radix2 (-1)) with (/ 2). change (bpow radix2 1) with 2.
    pose proof (bpow_gt_0 radix2 (- (n + 8))). pose proof (Rabs_pos t). split; apply Rmult_le_compat; try assumption; lra.
Qed.
Lemma handy_mul : forall n a c, handy c -> a = 0 \/ bpow radix2 (- n) <= Rabs a <= bpow radix2 n ->
  a * c = 0 \/ bpow radix2 (- (n + 8)) <= Rabs (a * c) <= bpow radix2 (n + 8).
Proof.
  intros n a c [C1 C2] [->|[A1 A2]]; [left; ring|right]. rewrite Rabs_mult. replace (- (n + 8))%Z with (- n + -8)%Z by lia. rewrite !bpow_plus.
  pose proof (bpow_ge_0 radix2 (- n)). pose proof (bpow_ge_0 radix2 (-8)). split; apply Rmult_le_compat; try assumption; apply Rabs_pos.
Qed.
Lemma handy_inv : forall c, handy c -> handy (/ c) /\ c <> 0.
Proof.
  intros c [A B]. assert (P : 0 < Rabs c) by (pose proof (bpow_gt_0 radix2 (-8)); lra).
  assert (c <> 0) by (intros ->; rewrite Rabs_R0 in P; lra). split; [|assumption]. unfold handy. rewrite Rabs_inv.
  change (-8)%Z with (- (8))%Z in *. split; [rewrite bpow_opp; apply Rinv_le; assumption|].
  replace (bpow radix2 8) with (/ bpow radix2 (- (8))) by (rewrite bpow_opp, Rinv_inv; reflexivity). apply Rinv_le; [apply bpow_gt_0|assumption].
Qed.
Lemma mid_mul : forall n (a c : f32), (0 <= n <= 118)%Z -> mid n a -> fin c -> handy (val c) ->
  exists f, fac 1 f /\ mid (n + 9) (a * c)%sc /\ val (a * c)%sc = val a * val c * f.
Proof.
  intros n a c N [Fa A] Fc C. destruct (rnd_step n (val a * val c) N (handy_mul n _ _ C A)) as (S & f & F & E & M).
  destruct (mul_small a c Fa Fc S) as [Fp V]. exists f. split; [exact F|]. split; [split; [exact Fp|rewrite V; exact M]|rewrite V; exact E].
Qed.
Lemma mid_div : forall n (a c : f32), (0 <= n <= 118)%Z -> mid n a -> fin c -> handy (val c) ->
  exists f, fac 1 f /\ mid (n + 9) (a / c)%sc /\ val (a / c)%sc = val a / val c * f.
Proof.
  intros n a c N [Fa A] Fc C. destruct (handy_inv _ C) as [C' Z].
  destruct (rnd_step n (val a / val c) N (handy_mul n _ _ C' A)) as (S & f & F & E & M).
  destruct (div_small a c Fa Fc Z S) as [Fp V]. exists f. split; [exact F|]. split; [split; [exact Fp|rewrite V; exact M]|rewrite V; exact E].
Qed.

(** ** The constants *)
Definition P0 : R := 13176795 / 4194304.
Lemma pi_fac : exists f, fac 0.67 f /\ P0 = PI * f.
Proof.
  pose proof pi_close as H. fold P0 in H. assert (A : 3.1 < PI) by (apply Rabs_le_inv in H; unfold P0 in H; lra).
  exists (P0 / PI). split; [|field; lra]. unfold fac. replace (P0 / PI - 1) with ((P0 - PI) * / PI) by (field; lra).
  rewrite Rabs_mult, (Rabs_right (/ PI)) by (apply Rle_ge, Rlt_le, Rinv_0_lt_compat; lra).
  apply Rle_trans with (/ 8000000 * / 3.14); [|lra]. apply Rmult_le_compat; [apply Rabs_pos|apply Rlt_le, Rinv_0_lt_compat; lra|exact H|].
  apply Rinv_le; [lra|]. apply Rabs_le_inv in H. unfold P0 in H. lra.
Qed.
Lemma pi_val : fin (piF : f32) /\ val (piF : f32) = P0.
Proof. pose proof (litv 13176795 22 ltac:(lia) ltac:(lia)) as [F V]. split; [exact F|]. unfold P0. etransitivity; [exact V|]. f_equal. Qed.
Lemma n180_val : fin (n180 : f32) /\ val (n180 : f32) = 180.
Proof. exact (lit_Z 180 ltac:(lia)). Qed.
Lemma handy_pos : forall c, / 256 <= c <= 256 -> handy c.
Proof. intros c H. unfold handy. rewrite Rabs_right by lra. change (bpow radix2 (-8)) with (/ 256). change (bpow radix2 8) with 256. exact H. Qed.
Lemma handy_pi : handy (val (piF : f32)).
Proof. rewrite (proj2 pi_val). apply handy_pos. unfold P0. lra. Qed.
Lemma handy_180 : handy (val (n180 : f32)).
Proof. rewrite (proj2 n180_val). apply handy_pos. lra. Qed.
Lemma toRad : exists f, fac 1 f /\ fin (piF / n180 : f32)%sc /\ val (piF / n180 : f32)%sc = P0 / 180 * f /\ handy (val (piF / n180 : f32)%sc).
Proof.
  destruct pi_val as [Fp Vp]. destruct n180_val as [Fn Vn].
  destruct (mid_div 8 piF n180 ltac:(lia)) as (f & F & [M _] & E); [split; [exact Fp|right; exact handy_pi]|exact Fn|exact handy_180|].
  rewrite Vp, Vn in E. exists f. split; [exact F|]. split; [exact M|]. split; [exact E|]. rewrite E. apply handy_pos.
  unfold fac in F. apply Rabs_le_inv in F. unfold P0. lra.
Qed.
Lemma toDeg : exists f, fac 1 f /\ fin (n180 / piF : f32)%sc /\ val (n180 / piF : f32)%sc = 180 / P0 * f /\ handy (val (n180 / piF : f32)%sc).
Proof.
  destruct pi_val as [Fp Vp]. destruct n180_val as [Fn Vn].
  destruct (mid_div 8 n180 piF ltac:(lia)) as (f & F & [M _] & E); [split; [exact Fn|right; exact handy_180]|exact Fp|exact handy_pi|].
  rewrite Vp, Vn in E. exists f. split; [exact F|]. split; [exact M|]. split; [exact E|]. rewrite E. apply handy_pos.
  unfold fac in F. apply Rabs_le_inv in F. unfold P0. replace (180 / (13176795 / 4194304)) with (180 * 4194304 / 13176795) by field. lra.
Qed.

(** ** The conversions *)
Section Conv.
  Context (n : Z) (N : (0 <= n <= 109)%Z).
  Lemma radS : forall x : f32, mid n x -> exists f, fac 2.0001 f /\ mid (n + 9) (radiansS x) /\ val (radiansS x) = val x * (P0 / 180) * f.
  Proof.
    intros x X. destruct toRad as (f1 & F1 & C & E1 & H). destruct (mid_mul n x _ ltac:(lia) X C H) as (f2 & F2 & M & E2).
    exists (f1 * f2). split; [apply (fac_mul 1 1); try assumption; lra|]. split; [exact M|]. unfold radiansS. rewrite E2, E1. ring.
  Qed.
  Lemma degS : forall x : f32, mid n x -> exists f, fac 2.0001 f /\ mid (n + 9) (degreesS x) /\ val (degreesS x) = val x * (180 / P0) * f.
  Proof.
    intros x X. destruct toDeg as (f1 & F1 & C & E1 & H). destruct (mid_mul n x _ ltac:(lia) X C H) as (f2 & F2 & M & E2).
    exists (f1 * f2). split; [apply (fac_mul 1 1); try assumption; lra|]. split; [exact M|]. unfold degreesS. rewrite E2, E1. ring.
  Qed.
  Lemma radL : forall x : f32, mid n x -> exists f, fac 2.0001 f /\ mid (n + 18) (radiansLane x) /\ val (radiansLane x) = val x * (P0 / 180) * f.
  Proof.
    intros x X. destruct (mid_mul n x piF ltac:(lia) X (proj1 pi_val) handy_pi) as (f1 & F1 & M1 & E1).
    destruct (mid_div (n + 9) _ n180 ltac:(lia) M1 (proj1 n180_val) handy_180) as (f2 & F2 & M2 & E2).
    exists (f1 * f2). split; [apply (fac_mul 1 1); try assumption; lra|]. replace (n + 18)%Z with (n + 9 + 9)%Z by lia. split; [exact M2|].
    unfold radiansLane. rewrite E2, E1, (proj2 pi_val), (proj2 n180_val). field.
  Qed.
  Lemma degL : forall x : f32, mid n x -> exists f, fac 2.0001 f /\ mid (n + 18) (degreesLane x) /\ val (degreesLane x) = val x * (180 / P0) * f.
  Proof.
    intros x X. destruct (mid_mul n x n180 ltac:(lia) X (proj1 n180_val) handy_180) as (f1 & F1 & M1 & E1).
    destruct (mid_div (n + 9) _ piF ltac:(lia) M1 (proj1 pi_val) handy_pi) as (f2 & F2 & M2 & E2).
    exists (f1 * f2). split; [apply (fac_mul 1 1); try assumption; lra|]. replace (n + 18)%Z with (n + 9 + 9)%Z by lia. split; [exact M2|].
    unfold degreesLane. rewrite E2, E1, (proj2 pi_val), (proj2 n180_val). unfold P0. field.
  Qed.
End Conv.
Lemma angle_mid : forall x : f32, angleIn x -> mid 90 x.
Proof. intros x H. exact H. Qed.

Lemma radians_near : forall x : f32, angleIn x ->
  within 2.7 (radiansS x) (val x * (PI / 180)) /\ within 2.7 (radiansLane x) (val x * (PI / 180)).
Proof.
  intros x X. apply angle_mid in X. destruct pi_fac as (f0 & F0 & E0). assert (K : forall f, fac 2.0001 f -> fac 2.7 (f0 * f)) by (intros f F; apply (fac_mul 0.67 2.0001); try assumption; lra).
  destruct (radS 90 ltac:(lia) x X) as (f & F & [G _] & E). destruct (radL 90 ltac:(lia) x X) as (g & Fg & [H _] & Eg).
  split; [apply (fac_within _ _ _ (f0 * f) G)|apply (fac_within _ _ _ (f0 * g) H)]; try (apply K; assumption); rewrite ?E, ?Eg, E0; field.
Qed.
Lemma degrees_near : forall x : f32, angleIn x ->
  within 2.7 (degreesS x) (val x * (180 / PI)) /\ within 2.7 (degreesLane x) (val x * (180 / PI)).
Proof.
  intros x X. apply angle_mid in X. destruct pi_fac as (f0 & F0 & E0).
  assert (Z0 : f0 <> 0) by (unfold fac in F0; apply Rabs_le_inv in F0; lra). pose proof PI_neq0 as ZP.
  assert (K : forall f, fac 2.0001 f -> fac 2.7 (/ f0 * f)).
  { intros f F. apply (fac_mul 0.6701 2.0001); try assumption; try lra. apply (fac_inv 0.67); try assumption; lra. }
  destruct (degS 90 ltac:(lia) x X) as (f & F & [G _] & E). destruct (degL 90 ltac:(lia) x X) as (g & Fg & [H _] & Eg).
  split; [apply (fac_within _ _ _ (/ f0 * f) G)|apply (fac_within _ _ _ (/ f0 * g) H)]; try (apply K; assumption); rewrite ?E, ?Eg, E0; field; split; assumption.
Qed.
Lemma angles_back : forall x : f32, angleIn x ->
  within 4.01 (degreesS (radiansS x)) (val x) /\ within 4.01 (radiansS (degreesS x)) (val x) /\
  within 4.01 (degreesLane (radiansLane x)) (val x) /\ within 4.01 (radiansLane (degreesLane x)) (val x).
Proof.
  intros x X. apply angle_mid in X. assert (PZ : P0 <> 0) by (unfold P0; lra).
  assert (K : forall f g, fac 2.0001 f -> fac 2.0001 g -> fac 4.01 (f * g)) by (intros f g A B; apply (fac_mul 2.0001 2.0001); try assumption; lra).
  destruct (radS 90 ltac:(lia) x X) as (f1 & F1 & M1 & E1). destruct (degS 99 ltac:(lia) _ M1) as (g1 & G1 & [W1 _] & D1).
  destruct (degS 90 ltac:(lia) x X) as (f2 & F2 & M2 & E2). destruct (radS 99 ltac:(lia) _ M2) as (g2 & G2 & [W2 _] & D2).
  destruct (radL 90 ltac:(lia) x X) as (f3 & F3 & M3 & E3). destruct (degL 108 ltac:(lia) _ M3) as (g3 & G3 & [W3 _] & D3).
  destruct (degL 90 ltac:(lia) x X) as (f4 & F4 & M4 & E4). destruct (radL 108 ltac:(lia) _ M4) as (g4 & G4 & [W4 _] & D4).
  split; [|split; [|split]].
  - apply (fac_within _ _ _ (f1 * g1) W1); [rewrite D1, E1; field; exact PZ|apply K; assumption].
  - apply (fac_within _ _ _ (f2 * g2) W2); [rewrite D2, E2; field; exact PZ|apply K; assumption].
  - apply (fac_within _ _ _ (f3 * g3) W3); [rewrite D3, E3; field; exact PZ|apply K; assumption].
  - apply (fac_within _ _ _ (f4 * g4) W4); [rewrite D4, E4; field; exact PZ|apply K; assumption].
Qed.
(** a larger angle never converts to a smaller one *)
Lemma angles_mono : forall x y : f32, angleIn x -> angleIn y -> val x <= val y ->
  val (radiansS x) <= val (radiansS y) /\ val (degreesS x) <= val (degreesS y) /\
  val (radiansLane x) <= val (radiansLane y) /\ val (degreesLane x) <= val (degreesLane y).
Proof.
  assert (MM : forall n (a b c : f32), (0 <= n <= 118)%Z -> mid n a -> mid n b -> fin c -> handy (val c) -> 0 <= val c -> val a <= val b -> val (a * c)%sc <= val (b * c)%sc).
  { intros n a b c N [Fa A] [Fb B] Fc C P L. destruct (rnd_step n (val a * val c) N (handy_mul n _ _ C A)) as [S _].
    destruct (rnd_step n (val b * val c) N (handy_mul n _ _ C B)) as [T _].
    rewrite (proj2 (mul_small a c Fa Fc S)), (proj2 (mul_small b c Fb Fc T)). apply rnd_le, Rmult_le_compat_r; assumption. }
  assert (DD : forall n (a b c : f32), (0 <= n <= 118)%Z -> mid n a -> mid n b -> fin c -> handy (val c) -> 0 <= val c -> val a <= val b -> val (a / c)%sc <= val (b / c)%sc).
  { intros n a b c N [Fa A] [Fb B] Fc C P L. destruct (handy_inv _ C) as [C' Z]. destruct (rnd_step n (val a / val c) N (handy_mul n _ _ C' A)) as [S _].
    destruct (rnd_step n (val b / val c) N (handy_mul n _ _ C' B)) as [T _].
    rewrite (proj2 (div_small a c Fa Fc Z S)), (proj2 (div_small b c Fb Fc Z T)). apply rnd_le, Rmult_le_compat_r; [|assumption].
    apply Rlt_le, Rinv_0_lt_compat. lra. }
  intros x y X Y L. apply angle_mid in X. apply angle_mid in Y.
  assert (PP : 0 <= val (piF : f32)) by (rewrite (proj2 pi_val); unfold P0; lra). assert (NN : 0 <= val (n180 : f32)) by (rewrite (proj2 n180_val); lra).
  assert (fpos : forall f, fac 1 f -> 0 <= f) by (intros f F; unfold fac in F; apply Rabs_le_inv in F; lra).
  destruct toRad as (f1 & F1 & C1 & E1 & H1). destruct toDeg as (f2 & F2 & C2 & E2 & H2). apply fpos in F1. apply fpos in F2.
  destruct (mid_mul 90 x piF ltac:(lia) X (proj1 pi_val) handy_pi) as (? & _ & X1 & _). destruct (mid_mul 90 y piF ltac:(lia) Y (proj1 pi_val) handy_pi) as (? & _ & Y1 & _).
  destruct (mid_mul 90 x n180 ltac:(lia) X (proj1 n180_val) handy_180) as (? & _ & X2 & _). destruct (mid_mul 90 y n180 ltac:(lia) Y (proj1 n180_val) handy_180) as (? & _ & Y2 & _).
  split; [|split; [|split]].
  - apply (MM 90%Z); try assumption; [lia|]. rewrite E1. unfold P0. lra.
  - apply (MM 90%Z); try assumption; [lia|]. rewrite E2. apply Rmult_le_pos; [|exact F2]. unfold P0. replace (180 / (13176795 / 4194304)) with (180 * 4194304 / 13176795) by field. lra.
  - apply (DD 99%Z); try assumption; try lia; try apply handy_180; try apply n180_val.
    apply (MM 90%Z); try assumption; try lia; try apply handy_pi; apply pi_val.
  - apply (DD 99%Z); try assumption; try lia; try apply handy_pi; try apply pi_val.
    apply (MM 90%Z); try assumption; try lia; try apply handy_180; apply n180_val.
Qed.
(** the two forms differ: in the last bit at five degrees, and in being finite at 2^127 *)
Lemma five_differs : angleIn (slit 5 0) /\ bits_of_b32 (radiansLane (slit 5 0)) = (bits_of_b32 (radiansS (slit 5 0)) + 1)%Z.
Proof.
  split; [|vm_compute; reflexivity]. destruct (lit_Z 5 ltac:(lia)) as [F V]. split; [exact F|]. right. rewrite V, Rabs_right by lra. split.
  - apply Rle_trans with (bpow radix2 0); [apply bpow_le; lia|cbn; lra].
  - apply Rle_trans with (bpow radix2 3); [cbn; lra|apply bpow_le; lia].
Qed.
Lemma lane_overflows : exists x : f32, fin x /\ fin (radiansS x) /\ ~ fin (radiansLane x).
Proof.
  exists (slit 1 127). split; [vm_compute; reflexivity|]. split; [vm_compute; reflexivity|]. intros H. vm_compute in H. discriminate H.
Qed.
