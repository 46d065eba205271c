(** Barycentric coordinates in binary32. *)
From Coq Require Import ZArith Bool List Reals Lra Lia Psatz.
From Flocq Require Import Core.Core IEEE754.BinarySingleNaN IEEE754.Binary IEEE754.Bits.
From Verif.Model Require Import Outcome Scalar Vec Simd Aabb Matrix Geometry.
From Verif.Spec Require Import GeomSpec EuclidSpec LaneSpec SatErrSpec TriErrSpec.
From Verif.Proofs Require Import OrdScalar F32Round F32Err NormProofs RayErr SahCosts NumericProofs LaneProofs SphereErr AabbWitness ShLoop SatErr TriErr.
Import ListNotations.
Local Open Scope R_scope.
Notation U := (/ 16777216) (only parsing).

(** ** Dot products and determinants *)
Lemma dot_grid : forall p e f B C (a b : vec4 f32), (-126 <= e + f)%Z -> g3 e B a -> g3 f C b -> B * C <= 10000000000000000000000000000000000000 ->
  gnum (e + f) (3.2 * (B * C)) (dot3 p a b).
Proof.
  intros p e f B C a b He (A0 & A1 & A2) (B0 & B1 & B2) HB.
  assert (PB : 0 <= B * C).
  { destruct A0 as (_ & _ & K), B0 as (_ & _ & K'). pose proof (Rabs_pos (val (vx a))). pose proof (Rabs_pos (val (vx b))). apply Rmult_le_pos; lra. }
  destruct (g_mul e f B C _ _ He A0 B0 ltac:(lra)) as [P0 _]. destruct (g_mul e f B C _ _ He A1 B1 ltac:(lra)) as [P1 _]. destruct (g_mul e f B C _ _ He A2 B2 ltac:(lra)) as [P2 _].
  destruct (g_add (e + f) _ _ _ _ He P0 P1 ltac:(lra)) as [Q0 _].
  pose proof (g_0 (e + f) 0 (Rle_refl 0)) as [Z _].
  destruct (g_add (e + f) _ _ _ _ He P2 Z ltac:(lra)) as [Q1 _].
  destruct (g_add (e + f) _ _ _ _ He Q0 P2 ltac:(lra)) as [Q2 _].
  destruct (g_add (e + f) _ _ _ _ He Q0 Q1 ltac:(lra)) as [Q3 _].
  destruct p; [eapply g_wide; [|exact Q2]|eapply g_wide; [|exact Q3]|eapply g_wide; [|exact Q3]|eapply g_wide; [|exact Q3]|eapply g_wide; [|exact Q2]]; lra.
Qed.
Lemma dot_err : forall p (a b : vec4 f32) A B M, g3 (-31) 1100000000 a -> g3 (-31) 1100000000 b -> closeV a A -> closeV b B -> within3 M A -> within3 M B ->
  gnum (-62) 3900000000000000000 (dot3 p a b) /\ Rabs (val (dot3 p a b) - dotS A B) <= 15.03 * U * (M * M) /\ Rabs (dotS A B) <= 3 * (M * M).
Proof.
  intros p a b A B M Ga Gb (A0 & A1 & A2) (B0 & B1 & B2) (W0 & W1 & W2) (X0 & X1 & X2).
  split; [eapply g_wide; [|apply (dot_grid p (-31) (-31) _ _ a b ltac:(lia) Ga Gb)]; lra|].
  destruct (dot_pure p (-31) (-31) _ _ a b ltac:(lia) Ga Gb ltac:(lra)) as [_ E].
  destruct (prod_close _ _ _ _ A0 B0) as [P0 Q0]. destruct (prod_close _ _ _ _ A1 B1) as [P1 Q1]. destruct (prod_close _ _ _ _ A2 B2) as [P2 Q2].
  assert (MM : forall X Y, Rabs X <= M -> Rabs Y <= M -> Rabs (X * Y) <= M * M) by (intros; rewrite Rabs_mult; apply Rmult_le_compat; try apply Rabs_pos; assumption).
  pose proof (MM _ _ W0 X0) as M0. pose proof (MM _ _ W1 X1) as M1. pose proof (MM _ _ W2 X2) as M2.
  unfold absDot, dotS, realV in *. cbn [vx vy vz] in *. apply abs2 in E, P0, P1, P2.
  split; [|apply abs2 in M0, M1, M2]; apply Rabs_le; lra.
Qed.
Lemma det_big : forall e B C (a b c d : f32), (-126 <= e + e)%Z -> gnum e B a -> gnum e B b -> gnum e C c -> gnum e C d -> B * C <= 20000000000000000000000000000000000000 ->
  gnum (e + e) (2.1 * (B * C)) (a * c - b * d)%sc /\
  Rabs (val (a * c - b * d)%sc - (val a * val c - val b * val d)) <= 2.001 * U * (Rabs (val a * val c) + Rabs (val b * val d)).
Proof.
  intros e B C a b c d He A0 A1 C0 C1 HB.
  assert (PB : 0 <= B * C).
  { destruct A0 as (_ & _ & K), C0 as (_ & _ & K'). pose proof (Rabs_pos (val a)). pose proof (Rabs_pos (val c)). apply Rmult_le_pos; lra. }
  destruct (g_mul e e B C a c He A0 C0 ltac:(lra)) as [P0 E0].
  destruct (g_mul e e B C b d He A1 C1 ltac:(lra)) as [P1 E1].
  destruct (g_sub (e + e) _ _ _ _ He P0 P1 ltac:(lra)) as [Q0 F0].
  split; [eapply g_wide; [|exact Q0]; lra|].
  assert (E1' : Rabs (- val (b * d)%sc - - (val b * val d)) <= U * Rabs (val b * val d)).
  { rewrite <- Rabs_Ropp. replace (- (- val (b * d)%sc - - (val b * val d))) with (val (b * d)%sc - val b * val d) by ring. exact E1. }
  apply (sum_rel1 (val (a * c)%sc) (- val (b * d)%sc) _ (val a * val c) (- (val b * val d)) _ _ E0 E1' (Rle_refl _)); [rewrite Rabs_Ropp; apply Rle_refl|exact F0].
Qed.
Lemma minor_near : forall (a b c d : f32) A B C D K, 0 <= K ->
  gnum (-62) 3900000000000000000 a -> gnum (-62) 3900000000000000000 b -> gnum (-62) 3900000000000000000 c -> gnum (-62) 3900000000000000000 d ->
  Rabs (val a - A) <= 15.03 * U * K -> Rabs (val b - B) <= 15.03 * U * K -> Rabs (val c - C) <= 15.03 * U * K -> Rabs (val d - D) <= 15.03 * U * K ->
  Rabs A <= 3 * K -> Rabs B <= 3 * K -> Rabs C <= 3 * K -> Rabs D <= 3 * K ->
  gnum (-124) 32000000000000000000000000000000000000 (a * c - b * d)%sc /\ Rabs (val (a * c - b * d)%sc - (A * C - B * D)) <= 217 * U * (K * K).
Proof.
  intros a b c d A B C D K HK Ga Gb Gc Gd Ea Eb Ec Ed BA BB BC BD.
  destruct (det_big (-62) _ _ a b c d ltac:(lia) Ga Gb Gc Gd ltac:(lra)) as [G E]. split; [eapply g_wide; [|exact G]; lra|].
  assert (KK : 0 <= K * K) by nra.
  assert (T : forall x y X Y, Rabs (x - X) <= 15.03 * U * K -> Rabs (y - Y) <= 15.03 * U * K -> Rabs X <= 3 * K -> Rabs Y <= 3 * K ->
     Rabs (x * y) <= 9.001 * (K * K) /\ Rabs (x * y - X * Y) <= 90.2 * U * (K * K)).
  { intros x y X Y Hx Hy BX BY.
    assert (Bx : Rabs x <= 3.0001 * K) by (apply abs2 in Hx, BX; apply Rabs_le; lra).
    assert (By : Rabs y <= 3.0001 * K) by (apply abs2 in Hy, BY; apply Rabs_le; lra).
    split.
    - rewrite Rabs_mult. apply Rle_trans with (3.0001 * K * (3.0001 * K)); [apply Rmult_le_compat; try apply Rabs_pos; assumption|]. lra.
    - replace (x * y - X * Y) with ((x - X) * y + X * (y - Y)) by ring. eapply Rle_trans; [apply Rabs_triang|]. rewrite !Rabs_mult.
      assert (P : Rabs (x - X) * Rabs y <= 15.03 * U * K * (3.0001 * K)) by (apply Rmult_le_compat; try apply Rabs_pos; assumption).
      assert (Q : Rabs X * Rabs (y - Y) <= 3 * K * (15.03 * U * K)) by (apply Rmult_le_compat; try apply Rabs_pos; assumption). lra. }
  destruct (T _ _ _ _ Ea Ec BA BC) as [P1 Q1]. destruct (T _ _ _ _ Eb Ed BB BD) as [P2 Q2].
  apply abs2 in E, Q1, Q2. apply Rabs_le. lra.
Qed.
(** ** The quotient *)
Lemma inverse_rel : forall d : f32, gnum (-124) 32000000000000000000000000000000000000 d -> 0 < val d ->
  fin (f1 / d)%sc /\ Rabs (val (f1 / d)%sc - / val d) <= U * / val d.
Proof.
  intros d (F & G & B) P. rewrite Rabs_pos_eq in B by lra.
  assert (L : bpow radix2 (-124) <= val d) by (destruct (grid_gap _ _ G) as [Z|Z]; [lra|rewrite Rabs_pos_eq in Z by lra; exact Z]).
  destruct (lit_Z 1 ltac:(lia)) as [F1 V1]. change (slit 1 0 : f32) with (f1 : f32) in *.
  assert (I0 : 0 < / val d) by (apply Rinv_0_lt_compat, P).
  assert (IU : / val d <= bpow radix2 124) by (rewrite <- (Rinv_inv (bpow radix2 124)); rewrite <- bpow_opp; apply Rinv_le_contravar; [apply bpow_gt_0|exact L]).
  assert (E1 : val (f1 : f32) / val d = / val d) by (rewrite V1; unfold Rdiv; apply Rmult_1_l).
  destruct (div_small f1 d F1 F ltac:(lra)) as [FQ VQ].
  { rewrite E1. unfold small. rewrite Rabs_pos_eq by lra. eapply Rle_trans; [exact IU|]. apply bpow_le. lia. }
  split; [exact FQ|]. rewrite VQ, E1. destruct (rel_normal (/ val d)) as (e & He & ->).
  { rewrite Rabs_pos_eq by lra. apply Rle_trans with (/ bpow radix2 126); [right; rewrite <- bpow_opp; reflexivity|]. apply Rinv_le_contravar; [exact P|].
    eapply Rle_trans; [exact B|]. change (bpow radix2 126) with 85070591730234615865843651857942052864. lra. }
  rewrite u24_val in He. replace (/ val d * (1 + e) - / val d) with (e * / val d) by ring. rewrite Rabs_mult, (Rabs_pos_eq (/ val d)) by lra.
  apply Rmult_le_compat_r; lra.
Qed.
Lemma quotient_near : forall n d D v X, 0 < D -> 0 <= X -> X <= 4096 * D -> D <= 9 * X -> Rabs (d - D) <= 217 * U * X -> Rabs (n - v * D) <= 217 * U * X ->
  0 < d /\ Rabs (n / d - v) <= 229.3 * U * (X / D) * (1 + Rabs v).
Proof.
  intros n d D v X HD HX HX2 HD2 Hd Hn.
  assert (L : 0.947 * D <= d) by (apply abs2 in Hd; lra). assert (P : 0 < d) by lra. split; [exact P|].
  replace (n / d - v) with ((n - v * D - v * (d - D)) / d) by (field; lra).
  assert (Q : Rabs (n - v * D - v * (d - D)) <= 217 * U * X * (1 + Rabs v)).
  { unfold Rminus at 1. eapply Rle_trans; [apply Rabs_triang|]. rewrite Rabs_Ropp, Rabs_mult.
    pose proof (Rmult_le_compat_l (Rabs v) _ _ (Rabs_pos v) Hd). lra. }
  unfold Rdiv at 1. rewrite Rabs_mult, (Rabs_pos_eq (/ d)) by (left; apply Rinv_0_lt_compat, P).
  pose proof (Rabs_pos v) as PV.
  apply Rle_trans with (217 * U * X * (1 + Rabs v) * (/ (0.947 * D))).
  - apply Rmult_le_compat; [apply Rabs_pos|left; apply Rinv_0_lt_compat, P|exact Q|apply Rinv_le_contravar; [lra|exact L]].
  - replace (217 * U * X * (1 + Rabs v) * / (0.947 * D)) with (217 / 0.947 * U * (X / D) * (1 + Rabs v)) by (field; lra).
    assert (Y : 0 <= X / D) by (apply Rmult_le_pos; [exact HX|left; apply Rinv_0_lt_compat, HD]).
    apply Rmult_le_compat_r; [lra|]. apply Rmult_le_compat_r; [exact Y|]. lra.
Qed.
Lemma weight_near : forall (n inv : f32) d D v X, fin n -> fin inv -> 0 < D -> 0 <= X -> X <= 4096 * D -> D <= 9 * X ->
  Rabs (d - D) <= 217 * U * X -> Rabs (val n - v * D) <= 217 * U * X -> Rabs (val inv - / d) <= U * / d -> Rabs v <= 100000 ->
  fin (n * inv)%sc /\ Rabs (val (n * inv)%sc - v) <= 250 * U * (X / D) * (1 + Rabs v).
Proof.
  intros n inv d D v X Fn Fi HD HX HX2 HD2 Hd Hn Hi Hv.
  destruct (quotient_near _ _ _ _ _ HD HX HX2 HD2 Hd Hn) as [P E].
  set (Q := X / D) in *.
  assert (Q1 : 1 <= 9 * Q) by (unfold Q; apply (Rmult_le_reg_r D); [exact HD|]; replace (9 * (X / D) * D) with (9 * X) by (field; lra); lra).
  assert (Q2 : Q <= 4096) by (unfold Q; apply (Rmult_le_reg_r D); [exact HD|]; replace (X / D * D) with X by (field; lra); lra).
  pose proof (Rabs_pos v) as PV. set (r := val n / d) in *. set (a := Rabs v) in *.
  assert (W : 229.3 * U * Q * (1 + a) <= 0.06 * (1 + a)) by (apply Rmult_le_compat_r; [lra|]; lra).
  assert (Br : Rabs r <= a + 0.06 * (1 + a)).
  { replace r with ((r - v) + v) by ring. eapply Rle_trans; [apply Rabs_triang|]. fold a. lra. }
  assert (Ex : Rabs (val n * val inv - r) <= U * Rabs r).
  { replace (val n * val inv - r) with (val n * (val inv - / d)) by (unfold r, Rdiv; ring). rewrite Rabs_mult.
    apply Rle_trans with (Rabs (val n) * (U * / d)); [apply Rmult_le_compat_l; [apply Rabs_pos|exact Hi]|].
    unfold r, Rdiv. rewrite Rabs_mult, (Rabs_pos_eq (/ d)) by (left; apply Rinv_0_lt_compat, P). lra. }
  pose proof (Rabs_pos r) as PR.
  assert (Bx : Rabs (val n * val inv) <= 1.001 * Rabs r).
  { replace (val n * val inv) with ((val n * val inv - r) + r) by ring. eapply Rle_trans; [apply Rabs_triang|]. lra. }
  destruct (mul_small n inv Fn Fi) as [F V]; [apply small_num; lra|]. split; [exact F|]. rewrite V.
  pose proof (rnd_err (val n * val inv)) as E2. rewrite u24_val in E2.
  assert (H0 : eta0 <= / 1000000 * U).
  { unfold eta0. apply Rle_trans with (bpow radix2 (-50)); [apply bpow_le; lia|]. change (bpow radix2 (-50)) with (/ 1125899906842624). lra. }
  assert (T : Rabs (rnd (val n * val inv) - v) <= 2.002 * U * Rabs r + eta0 + 229.3 * U * Q * (1 + a)).
  { replace (rnd (val n * val inv) - v) with ((rnd (val n * val inv) - val n * val inv) + (val n * val inv - r) + (r - v)) by ring.
    eapply Rle_trans; [apply Rabs_triang|]. eapply Rle_trans; [apply Rplus_le_compat_r, Rabs_triang|]. lra. }
  eapply Rle_trans; [exact T|].
  assert (Y : 2.002 * U * Rabs r + eta0 <= 2.2 * U * (1 + a)) by lra.
  assert (Z : U * (1 + a) <= 9 * Q * (U * (1 + a))) by (rewrite <- (Rmult_1_l (U * (1 + a))) at 1; apply Rmult_le_compat_r; lra).
  nra.
Qed.
Lemma rest_near : forall (a b : f32) v w E, fin a -> fin b -> / 9 * U <= E -> 250 * E <= 0.0625 ->
  Rabs (val a - v) <= 250 * E * (1 + Rabs v) -> Rabs (val b - w) <= 250 * E * (1 + Rabs w) -> Rabs v <= 100000 -> Rabs w <= 100000 ->
  fin (f1 - a - b)%sc /\ Rabs (val (f1 - a - b)%sc - (1 - v - w)) <= 544 * E * (1 + Rabs v + Rabs w).
Proof.
  intros a b v w E Fa Fb HE HE2 Ea Eb Bv Bw. pose proof (Rabs_pos v) as Pv. pose proof (Rabs_pos w) as Pw.
  destruct (lit_Z 1 ltac:(lia)) as [F1 V1]. change (slit 1 0 : f32) with (f1 : f32) in *.
  assert (Ka : Rabs (val a) <= Rabs v + 0.0625 * (1 + Rabs v)).
  { replace (val a) with ((val a - v) + v) by ring. eapply Rle_trans; [apply Rabs_triang|]. nra. }
  assert (Kb : Rabs (val b) <= Rabs w + 0.0625 * (1 + Rabs w)).
  { replace (val b) with ((val b - w) + w) by ring. eapply Rle_trans; [apply Rabs_triang|]. nra. }
  set (x := Rabs v) in *. set (y := Rabs w) in *.
  assert (K1 : Rabs (1 - val a) <= 1 + x + 0.0625 * (1 + x)) by (apply abs2 in Ka; apply Rabs_le; lra).
  destruct (sub_small f1 a F1 Fa) as [FA VA]; [rewrite V1; apply small_num; lra|]. rewrite V1 in VA.
  pose proof (rnd_err (1 - val a)) as E1. rewrite u24_val, <- VA in E1.
  assert (H0 : eta0 <= / 1000000 * U).
  { unfold eta0. apply Rle_trans with (bpow radix2 (-50)); [apply bpow_le; lia|]. change (bpow radix2 (-50)) with (/ 1125899906842624). lra. }
  set (c := (f1 - a)%sc) in *.
  assert (K2 : Rabs (val c) <= 1.001 * (1 + x + 0.0625 * (1 + x)) + 0.001) by (pose proof K1 as K1'; apply abs2 in E1, K1'; apply Rabs_le; lra).
  assert (K3 : Rabs (val c - val b) <= 1.07 * (1 + x) + 0.1 + x * 0 + y + 0.0625 * (1 + y)) by (apply abs2 in K2, Kb; apply Rabs_le; lra).
  destruct (sub_small c b FA Fb) as [FC VC]; [apply small_num; lra|]. split; [exact FC|].
  pose proof (rnd_err (val c - val b)) as E2. rewrite u24_val, <- VC in E2.
  assert (T : Rabs (val (c - b)%sc - (1 - v - w)) <= 250 * E * (1 + x) + 250 * E * (1 + y) + 2.4 * U * (1 + x + y)).
  { apply abs2 in E1, E2, Ea, Eb. apply Rabs_le. lra. }
  eapply Rle_trans; [exact T|]. assert (0 <= E) by lra.
  assert (Z : U * (1 + x + y) <= 9 * E * (1 + x + y)) by (apply Rmult_le_compat_r; lra).
  nra.
Qed.
Theorem bary_near : forall p (t : triangle f32) (q : vec4 f32) u v w k M,
  coarseV (t0 t) -> coarseV (t1 t) -> coarseV (t2 t) -> coarseV q ->
  within3 M (minusS (realV (t1 t)) (realV (t0 t))) -> within3 M (minusS (realV (t2 t)) (realV (t0 t))) -> within3 M (minusS (realV q) (realV (t0 t))) ->
  lifted (realT t) u v w k (realV q) -> 0 < area4 (realT t) -> M ^ 4 <= 4096 * area4 (realT t) ->
  let e := M ^ 4 / area4 (realT t) / 16777216 in let c := calcBarycentric p t q in
  Rabs (val (vy c) - v) <= 250 * e * (1 + Rabs v) /\ Rabs (val (vz c) - w) <= 250 * e * (1 + Rabs w) /\
  Rabs (val (vx c) - u) <= 544 * e * (1 + Rabs v + Rabs w) /\ val (vw c) = 0 /\ fin (vx c) /\ fin (vy c) /\ fin (vz c) /\ fin (vw c).
Proof.
  intros p t q u v w k M K0 K1 K2 KQ W0 W1 W2 (HS & X0 & X1 & X2) HA HM e c.
  destruct (diff_close _ _ M K1 K0 W0) as [G0 C0]. destruct (diff_close _ _ M K2 K0 W1) as [G1 C1]. destruct (diff_close _ _ M KQ K0 W2) as [G2 C2].
  unfold c, calcBarycentric. set (v0 := vsub (t1 t) (t0 t)) in *. set (v1 := vsub (t2 t) (t0 t)) in *. set (v2 := vsub q (t0 t)) in *.
  set (P := minusS (realV (t1 t)) (realV (t0 t))) in *. set (Q := minusS (realV (t2 t)) (realV (t0 t))) in *. set (S := minusS (realV q) (realV (t0 t))) in *.
  destruct (dot_err p _ _ _ _ M G0 G0 C0 C0 W0 W0) as (G00 & E00 & B00). destruct (dot_err p _ _ _ _ M G0 G1 C0 C1 W0 W1) as (G01 & E01 & B01).
  destruct (dot_err p _ _ _ _ M G1 G1 C1 C1 W1 W1) as (G11 & E11 & B11). destruct (dot_err p _ _ _ _ M G2 G0 C2 C0 W2 W0) as (G20 & E20 & B20).
  destruct (dot_err p _ _ _ _ M G2 G1 C2 C1 W2 W1) as (G21 & E21 & B21).
  set (d00 := dot3 p v0 v0) in *. set (d01 := dot3 p v0 v1) in *. set (d11 := dot3 p v1 v1) in *. set (d20 := dot3 p v2 v0) in *. set (d21 := dot3 p v2 v1) in *.
  clearbody d00 d01 d11 d20 d21.
  assert (KM : 0 <= M * M) by (apply Rle_0_sqr).
  destruct (minor_near d00 d01 d11 d01 _ _ _ _ _ KM G00 G01 G11 G01 E00 E01 E11 E01 B00 B01 B11 B01) as [GD ED].
  destruct (minor_near d11 d01 d20 d21 _ _ _ _ _ KM G11 G01 G20 G21 E11 E01 E20 E21 B11 B01 B20 B21) as [GV EV].
  destruct (minor_near d00 d01 d21 d20 _ _ _ _ _ KM G00 G01 G21 G20 E00 E01 E21 E20 B00 B01 B21 B20) as [GW EW].
  assert (AD : dotS P P * dotS Q Q - dotS P Q * dotS P Q = area4 (realT t)) by (unfold area4, normalS, crossS, dotS, P, Q, minusS, realT; cbn [vx vy vz t0 t1 t2]; ring).
  assert (U1 : u = 1 - v - w) by lra.
  assert (S20 : dotS S P = v * dotS P P + w * dotS P Q).
  { unfold S, minusS. rewrite X0, X1, X2, U1. unfold normalS, crossS, dotS, P, Q, minusS, realT. cbn [vx vy vz t0 t1 t2]. ring. }
  assert (S21 : dotS S Q = v * dotS P Q + w * dotS Q Q).
  { unfold S, minusS. rewrite X0, X1, X2, U1. unfold normalS, crossS, dotS, P, Q, minusS, realT. cbn [vx vy vz t0 t1 t2]. ring. }
  assert (NV : dotS Q Q * dotS S P - dotS P Q * dotS S Q = v * area4 (realT t)) by (rewrite <- AD, S20, S21; ring).
  assert (NW : dotS P P * dotS S Q - dotS P Q * dotS S P = w * area4 (realT t)) by (rewrite <- AD, S20, S21; ring).
  assert (KK : M * M * (M * M) = M ^ 4) by ring. rewrite KK in *.
  assert (MP : forall x y, Rabs x <= 3 * (M * M) -> Rabs y <= 3 * (M * M) -> Rabs (x * y) <= 9 * M ^ 4).
  { intros x y Hx Hy. rewrite Rabs_mult, <- KK. apply Rle_trans with (3 * (M * M) * (3 * (M * M))); [apply Rmult_le_compat; try apply Rabs_pos; assumption|lra]. }
  assert (D9 : area4 (realT t) <= 9 * M ^ 4).
  { rewrite <- AD. pose proof (MP _ _ B00 B11) as T. apply abs2 in T. assert (0 <= dotS P Q * dotS P Q) by (apply Rle_0_sqr). lra. }
  assert (BW : forall a s, a = s * area4 (realT t) -> Rabs a <= 18 * M ^ 4 -> Rabs s <= 100000).
  { intros a s -> Ha. rewrite Rabs_mult, (Rabs_pos_eq (area4 _)) in Ha by lra. apply (Rmult_le_reg_r (area4 (realT t))); [exact HA|]. lra. }
  assert (Bv : Rabs v <= 100000).
  { apply (BW _ _ NV). pose proof (MP _ _ B11 B20) as T. pose proof (MP _ _ B01 B21) as T'. apply abs2 in T, T'. apply Rabs_le. lra. }
  assert (Bw : Rabs w <= 100000).
  { apply (BW _ _ NW). pose proof (MP _ _ B00 B21) as T. pose proof (MP _ _ B01 B20) as T'. apply abs2 in T, T'. apply Rabs_le. lra. }
  rewrite AD in ED. rewrite NV in EV. rewrite NW in EW. set (A := area4 (realT t)) in *.
  assert (PM : 0 <= M ^ 4) by (rewrite <- KK; apply Rle_0_sqr).
  destruct (quotient_near 0 _ A 0 _ HA PM HM D9 ED) as [PD _]; [rewrite Rmult_0_l, Rminus_0_r, Rabs_R0; lra|].
  destruct (inverse_rel _ GD PD) as [FI EI].
  set (D := (d00 * d11 - d01 * d01)%sc) in *. set (inv := (f1 / D)%sc) in *.
  destruct (weight_near _ inv _ A v _ (proj1 GV) FI HA PM HM D9 ED EV EI Bv) as [FV RV].
  destruct (weight_near _ inv _ A w _ (proj1 GW) FI HA PM HM D9 ED EW EI Bw) as [FW RW].
  set (a := ((d11 * d20 - d01 * d21) * inv)%sc) in *. set (b := ((d00 * d21 - d01 * d20) * inv)%sc) in *. clearbody a b.
  assert (EE : 250 * U * (M ^ 4 / A) = 250 * e) by (unfold e; lra). rewrite EE in RV, RW.
  assert (L1 : / 9 * U <= e).
  { unfold e. apply (Rmult_le_reg_r A); [exact HA|]. replace (M ^ 4 / A / 16777216 * A) with (M ^ 4 * U) by (field; lra). lra. }
  assert (L2 : 250 * e <= 0.0625).
  { unfold e. apply (Rmult_le_reg_r A); [exact HA|]. replace (250 * (M ^ 4 / A / 16777216) * A) with (250 * U * M ^ 4) by (field; lra). lra. }
  destruct (rest_near a b v w e FV FW L1 L2 RV RW Bv Bw) as [FU RU].
  destruct (g_0 0 0 (Rle_refl 0)) as [(Fz & _) Vz]. rewrite U1.
  cbn [vx vy vz vw]. tauto.
Qed.
(** ** A concrete case *)
Definition exT : triangle f32 := mkTriangle (v4 0 0 0) (v4 8 0 0) (v4 0 8 0).
Lemma fi_coarse : forall z, (Z.abs z < 2 ^ 24)%Z -> coarse (fi z) /\ val (fi z) = IZR z.
Proof.
  intros z H. destruct (lit_Z z H) as [F V]. change (slit z 0) with (fi z) in *. split; [|exact V]. split; [exact F|]. rewrite V. split.
  - exists (z * 2 ^ 31)%Z. rewrite mult_IZR, (IZR_Zpower radix2) by lia. rewrite Rmult_assoc, <- bpow_plus. cbn. ring.
  - rewrite <- abs_IZR. rewrite <- (IZR_Zpower radix2) by lia. apply IZR_le. change (radix2 ^ 29)%Z with (2 ^ 29)%Z. lia.
Qed.
Lemma v4_coarse : forall x y z, (Z.abs x < 2 ^ 24)%Z -> (Z.abs y < 2 ^ 24)%Z -> (Z.abs z < 2 ^ 24)%Z ->
  coarseV (v4 x y z) /\ vx (realV (v4 x y z)) = IZR x /\ vy (realV (v4 x y z)) = IZR y /\ vz (realV (v4 x y z)) = IZR z.
Proof.
  intros x y z X Y Z. destruct (fi_coarse x X), (fi_coarse y Y), (fi_coarse z Z). unfold coarseV, v4, realV. cbn [vx vy vz]. tauto.
Qed.
Theorem tri_example : let q := v4 2 2 1 in let R := realT exT in
  coarseV (t0 exT) /\ coarseV (t1 exT) /\ coarseV (t2 exT) /\ coarseV q /\ cornersNear 6 R (realV q) /\ lifted R (/ 2) (/ 4) (/ 4) (/ 64) (realV q) /\
  area4 R = 4096 /\
  136 / 16777216 * 6 ^ 4 + 12 * 6 ^ 2 * (/ 64) ^ 2 * area4 R < Rabs (/ 2 * / 4) * area4 R /\
  within3 8 (minusS (t1 R) (t0 R)) /\ within3 8 (minusS (t2 R) (t0 R)) /\ within3 8 (minusS (realV q) (t0 R)) /\ 8 ^ 4 <= 4096 * area4 R.
Proof.
  cbv zeta. unfold exT, realT. cbn [t0 t1 t2].
  destruct (v4_coarse 0 0 0 ltac:(lia) ltac:(lia) ltac:(lia)) as (G0 & X0 & Y0 & Z0).
  destruct (v4_coarse 8 0 0 ltac:(lia) ltac:(lia) ltac:(lia)) as (G1 & X1 & Y1 & Z1).
  destruct (v4_coarse 0 8 0 ltac:(lia) ltac:(lia) ltac:(lia)) as (G2 & X2 & Y2 & Z2).
  destruct (v4_coarse 2 2 1 ltac:(lia) ltac:(lia) ltac:(lia)) as (G3 & X3 & Y3 & Z3).
  assert (AA : forall m x, - m <= x <= m -> Rabs x <= m) by (intros; apply Rabs_le; lra).
  assert (EA : area4 (mkTriangle (realV (v4 0 0 0)) (realV (v4 8 0 0)) (realV (v4 0 8 0))) = 4096).
  { unfold area4, dotS, normalS, crossS, minusS. cbn [vx vy vz t0 t1 t2]. rewrite X0, Y0, Z0, X1, Y1, Z1, X2, Y2, Z2. ring. }
  split; [exact G0|]. split; [exact G1|]. split; [exact G2|]. split; [exact G3|].
  split.
  { unfold cornersNear, within3, minusS. cbn [vx vy vz t0 t1 t2]. rewrite X0, Y0, Z0, X1, Y1, Z1, X2, Y2, Z2, X3, Y3, Z3.
    repeat split; apply AA; lra. }
  split.
  { unfold lifted, normalS, crossS, minusS. cbn [vx vy vz t0 t1 t2]. rewrite X0, Y0, Z0, X1, Y1, Z1, X2, Y2, Z2, X3, Y3, Z3. repeat split; lra. }
  rewrite EA. split; [reflexivity|]. split; [rewrite Rabs_pos_eq; lra|].
  unfold within3, minusS. cbn [vx vy vz]. rewrite X0, Y0, Z0, X1, Y1, Z1, X2, Y2, Z2, X3, Y3, Z3.
  repeat split; try (apply AA); lra.
Qed.
Theorem exact_example : let q := v4 2 2 0 in exactDiff (t0 exT) q /\ exactDiff (t1 exT) q /\ exactDiff (t2 exT) q /\ inTriangle (realT exT) (realV q).
Proof.
  cbv zeta. unfold exT, realT. cbn [t0 t1 t2].
  assert (E : forall a b c, (Z.abs a < 1000)%Z -> (Z.abs b < 1000)%Z -> (Z.abs c < 1000)%Z -> exactDiff (v4 a b c) (v4 2 2 0)).
  { intros a b c A B C. unfold exactDiff, v4. cbn [vx vy vz].
    assert (F : forall x, (Z.abs x < 2000)%Z -> fin (fi x) /\ val (fi x) = IZR x) by (intros x H; destruct (fi_coarse x ltac:(lia)) as [(H1 & _) H2]; auto).
    assert (Q : forall x, (Z.abs x < 1000)%Z -> forall y, (Z.abs y < 1000)%Z -> representable (val (fi x) - val (fi y)) /\ Rabs (val (fi x) - val (fi y)) <= bpow radix2 30).
    { intros x Hx y Hy. destruct (F x ltac:(lia)) as [_ ->]. destruct (F y ltac:(lia)) as [_ ->]. destruct (F (x - y)%Z ltac:(lia)) as [F3 V3]. split.
      - exists (fi (x - y)). split; [exact F3|]. rewrite V3. apply minus_IZR.
      - rewrite <- minus_IZR, <- abs_IZR. change (bpow radix2 30) with (IZR 1073741824). apply IZR_le. lia. }
    destruct (Q a A 2%Z ltac:(lia)) as [R0 L0]. destruct (Q b B 2%Z ltac:(lia)) as [R1 L1]. destruct (Q c C 0%Z ltac:(lia)) as [R2 L2].
    destruct (F a ltac:(lia)), (F b ltac:(lia)), (F c ltac:(lia)), (F 2%Z ltac:(lia)), (F 0%Z ltac:(lia)).
    unfold within3, minusS, realV. cbn [vx vy vz]. tauto. }
  split; [apply E; lia|]. split; [apply E; lia|]. split; [apply E; lia|].
  destruct (v4_coarse 0 0 0 ltac:(lia) ltac:(lia) ltac:(lia)) as (G0 & X0 & Y0 & Z0).
  destruct (v4_coarse 8 0 0 ltac:(lia) ltac:(lia) ltac:(lia)) as (G1 & X1 & Y1 & Z1).
  destruct (v4_coarse 0 8 0 ltac:(lia) ltac:(lia) ltac:(lia)) as (G2 & X2 & Y2 & Z2).
  destruct (v4_coarse 2 2 0 ltac:(lia) ltac:(lia) ltac:(lia)) as (G3 & X3 & Y3 & Z3).
  exists (/ 2), (/ 4), (/ 4). unfold combination. cbn [t0 t1 t2]. rewrite X0, Y0, Z0, X1, Y1, Z1, X2, Y2, Z2, X3, Y3, Z3. repeat split; lra.
Qed.
