(** Points against triangles in binary32. *)
From Coq Require Import ZArith Bool List Reals Lra Lia Psatz.
From Flocq Require Import Core.Core IEEE754.BinarySingleNaN IEEE754.Binary IEEE754.Bits.
From Verif.Model Require Import Outcome Scalar Vec Simd Aabb Matrix Geometry.
From Verif.Spec Require Import GeomSpec EuclidSpec LaneSpec SatErrSpec TriErrSpec.
From Verif.Proofs Require Import OrdScalar F32Round F32Err NormProofs RayErr SahCosts NumericProofs LaneProofs SphereErr AabbWitness ShLoop SatErr.
Import ListNotations.
Local Open Scope R_scope.
Notation U := (/ 16777216) (only parsing).

(** ** Exact differences: the signs survive *)
Lemma rnd_nonneg : forall x, 0 <= x -> 0 <= rnd x.
Proof. intros x H. rewrite <- rnd_0. apply F32Round.rnd_le. exact H. Qed.
Lemma rnd_nonpos : forall x, x <= 0 -> rnd x <= 0.
Proof. intros x H. rewrite <- rnd_0. apply F32Round.rnd_le. exact H. Qed.
Lemma rnd_bound : forall x B, Rabs x <= B -> Rabs (rnd x) <= 1.01 * B + 1.
Proof.
  intros x B H. pose proof (rnd_err x) as E. rewrite u24_val in E.
  assert (eta0 <= 1) by (unfold eta0; change 1 with (bpow radix2 0); apply bpow_le; lia).
  pose proof (Rabs_pos x). replace (rnd x) with ((rnd x - x) + x) by ring. eapply Rle_trans; [apply Rabs_triang|]. lra.
Qed.
Lemma det_sign : forall (a b c d : f32) B, fin a -> fin b -> fin c -> fin d -> Rabs (val a) <= B -> Rabs (val b) <= B -> Rabs (val c) <= B -> Rabs (val d) <= B ->
  B <= 1100000000 ->
  fin (a * c - b * d)%sc /\ Rabs (val (a * c - b * d)%sc) <= 2600000000000000000 /\
  (0 <= val a * val c - val b * val d -> 0 <= val (a * c - b * d)%sc) /\ (val a * val c - val b * val d <= 0 -> val (a * c - b * d)%sc <= 0).
Proof.
  intros a b c d B Fa Fb Fc Fd Ba Bb Bc Bd HB.
  assert (P : forall x y : R, Rabs x <= B -> Rabs y <= B -> Rabs (x * y) <= 1210000000000000000).
  { intros x y Hx Hy. rewrite Rabs_mult. pose proof (Rabs_pos x). pose proof (Rabs_pos y). apply Rle_trans with (1100000000 * 1100000000); [apply Rmult_le_compat; lra|lra]. }
  pose proof (P _ _ Ba Bc) as P1. pose proof (P _ _ Bb Bd) as P2.
  destruct (mul_small a c Fa Fc) as [F1 V1]; [apply small_num; lra|].
  destruct (mul_small b d Fb Fd) as [F2 V2]; [apply small_num; lra|].
  pose proof (rnd_bound _ _ P1) as Q1. pose proof (rnd_bound _ _ P2) as Q2.
  assert (Q : Rabs (val (a * c)%sc - val (b * d)%sc) <= 2450000000000000000).
  { rewrite V1, V2. apply abs2 in Q1, Q2. apply Rabs_le. lra. }
  destruct (sub_small (a * c)%sc (b * d)%sc F1 F2) as [F3 V3]; [apply small_num; lra|].
  split; [exact F3|]. split; [rewrite V3; pose proof (rnd_bound _ _ Q); lra|]. rewrite V3, V1, V2.
  split; intros H; [apply rnd_nonneg|apply rnd_nonpos].
  - pose proof (F32Round.rnd_le (val b * val d) (val a * val c) ltac:(lra)). lra.
  - pose proof (F32Round.rnd_le (val a * val c) (val b * val d) ltac:(lra)). lra.
Qed.
(** the lanes of a computed cross product have the signs of the exact ones *)
Definition signed (x : f32) (X : R) : Prop := fin x /\ Rabs (val x) <= 2600000000000000000 /\ (0 <= X -> 0 <= val x) /\ (X <= 0 -> val x <= 0).
Definition fin3 (a : vec4 f32) : Prop := fin (vx a) /\ fin (vy a) /\ fin (vz a).
Lemma cross_sign : forall p (a b : vec4 f32), fin3 a -> fin3 b -> within3 1100000000 (realV a) -> within3 1100000000 (realV b) ->
  let c := cross3 p a b in let C := crossS (realV a) (realV b) in signed (vx c) (vx C) /\ signed (vy c) (vy C) /\ signed (vz c) (vz C).
Proof.
  intros p a b (A0 & A1 & A2) (B0 & B1 & B2) (X0 & X1 & X2) (Y0 & Y1 & Y2) c C. unfold realV in *. cbn [vx vy vz] in *.
  assert (D : forall q r s t : f32, fin q -> fin r -> fin s -> fin t -> Rabs (val q) <= 1100000000 -> Rabs (val r) <= 1100000000 -> Rabs (val s) <= 1100000000 -> Rabs (val t) <= 1100000000 ->
     forall X, X = val q * val s - val r * val t -> signed (q * s - r * t)%sc X).
  { intros q r s t Fq Fr Fs Ft Bq Br Bs Bt X ->. apply (det_sign q r s t 1100000000); try assumption. lra. }
  assert (G : c = cross3 p a b) by reflexivity.
  destruct p; subst c C; unfold cross3, swYZXX, vsub, vmul, map2_4, ofFloat3, crossp, xyz, crossS; cbn [vx vy vz x3 y3 z3];
    (split; [|split]); apply D; try assumption; ring.
Qed.
Lemma dot_nonneg : forall p (a b : vec4 f32) (A B : vec4 R), signed (vx a) (vx A) -> signed (vy a) (vy A) -> signed (vz a) (vz A) ->
  signed (vx b) (vx B) -> signed (vy b) (vy B) -> signed (vz b) (vz B) ->
  (0 <= vx A /\ 0 <= vx B \/ vx A <= 0 /\ vx B <= 0) -> (0 <= vy A /\ 0 <= vy B \/ vy A <= 0 /\ vy B <= 0) -> (0 <= vz A /\ 0 <= vz B \/ vz A <= 0 /\ vz B <= 0) ->
  fin (dot3 p a b) /\ 0 <= val (dot3 p a b).
Proof.
  intros p a b A B S0 S1 S2 T0 T1 T2 H0 H1 H2.
  assert (M : forall (x y : f32) X Y, signed x X -> signed y Y -> (0 <= X /\ 0 <= Y \/ X <= 0 /\ Y <= 0) ->
     fin (x * y)%sc /\ 0 <= val (x * y)%sc <= 6900000000000000000000000000000000000).
  { intros x y X Y (Fx & Bx & Px & Nx) (Fy & By & Py & Ny) H.
    assert (Q : Rabs (val x * val y) <= 6760000000000000000000000000000000000).
    { rewrite Rabs_mult. pose proof (Rabs_pos (val x)). pose proof (Rabs_pos (val y)). apply Rle_trans with (2600000000000000000 * 2600000000000000000); [apply Rmult_le_compat; lra|lra]. }
    destruct (mul_small x y Fx Fy) as [F V]; [apply small_num; lra|]. split; [exact F|]. rewrite V.
    assert (N : 0 <= rnd (val x * val y)).
    { apply rnd_nonneg. destruct H as [[K L]|[K L]].
      - apply Rmult_le_pos; auto.
      - replace (val x * val y) with ((- val x) * (- val y)) by ring. specialize (Nx K). specialize (Ny L). apply Rmult_le_pos; lra. }
    split; [exact N|]. pose proof (rnd_bound _ _ Q) as R1. rewrite Rabs_pos_eq in R1 by exact N. lra. }
  destruct (M _ _ _ _ S0 T0 H0) as [F0 B0]. destruct (M _ _ _ _ S1 T1 H1) as [F1 B1]. destruct (M _ _ _ _ S2 T2 H2) as [F2 B2].
  assert (AD : forall (x y : f32) K L, fin x -> fin y -> 0 <= val x <= K -> 0 <= val y <= L -> K + L <= 40000000000000000000000000000000000000 -> 0 <= K -> 0 <= L ->
     fin (x + y)%sc /\ 0 <= val (x + y)%sc <= 1.01 * (K + L) + 1).
  { intros x y K L Fx Fy Kx Ky Q0 QK QL. assert (Q : Rabs (val x + val y) <= K + L) by (apply Rabs_le; lra).
    destruct (add_small x y Fx Fy) as [F V]; [apply small_num; lra|]. split; [exact F|]. rewrite V.
    assert (N : 0 <= rnd (val x + val y)) by (apply rnd_nonneg; lra). split; [exact N|].
    pose proof (rnd_bound _ _ Q) as R1. rewrite Rabs_pos_eq in R1 by exact N. exact R1. }
  destruct (AD _ _ _ _ F0 F1 B0 B1) as [G0 C0]; [lra|lra|lra|].
  destruct (AD _ _ _ _ G0 F2 C0 B2) as [G1 C1]; [lra|lra|lra|].
  destruct (g_0 0 0 (Rle_refl 0)) as [(Fz & _) Vz].
  destruct (AD _ (f0 : f32) _ 0 F2 Fz B2) as [G2 C2]; [rewrite Vz; lra|lra|lra|lra|].
  destruct (AD _ _ _ _ G0 G2 C0 C2) as [G3 C3]; [lra|lra|lra|].
  destruct p; (split; [first [exact G1|exact G3]|first [apply C1|apply C3]]).
Qed.
Lemma exact_sub : forall a b : vec4 f32, exactDiff a b -> let d := vsub a b in fin3 d /\ within3 1100000000 (realV d) /\
  val (vx d) = val (vx a) - val (vx b) /\ val (vy d) = val (vy a) - val (vy b) /\ val (vz d) = val (vz a) - val (vz b).
Proof.
  intros a b (A0 & A1 & A2 & B0 & B1 & B2 & R0 & R1 & R2 & (W0 & W1 & W2)) d. unfold minusS, realV in W0, W1, W2. cbn [vx vy vz] in W0, W1, W2.
  change (bpow radix2 30) with 1073741824 in *.
  assert (D : forall x y : f32, fin x -> fin y -> representable (val x - val y) -> Rabs (val x - val y) <= 1073741824 ->
     fin (x - y)%sc /\ val (x - y)%sc = val x - val y /\ Rabs (val (x - y)%sc) <= 1100000000).
  { intros x y Fx Fy (z & Fz & Vz) H. destruct (sub_small x y Fx Fy) as [F V]; [apply small_num; lra|].
    assert (E : val (x - y)%sc = val x - val y) by (rewrite V, <- Vz; apply rnd_val). split; [exact F|]. split; [exact E|]. rewrite E. lra. }
  destruct (D _ _ A0 B0 R0 W0) as (F0 & E0 & L0). destruct (D _ _ A1 B1 R1 W1) as (F1 & E1 & L1). destruct (D _ _ A2 B2 R2 W2) as (F2 & E2 & L2).
  unfold d, fin3, within3, realV, vsub, map2_4. cbn [vx vy vz]. tauto.
Qed.
Lemma scaled_crosses : forall (t : triangle R) u v w k q, lifted t u v w k q ->
  let N := normalS t in let e0 := minusS (t2 t) (t1 t) in let e1 := minusS (t0 t) (t2 t) in let e2 := minusS (t1 t) (t0 t) in
  let cr (c e : vec4 R) (s : R) := vx c = s * vx N - k * (vy N * vz e - vz N * vy e) /\ vy c = s * vy N - k * (vz N * vx e - vx N * vz e) /\ vz c = s * vz N - k * (vx N * vy e - vy N * vx e) in
  cr (crossS (minusS (t1 t) q) (minusS (t2 t) q)) e0 u /\ cr (crossS (minusS (t2 t) q) (minusS (t0 t) q)) e1 v /\ cr (crossS (minusS (t0 t) q) (minusS (t1 t) q)) e2 w.
Proof.
  intros t u v w k q (HS & E1 & E2 & E3). cbv zeta. assert (u = 1 - v - w) by lra. subst u.
  unfold crossS at 1 2 3 4 5 6 7 8 9, minusS. cbn [vx vy vz]. rewrite E1, E2, E3.
  unfold normalS, crossS, minusS. cbn [vx vy vz].
  split; [|split]; (split; [|split]); ring.
Qed.
Theorem exact_inside : forall p (t : triangle f32) (q : vec4 f32), exactDiff (t0 t) q -> exactDiff (t1 t) q -> exactDiff (t2 t) q ->
  inTriangle (realT t) (realV q) -> isInsideTriangle p t q = true.
Proof.
  intros p t q D0 D1 D2 (u & v & w & Hu & Hv & Hw & HS & (C0 & C1 & C2)).
  assert (L : lifted (realT t) u v w 0 (realV q)) by (split; [exact HS|]; rewrite C0, C1, C2; split; [|split]; ring).
  destruct (scaled_crosses _ _ _ _ _ _ L) as ((U0 & U1 & U2) & (V0 & V1 & V2) & (W0 & W1 & W2)).
  destruct (exact_sub _ _ D0) as (F0 & B0 & X0 & Y0 & Z0). destruct (exact_sub _ _ D1) as (F1 & B1 & X1 & Y1 & Z1). destruct (exact_sub _ _ D2) as (F2 & B2 & X2 & Y2 & Z2).
  unfold isInsideTriangle. set (p0 := vsub (t0 t) q) in *. set (p1 := vsub (t1 t) q) in *. set (p2 := vsub (t2 t) q) in *.
  destruct (cross_sign p p1 p2 F1 F2 B1 B2) as (SU0 & SU1 & SU2). destruct (cross_sign p p2 p0 F2 F0 B2 B0) as (SV0 & SV1 & SV2).
  destruct (cross_sign p p0 p1 F0 F1 B0 B1) as (SW0 & SW1 & SW2).
  set (N := normalS (realT t)) in *.
  assert (EU : forall a b (x y : vec4 f32), val (vx x) = vx a -> val (vy x) = vy a -> val (vz x) = vz a -> val (vx y) = vx b -> val (vy y) = vy b -> val (vz y) = vz b ->
     crossS (realV x) (realV y) = crossS a b).
  { intros a b x y A0 A1 A2 B0' B1' B2'. unfold crossS, realV. cbn [vx vy vz]. rewrite A0, A1, A2, B0', B1', B2'. reflexivity. }
  assert (T : forall i, vx (minusS i (realV q)) = vx i - val (vx q) /\ vy (minusS i (realV q)) = vy i - val (vy q) /\ vz (minusS i (realV q)) = vz i - val (vz q)) by (intros; unfold minusS, realV; cbn [vx vy vz]; auto).
  rewrite (EU (minusS (t1 (realT t)) (realV q)) (minusS (t2 (realT t)) (realV q)) p1 p2 X1 Y1 Z1 X2 Y2 Z2) in SU0, SU1, SU2.
  rewrite (EU (minusS (t2 (realT t)) (realV q)) (minusS (t0 (realT t)) (realV q)) p2 p0 X2 Y2 Z2 X0 Y0 Z0) in SV0, SV1, SV2.
  rewrite (EU (minusS (t0 (realT t)) (realV q)) (minusS (t1 (realT t)) (realV q)) p0 p1 X0 Y0 Z0 X1 Y1 Z1) in SW0, SW1, SW2.
  assert (SG : forall a b n, 0 <= a -> 0 <= b -> forall x y, x = a * n - 0 * y -> forall x' y', x' = b * n - 0 * y' -> (0 <= x /\ 0 <= x' \/ x <= 0 /\ x' <= 0)).
  { intros a b n Ha Hb x y -> x' y' ->. destruct (Rle_lt_dec 0 n); [left|right]; split; nra. }
  destruct (dot_nonneg p _ _ _ _ SU0 SU1 SU2 SV0 SV1 SV2) as [G0 N0];
    [eapply SG; [| |exact U0|exact V0]; assumption|eapply SG; [| |exact U1|exact V1]; assumption|eapply SG; [| |exact U2|exact V2]; assumption|].
  destruct (dot_nonneg p _ _ _ _ SU0 SU1 SU2 SW0 SW1 SW2) as [G1 N1];
    [eapply SG; [| |exact U0|exact W0]; assumption|eapply SG; [| |exact U1|exact W1]; assumption|eapply SG; [| |exact U2|exact W2]; assumption|].
  destruct (g_0 0 0 (Rle_refl 0)) as [(Fz & _) Vz].
  assert (NS : forall x : f32, fin x -> 0 <= val x -> slt x f0 = false).
  { intros x Fx Nx. apply not_true_is_false. rewrite (slt_iff' _ _ Fx Fz), Vz. lra. }
  rewrite (NS _ G0 N0), (NS _ G1 N1). reflexivity.
Qed.

(** ** Rounded differences *)
Lemma coarse_g : forall x, coarse x -> gnum (-31) 536870912 x.
Proof. intros x (F & G & B). split; [exact F|]. split; [exact G|]. change (bpow radix2 29) with 536870912 in B. exact B. Qed.
Lemma diff_close : forall (c q : vec4 f32) M, coarseV c -> coarseV q -> within3 M (minusS (realV c) (realV q)) -> let w := vsub c q in
  g3 (-31) 1100000000 w /\ closeV w (minusS (realV c) (realV q)).
Proof.
  intros c q M (C0 & C1 & C2) (Q0 & Q1 & Q2) _ w.
  assert (D : forall x y : f32, coarse x -> coarse y -> gnum (-31) 1100000000 (x - y)%sc /\ close (val (x - y)%sc) (val x - val y)).
  { intros x y Hx Hy. destruct (g_sub (-31) _ _ x y ltac:(lia) (coarse_g x Hx) (coarse_g y Hy) ltac:(lra)) as [G E].
    split; [eapply g_wide; [|exact G]; lra|exact E]. }
  destruct (D _ _ C0 Q0) as [G0 E0]. destruct (D _ _ C1 Q1) as [G1 E1]. destruct (D _ _ C2 Q2) as [G2 E2].
  unfold w, g3, closeV, vsub, map2_4, minusS, realV. cbn [vx vy vz]. tauto.
Qed.
Lemma det_near : forall (a b c d : f32) A B C D M, gnum (-31) 1100000000 a -> gnum (-31) 1100000000 b -> gnum (-31) 1100000000 c -> gnum (-31) 1100000000 d ->
  close (val a) A -> close (val b) B -> close (val c) C -> close (val d) D -> Rabs A <= M -> Rabs B <= M -> Rabs C <= M -> Rabs D <= M ->
  gnum (-62) 2600000000000000000 (a * c - b * d)%sc /\ Rabs (val (a * c - b * d)%sc - (A * C - B * D)) <= 8.02 * U * (M * M) /\ Rabs (A * C - B * D) <= 2 * (M * M).
Proof.
  intros a b c d A B C D M Ga Gb Gc Gd Ea Eb Ec Ed BA BB BC BD.
  destruct (det_pure (-31) _ _ a b c d ltac:(lia) Ga Gb Gc Gd ltac:(lra)) as [G E].
  destruct (prod_close _ _ _ _ Ea Ec) as [P1 Q1]. destruct (prod_close _ _ _ _ Eb Ed) as [P2 Q2].
  assert (MM : forall X Y, Rabs X <= M -> Rabs Y <= M -> Rabs (X * Y) <= M * M) by (intros; rewrite Rabs_mult; apply Rmult_le_compat; try apply Rabs_pos; assumption).
  pose proof (MM _ _ BA BC) as M1. pose proof (MM _ _ BB BD) as M2.
  split; [eapply g_wide; [|exact G]; lra|]. apply abs2 in E, P1, P2. split; [|apply abs2 in M1, M2]; apply Rabs_le; lra.
Qed.
Definition near3 (e : R) (c : vec4 f32) (C : vec4 R) : Prop := Rabs (val (vx c) - vx C) <= e /\ Rabs (val (vy c) - vy C) <= e /\ Rabs (val (vz c) - vz C) <= e.
Lemma cross_near : forall p (a b : vec4 f32) A B M, g3 (-31) 1100000000 a -> g3 (-31) 1100000000 b -> closeV a A -> closeV b B -> within3 M A -> within3 M B ->
  g3 (-62) 2600000000000000000 (cross3 p a b) /\ near3 (8.02 * U * (M * M)) (cross3 p a b) (crossS A B) /\ within3 (2 * (M * M)) (crossS A B).
Proof.
  intros p a b A B M (G0 & G1 & G2) (H0 & H1 & H2) (C0 & C1 & C2) (D0 & D1 & D2) (W0 & W1 & W2) (X0 & X1 & X2).
  assert (T : forall (a b c d : f32) A B C D, gnum (-31) 1100000000 a -> gnum (-31) 1100000000 b -> gnum (-31) 1100000000 c -> gnum (-31) 1100000000 d ->
     close (val a) A -> close (val b) B -> close (val c) C -> close (val d) D -> Rabs A <= M -> Rabs B <= M -> Rabs C <= M -> Rabs D <= M ->
     forall X, X = A * C - B * D ->
     gnum (-62) 2600000000000000000 (a * c - b * d)%sc /\ Rabs (val (a * c - b * d)%sc - X) <= 8.02 * U * (M * M) /\ Rabs X <= 2 * (M * M)).
  { intros. subst X. apply det_near; assumption. }
  assert (Q : (gnum (-62) 2600000000000000000 (vx (cross3 p a b)) /\ Rabs (val (vx (cross3 p a b)) - vx (crossS A B)) <= 8.02 * U * (M * M) /\ Rabs (vx (crossS A B)) <= 2 * (M * M)) /\
    (gnum (-62) 2600000000000000000 (vy (cross3 p a b)) /\ Rabs (val (vy (cross3 p a b)) - vy (crossS A B)) <= 8.02 * U * (M * M) /\ Rabs (vy (crossS A B)) <= 2 * (M * M)) /\
    (gnum (-62) 2600000000000000000 (vz (cross3 p a b)) /\ Rabs (val (vz (cross3 p a b)) - vz (crossS A B)) <= 8.02 * U * (M * M) /\ Rabs (vz (crossS A B)) <= 2 * (M * M))).
  { destruct p; unfold cross3, swYZXX, vsub, vmul, map2_4, ofFloat3, crossp, xyz, crossS; cbn [vx vy vz x3 y3 z3];
    (split; [|split]).
    1,4,7,10: eapply (T _ _ _ _ (vz B) (vz A) (vy A) (vy B)); try eassumption; ring.
    1,3,5,7: eapply (T _ _ _ _ (vx B) (vx A) (vz A) (vz B)); try eassumption; ring.
    1,2,3,4: eapply (T _ _ _ _ (vy B) (vy A) (vx A) (vx B)); try eassumption; ring.
    - eapply (T _ _ _ _ (vy A) (vz A) (vz B) (vy B)); try eassumption; ring.
    - eapply (T _ _ _ _ (vz A) (vx A) (vx B) (vz B)); try eassumption; ring.
    - eapply (T _ _ _ _ (vx A) (vy A) (vy B) (vx B)); try eassumption; ring. }
  unfold g3, near3, within3. tauto.
Qed.
Lemma term_near : forall x y X Y K, Rabs (x - X) <= 8.02 * U * K -> Rabs (y - Y) <= 8.02 * U * K -> Rabs X <= 2 * K -> Rabs Y <= 2 * K -> 0 <= K ->
  Rabs (x * y) <= 4.001 * (K * K) /\ Rabs (x * y - X * Y) <= 32.09 * U * (K * K).
Proof.
  intros x y X Y K Hx Hy BX BY HK.
  assert (Bx : Rabs x <= 2.0001 * K) by (apply abs2 in Hx, BX; apply Rabs_le; lra).
  assert (By : Rabs y <= 2.0001 * K) by (apply abs2 in Hy, BY; apply Rabs_le; lra).
  split.
  - rewrite Rabs_mult. apply Rle_trans with (2.0001 * K * (2.0001 * K)); [apply Rmult_le_compat; try apply Rabs_pos; assumption|]. nra.
  - replace (x * y - X * Y) with ((x - X) * y + X * (y - Y)) by ring. eapply Rle_trans; [apply Rabs_triang|]. rewrite !Rabs_mult.
    assert (A : Rabs (x - X) * Rabs y <= 8.02 * U * K * (2.0001 * K)) by (apply Rmult_le_compat; try apply Rabs_pos; assumption).
    assert (B : Rabs X * Rabs (y - Y) <= 2 * K * (8.02 * U * K)) by (apply Rmult_le_compat; try apply Rabs_pos; assumption).
    assert (0 <= K * K) by nra. lra.
Qed.
Lemma dot_near : forall p (a b : vec4 f32) A B M, g3 (-62) 2600000000000000000 a -> g3 (-62) 2600000000000000000 b ->
  near3 (8.02 * U * (M * M)) a A -> near3 (8.02 * U * (M * M)) b B -> within3 (2 * (M * M)) A -> within3 (2 * (M * M)) B ->
  fin (dot3 p a b) /\ Rabs (val (dot3 p a b) - dotS A B) <= 136 * U * (M * M * (M * M)).
Proof.
  intros p a b A B M Ga Gb (A0 & A1 & A2) (B0 & B1 & B2) (W0 & W1 & W2) (X0 & X1 & X2).
  destruct (dot_pure p (-62) (-62) _ _ a b ltac:(lia) Ga Gb ltac:(lra)) as [F E]. split; [exact F|].
  assert (K : 0 <= M * M) by (apply Rle_0_sqr).
  destruct (term_near _ _ _ _ _ A0 B0 W0 X0 K) as [P0 Q0]. destruct (term_near _ _ _ _ _ A1 B1 W1 X1 K) as [P1 Q1]. destruct (term_near _ _ _ _ _ A2 B2 W2 X2 K) as [P2 Q2].
  assert (KK : 0 <= M * M * (M * M)) by (apply Rle_0_sqr).
  unfold absDot, dotS, realV in *. cbn [vx vy vz] in *. apply abs2 in E, Q0, Q1, Q2. apply Rabs_le. lra.
Qed.
Lemma lifted_dot : forall (N e f c d : vec4 R) u v k, dotS N e = 0 -> dotS N f = 0 ->
  vx c = u * vx N - k * (vy N * vz e - vz N * vy e) -> vy c = u * vy N - k * (vz N * vx e - vx N * vz e) -> vz c = u * vz N - k * (vx N * vy e - vy N * vx e) ->
  vx d = v * vx N - k * (vy N * vz f - vz N * vy f) -> vy d = v * vy N - k * (vz N * vx f - vx N * vz f) -> vz d = v * vz N - k * (vx N * vy f - vy N * vx f) ->
  dotS c d = u * v * dotS N N + k * k * dotS N N * dotS e f.
Proof.
  intros N e f c d u v k He Hf C0 C1 C2 D0 D1 D2. unfold dotS at 1. rewrite C0, C1, C2, D0, D1, D2.
  replace (k * k * dotS N N * dotS e f) with (k * k * (dotS N N * dotS e f - dotS N e * dotS N f)) by (rewrite He, Hf; ring).
  unfold dotS. ring.
Qed.
Lemma edge_dot : forall M (a b c : vec4 R), within3 M a -> within3 M b -> within3 M c ->
  forall e f, vx e = vx a - vx b -> vy e = vy a - vy b -> vz e = vz a - vz b -> vx f = vx c - vx a -> vy f = vy c - vy a -> vz f = vz c - vz a ->
  Rabs (dotS e f) <= 12 * (M * M).
Proof.
  intros M a b c (A0 & A1 & A2) (B0 & B1 & B2) (C0 & C1 & C2) e f E0 E1 E2 F0 F1 F2. unfold dotS. rewrite E0, E1, E2, F0, F1, F2.
  assert (T : forall x y z, Rabs x <= M -> Rabs y <= M -> Rabs z <= M -> Rabs ((x - y) * (z - x)) <= 4 * (M * M)).
  { intros x y z Hx Hy Hz. rewrite Rabs_mult. apply abs2 in Hx, Hy, Hz. apply Rle_trans with (2 * M * (2 * M)); [|lra].
    apply Rmult_le_compat; try apply Rabs_pos; apply Rabs_le; lra. }
  pose proof (T _ _ _ A0 B0 C0) as T0. pose proof (T _ _ _ A1 B1 C1) as T1. pose proof (T _ _ _ A2 B2 C2) as T2.
  apply abs2 in T0, T1, T2. apply Rabs_le. lra.
Qed.
Theorem inside_near : forall p (t : triangle f32) (q : vec4 f32) u v w k M,
  coarseV (t0 t) -> coarseV (t1 t) -> coarseV (t2 t) -> coarseV q -> cornersNear M (realT t) (realV q) ->
  lifted (realT t) u v w k (realV q) ->
  let slack := 136 / 16777216 * M ^ 4 + 12 * M ^ 2 * k ^ 2 * area4 (realT t) in
  slack < Rabs (u * v) * area4 (realT t) -> slack < Rabs (u * w) * area4 (realT t) ->
  (isInsideTriangle p t q = true <-> 0 <= u /\ 0 <= v /\ 0 <= w).
Proof.
  intros p t q u v w k M K0 K1 K2 KQ (M0 & M1 & M2) L slack HV HW. pose proof (proj1 L) as HS.
  destruct (diff_close _ _ M K0 KQ M0) as [G0 C0]. destruct (diff_close _ _ M K1 KQ M1) as [G1 C1]. destruct (diff_close _ _ M K2 KQ M2) as [G2 C2].
  unfold isInsideTriangle. set (p0 := vsub (t0 t) q) in *. set (p1 := vsub (t1 t) q) in *. set (p2 := vsub (t2 t) q) in *.
  destruct (cross_near p _ _ _ _ M G1 G2 C1 C2 M1 M2) as (GU & NU & WU).
  destruct (cross_near p _ _ _ _ M G2 G0 C2 C0 M2 M0) as (GV & NV & WV).
  destruct (cross_near p _ _ _ _ M G0 G1 C0 C1 M0 M1) as (GW & NW & WW).
  destruct (dot_near p _ _ _ _ M GU GV NU NV WU WV) as [FV EV].
  destruct (dot_near p _ _ _ _ M GU GW NU NW WU WW) as [FW EW].
  destruct (scaled_crosses _ _ _ _ _ _ L) as ((U0 & U1 & U2) & (V0 & V1 & V2) & (W0 & W1 & W2)).
  change (t0 (realT t)) with (realV (t0 t)) in *. change (t1 (realT t)) with (realV (t1 t)) in *. change (t2 (realT t)) with (realV (t2 t)) in *.
  set (N := normalS (realT t)) in *.
  assert (N0 : dotS N (minusS (realV (t2 t)) (realV (t1 t))) = 0) by (unfold N, normalS, dotS, crossS, minusS, realT; cbn [vx vy vz t0 t1 t2]; ring).
  assert (N1 : dotS N (minusS (realV (t0 t)) (realV (t2 t))) = 0) by (unfold N, normalS, dotS, crossS, minusS, realT; cbn [vx vy vz t0 t1 t2]; ring).
  assert (N2 : dotS N (minusS (realV (t1 t)) (realV (t0 t))) = 0) by (unfold N, normalS, dotS, crossS, minusS, realT; cbn [vx vy vz t0 t1 t2]; ring).
  rewrite (lifted_dot N _ _ _ _ u v k N0 N1 U0 U1 U2 V0 V1 V2) in EV.
  rewrite (lifted_dot N _ _ _ _ u w k N0 N2 U0 U1 U2 W0 W1 W2) in EW.
  assert (EE : forall d, minusS (realV (t2 t)) (realV (t1 t)) = d -> vx d = vx (minusS (realV (t2 t)) (realV q)) - vx (minusS (realV (t1 t)) (realV q))) by (intros d <-; unfold minusS; cbn [vx]; ring).
  assert (D1 : Rabs (dotS (minusS (realV (t2 t)) (realV (t1 t))) (minusS (realV (t0 t)) (realV (t2 t)))) <= 12 * (M * M)).
  { apply (edge_dot M _ _ _ M2 M1 M0); unfold minusS; cbn [vx vy vz]; ring. }
  assert (D2 : Rabs (dotS (minusS (realV (t2 t)) (realV (t1 t))) (minusS (realV (t1 t)) (realV (t0 t)))) <= 12 * (M * M)).
  { replace (dotS (minusS (realV (t2 t)) (realV (t1 t))) (minusS (realV (t1 t)) (realV (t0 t))))
      with (dotS (minusS (realV (t1 t)) (realV (t2 t))) (minusS (realV (t0 t)) (realV (t1 t)))) by (unfold dotS, minusS; cbn [vx vy vz]; ring).
    apply (edge_dot M _ _ _ M1 M2 M0); unfold minusS; cbn [vx vy vz]; ring. }
  change (dotS N N) with (area4 (realT t)) in *. set (A := area4 (realT t)) in *.
  assert (PA : 0 <= A) by (unfold A, area4, dotS; nra).
  set (d1 := dotS _ (minusS (realV (t0 t)) (realV (t2 t)))) in *. set (d2 := dotS _ (minusS (realV (t1 t)) (realV (t0 t)))) in *. clearbody d1 d2.
  assert (X : forall d, Rabs d <= 12 * (M * M) -> Rabs (k * k * A * d) <= 12 * M ^ 2 * k ^ 2 * A).
  { intros d Hd. rewrite Rabs_mult. rewrite (Rabs_pos_eq (k * k * A)) by nra. apply Rle_trans with (k * k * A * (12 * (M * M))); [apply Rmult_le_compat_l; [nra|exact Hd]|]. right. ring. }
  pose proof (X _ D1) as X1. pose proof (X _ D2) as X2.
  destruct (g_0 0 0 (Rle_refl 0)) as [(Fz & _) Vz].
  assert (SG : forall (x : f32) s d, fin x -> Rabs (val x - (s * A + k * k * A * d)) <= 136 * U * (M * M * (M * M)) -> Rabs (k * k * A * d) <= 12 * M ^ 2 * k ^ 2 * A ->
     slack < Rabs s * A -> (slt x f0 = true <-> s < 0) /\ s <> 0).
  { intros x s d Fx Ex Dx HSl. rewrite (slt_iff' _ _ Fx Fz), Vz. unfold slack in HSl. replace (M * M * (M * M)) with (M ^ 4) in Ex by ring.
    assert (P1 : 0 <= M ^ 4) by (replace (M ^ 4) with ((M * M) * (M * M)) by ring; nra).
    assert (P2 : 0 <= 12 * M ^ 2 * k ^ 2 * A) by (pose proof (Rabs_pos (k * k * A * d)); lra).
    apply abs2 in Ex, Dx. destruct (Rlt_le_dec s 0) as [Ns|Ps].
    - rewrite (Rabs_left s Ns) in HSl. split; [split; intros; [exact Ns|lra]|lra].
    - rewrite (Rabs_pos_eq s Ps) in HSl. split; [split; intros; [exfalso; lra|lra]|]. intros Z0. rewrite Z0, Rmult_0_l in HSl. lra. }
  destruct (SG _ _ _ FV EV X1 HV) as [IV NZV]. destruct (SG _ _ _ FW EW X2 HW) as [IW NZW].
  set (bv := slt (dot3 p (cross3 p p1 p2) (cross3 p p2 p0)) f0) in *. set (bw := slt (dot3 p (cross3 p p1 p2) (cross3 p p0 p1)) f0) in *. clearbody bv bw.
  assert (uz : u <> 0) by (intros ->; apply NZV; ring). assert (vz' : v <> 0) by (intros ->; apply NZV; ring). assert (wz : w <> 0) by (intros ->; apply NZW; ring).
  destruct bv, bw; cbn [orb]; split; intros H; try reflexivity; try discriminate H.
  - exfalso. pose proof (proj1 IV eq_refl). nra.
  - exfalso. pose proof (proj1 IV eq_refl). nra.
  - exfalso. pose proof (proj1 IW eq_refl). nra.
  - assert (A1 : 0 <= u * v) by (apply Rnot_lt_le; intros Q; apply IV in Q; discriminate Q).
    assert (A2 : 0 <= u * w) by (apply Rnot_lt_le; intros Q; apply IW in Q; discriminate Q).
    destruct (Rtotal_order u 0) as [Q|[Q|Q]]; [|contradiction|].
    + exfalso. assert (v <= 0) by nra. assert (w <= 0) by nra. lra.
    + split; [lra|]. split; nra.
Qed.
(** ** A centroid that is reported outside *)
Theorem centroid_outside : exists (t : triangle f32) (q : vec4 f32), coarseV (t0 t) /\ coarseV (t1 t) /\ coarseV (t2 t) /\ coarseV q /\
  combination (realT t) (1 / 3) (1 / 3) (1 / 3) (realV q) /\ nonzeroS (normalS (realT t)) /\ forall p, isInsideTriangle p t q = false.
Proof.
  exists (mkTriangle (v4 (-3992020) 12071682 14541432) (v4 14130184 (-13302560) 2782682) (v4 15730836 (-15543751) 1744084)), (v4 8623000 (-5591543) 6356066).
  cbn [t0 t1 t2].
  assert (Q : forall z, (Z.abs z < 2 ^ 24)%Z -> coarse (fi z) /\ val (fi z) = IZR z).
  { intros z H. destruct (lit_Z z H) as [F V]. change (slit z 0) with (fi z) in *. split; [|exact V]. split; [exact F|]. rewrite V. split.
    - exists (z * 2 ^ 31)%Z. rewrite mult_IZR, (IZR_Zpower radix2) by lia. rewrite Rmult_assoc, <- bpow_plus. cbn. ring.
    - rewrite <- abs_IZR. rewrite <- (IZR_Zpower radix2) by lia. apply IZR_le. change (radix2 ^ 29)%Z with (2 ^ 29)%Z. lia. }
  assert (CV : forall x y z, (Z.abs x < 2 ^ 24)%Z -> (Z.abs y < 2 ^ 24)%Z -> (Z.abs z < 2 ^ 24)%Z -> coarseV (v4 x y z)).
  { intros x y z X Y Z. split; [apply Q; exact X|]. split; apply Q; assumption. }
  assert (RV : forall x y z, (Z.abs x < 2 ^ 24)%Z -> (Z.abs y < 2 ^ 24)%Z -> (Z.abs z < 2 ^ 24)%Z ->
     vx (realV (v4 x y z)) = IZR x /\ vy (realV (v4 x y z)) = IZR y /\ vz (realV (v4 x y z)) = IZR z).
  { intros x y z X Y Z. unfold realV, v4. cbn [vx vy vz]. split; [apply Q; exact X|]. split; apply Q; assumption. }
  split; [apply CV; lia|]. split; [apply CV; lia|]. split; [apply CV; lia|]. split; [apply CV; lia|].
  destruct (RV (-3992020) 12071682 14541432 ltac:(lia) ltac:(lia) ltac:(lia))%Z as (A0 & A1 & A2).
  destruct (RV 14130184 (-13302560) 2782682 ltac:(lia) ltac:(lia) ltac:(lia))%Z as (B0 & B1 & B2).
  destruct (RV 15730836 (-15543751) 1744084 ltac:(lia) ltac:(lia) ltac:(lia))%Z as (C0 & C1 & C2).
  destruct (RV 8623000 (-5591543) 6356066 ltac:(lia) ltac:(lia) ltac:(lia))%Z as (Q0 & Q1 & Q2).
  unfold realT. cbn [t0 t1 t2]. split; [|split].
  - unfold combination. cbn [t0 t1 t2]. rewrite A0, A1, A2, B0, B1, B2, C0, C1, C2, Q0, Q1, Q2. split; [|split]; lra.
  - intros (H & _). unfold normalS, crossS, minusS in H. cbn [vx vy vz t0 t1 t2] in H. rewrite A1, A2, B1, B2, C1, C2 in H. lra.
  - intros []; vm_compute; reflexivity.
Qed.
