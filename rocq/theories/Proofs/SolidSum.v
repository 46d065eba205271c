(** The binary32 solid angles of all texels of a cube map. *)
From Coq Require Import ZArith Bool List Reals Lra Lia Psatz.
From Coquelicot Require Import Coquelicot.
From Flocq Require Import Core.Core.
From Verif.Model Require Import Scalar Vec Trig Ibl.
From Verif.Spec Require Import IblSpec SolidSpec.
From Verif.Proofs Require Import OrdScalar F32Round F32Err SolidAngle SolidErr PiBounds.
Local Open Scope R_scope.

(** ** A rectangle whose sides move *)
Lemma density_le : forall x y, 0 <= planeDensity x y <= 1.
Proof.
  intros x y. unfold planeDensity. set (s := sqrt (x * x + y * y + 1)).
  assert (S : 1 <= s) by (unfold s; rewrite <- sqrt_1 at 1; apply sqrt_le_1_alt; nra).
  assert (I : 0 < / s <= 1) by (split; [apply Rinv_0_lt_compat; lra|rewrite <- Rinv_1; apply Rinv_le; lra]).
  assert (J : 0 < / (s * s) <= 1) by (split; [apply Rinv_0_lt_compat; nra|rewrite <- Rinv_1; apply Rinv_le; nra]).
  unfold Rdiv. split; [apply Rmult_le_pos; lra|]. apply Rle_trans with (1 * 1); [apply Rmult_le_compat; lra|lra].
Qed.
Lemma slope_lip : forall x y y', Rabs (slope y' x - slope y x) <= Rabs (y' - y).
Proof.
  intros x y y'. destruct (MVT_gen (fun y => slope y x) y y' (planeDensity x)) as (c & _ & E).
  - intros t _. apply slope_derive.
  - intros t _. apply continuity_pt_filterlim. apply (ex_derive_continuous (fun y => slope y x)). exists (planeDensity x t). apply slope_derive.
  - cbv beta in E. rewrite E, Rabs_mult. pose proof (density_le x c). rewrite (Rabs_right (planeDensity x c)) by lra.
    apply Rle_trans with (1 * Rabs (y' - y)); [apply Rmult_le_compat_r; [apply Rabs_pos|lra]|lra].
Qed.
Lemma strip : forall x x' y0 y1, Rabs ((sphereQuadrantArea x' y1 - sphereQuadrantArea x' y0) - (sphereQuadrantArea x y1 - sphereQuadrantArea x y0)) <= Rabs (y1 - y0) * Rabs (x' - x).
Proof.
  intros x x' y0 y1. destruct (MVT_gen (fun x => sphereQuadrantArea x y1 - sphereQuadrantArea x y0) x x' (fun x => slope y1 x - slope y0 x)) as (c & _ & E).
  - intros t _. apply (is_derive_minus (fun x => sphereQuadrantArea x y1) (fun x => sphereQuadrantArea x y0)); apply area_derive.
  - intros t _. apply continuity_pt_filterlim. apply (ex_derive_continuous (fun x => sphereQuadrantArea x y1 - sphereQuadrantArea x y0)).
    exists (slope y1 t - slope y0 t). apply (is_derive_minus (fun x => sphereQuadrantArea x y1) (fun x => sphereQuadrantArea x y0)); apply area_derive.
  - cbv beta in E. rewrite E, Rabs_mult. apply Rmult_le_compat_r; [apply Rabs_pos|apply slope_lip].
Qed.
Lemma area_sym : forall x y : R, sphereQuadrantArea x y = sphereQuadrantArea y x.
Proof. intros x y. rewrite !areaR. rewrite (Rmult_comm x y). replace (x * x + y * y + 1) with (y * y + x * x + 1) by ring. reflexivity. Qed.
Definition rect (x0 x1 y0 y1 : R) : R := sphereQuadrantArea x1 y1 - sphereQuadrantArea x1 y0 - sphereQuadrantArea x0 y1 + sphereQuadrantArea x0 y0.
Lemma rect_moved : forall x0 x1 y0 y1 x0' x1' y0' y1' d w, 0 <= d -> Rabs (x0' - x0) <= d -> Rabs (x1' - x1) <= d -> Rabs (y0' - y0) <= d -> Rabs (y1' - y1) <= d ->
  Rabs (x1 - x0) <= w -> Rabs (y1 - y0) <= w -> Rabs (rect x0' x1' y0' y1' - rect x0 x1 y0 y1) <= 4 * d * w + 4 * d * d.
Proof.
  intros x0 x1 y0 y1 x0' x1' y0' y1' d w D X0 X1 Y0 Y1 Wx Wy.
  assert (Wy' : Rabs (y1' - y0') <= w + 2 * d) by (apply Rabs_le_inv in Y0; apply Rabs_le_inv in Y1; apply Rabs_le_inv in Wy; apply Rabs_le; lra).
  assert (W0 : 0 <= w) by (pose proof (Rabs_pos (x1 - x0)); lra).
  assert (K : forall p q a b, Rabs p <= a -> Rabs q <= b -> Rabs p * Rabs q <= a * b) by (intros; apply Rmult_le_compat; auto using Rabs_pos).
  pose proof (strip x0 x0' y0' y1') as S1. pose proof (K _ _ _ _ Wy' X0) as K1. pose proof (strip x1 x1' y0' y1') as S2. pose proof (K _ _ _ _ Wy' X1) as K2.
  pose proof (strip y0 y0' x0 x1) as S3. pose proof (K _ _ _ _ Wx Y0) as K3. pose proof (strip y1 y1' x0 x1) as S4. pose proof (K _ _ _ _ Wx Y1) as K4.
  rewrite (area_sym y0' x1), (area_sym y0' x0), (area_sym y0 x1), (area_sym y0 x0) in S3. rewrite (area_sym y1' x1), (area_sym y1' x0), (area_sym y1 x1), (area_sym y1 x0) in S4.
  pose proof (Rle_trans _ _ _ S1 K1) as B1. pose proof (Rle_trans _ _ _ S2 K2) as B2. pose proof (Rle_trans _ _ _ S3 K3) as B3. pose proof (Rle_trans _ _ _ S4 K4) as B4.
  apply Rabs_le_inv in B1. apply Rabs_le_inv in B2. apply Rabs_le_inv in B3. apply Rabs_le_inv in B4. unfold rect. apply Rabs_le. lra.
Qed.
Lemma angle_unique : forall x0 x1 y0 y1 v w, hasSolidAngle x0 x1 y0 y1 v -> hasSolidAngle x0 x1 y0 y1 w -> v = w.
Proof.
  intros x0 x1 y0 y1 v w (g & G & V) (h & H & W).
  assert (E : forall x, g x = h x) by (intros x; rewrite <- (is_RInt_unique _ _ _ _ (G x)); apply is_RInt_unique, H).
  rewrite <- (is_RInt_unique _ _ _ _ V). apply is_RInt_unique. apply is_RInt_ext with h; [intros x _; symmetry; apply E|exact W].
Qed.

(** ** Texels *)
Theorem texel_exact : forall (T : Trig f32), goodAtan2 T -> forall n cx cy, (1 <= n <= 512)%Z -> (0 <= cx < n)%Z -> (0 <= cy < n)%Z ->
  let inv : f32 := (f1 / slit n 0)%sc in let a := calcSolidAngle (coordsToST cx cy inv) inv in
  forall w, hasSolidAngle (texelEdge n (cx + 1)) (texelEdge n cx) (texelEdge n (cy + 1)) (texelEdge n cy) w ->
  fin a /\ Rabs (val a - w) <= (20 + 81 / IZR n) / 16777216.
Proof.
  intros T HT n cx cy N X Y inv a w W. destruct (texel_area T HT n cx cy N X Y) as (x0 & x1 & y0 & y1 & v & X0 & X1 & Y0 & Y1 & V & F & E & _). fold inv in F, E. fold a in F, E.
  split; [exact F|]. rewrite (angle_unique _ _ _ _ _ _ W (solid_angle_rect _ _ _ _)). rewrite (angle_unique _ _ _ _ _ _ V (solid_angle_rect _ _ _ _)) in E. clear W V w v.
  assert (B : 1 <= IZR n <= 512) by (split; apply IZR_le; lia). assert (I : / 512 <= / IZR n <= 1) by (split; [apply Rinv_le; lra|rewrite <- Rinv_1; apply Rinv_le; lra]).
  assert (S : forall c, Rabs (texelEdge n c - texelEdge n (c + 1)) <= 2 * / IZR n).
  { intros c. replace (texelEdge n c - texelEdge n (c + 1)) with (2 * / IZR n) by (unfold texelEdge; rewrite plus_IZR; field; lra). rewrite Rabs_right by lra. lra. }
  pose proof (rect_moved _ _ _ _ _ _ _ _ (10 / 16777216) (2 * / IZR n) ltac:(lra) X0 X1 Y0 Y1 (S cx) (S cy)) as M. unfold rect in M.
  match type of E with Rabs (_ - ?r) <= _ => match goal with |- Rabs (_ - ?q) <= _ => replace (val a - q) with ((val a - r) + (r - q)) by ring end end.
  eapply Rle_trans; [apply Rabs_triang|]. unfold Rdiv in *. lra.
Qed.

(** ** Totals *)
Lemma sum_near : forall n f g e, (forall i, (i < n)%nat -> Rabs (f i - g i) <= e) -> Rabs (sumN n f - sumN n g) <= INR n * e.
Proof.
  induction n as [|n IH]; intros f g e H; [cbn; rewrite Rminus_0_r, Rabs_R0; lra|]. cbn [sumN]. rewrite S_INR.
  replace (sumN n f + f n - (sumN n g + g n)) with ((sumN n f - sumN n g) + (f n - g n)) by ring. eapply Rle_trans; [apply Rabs_triang|].
  pose proof (IH f g e ltac:(intros; apply H; lia)). pose proof (H n ltac:(lia)). lra.
Qed.
Theorem weights_total : forall (T : Trig f32), goodAtan2 T -> forall n : nat, (1 <= n <= 512)%nat -> let inv : f32 := (f1 / slit (Z.of_nat n) 0)%sc in
  Rabs (sumN 6 (fun face => sumN n (fun i => sumN n (fun j => val (calcSolidAngle (coordsToST (Z.of_nat i) (Z.of_nat j) inv) inv)))) - 4 * PI)
    <= (120 * (INR n * INR n) + 486 * INR n) / 16777216.
Proof.
  intros T HT n H inv. set (N := Z.of_nat n). rewrite <- (sphere_total n ltac:(lia)). fold N.
  assert (P : 1 <= INR n) by (change 1 with (INR 1); apply le_INR; lia).
  eapply Rle_trans.
  - apply (sum_near 6 _ _ (INR n * (INR n * ((20 + 81 / IZR N) / 16777216)))). intros f _. apply sum_near. intros i Hi. apply sum_near. intros j Hj.
    apply (texel_exact T HT N (Z.of_nat i) (Z.of_nat j)); [unfold N; lia|unfold N; lia|unfold N; lia|].
    rewrite texelR by (unfold N; lia). change edge with texelEdge.
    evar_last; [apply solid_angle_rect|]. ring.
  - unfold N. rewrite <- INR_IZR_INZ. change (INR 6) with (2 + 1 + 1 + 1 + 1 + 1) || (replace (INR 6) with 6 by (cbn; lra)). right. field. lra.
Qed.
(** ** Cases *)
Lemma one_texel : hasSolidAngle (texelEdge 1 (0 + 1)) (texelEdge 1 0) (texelEdge 1 (0 + 1)) (texelEdge 1 0) (2 * PI / 3).
Proof.
  evar_last; [apply solid_angle_rect|]. replace (texelEdge 1 (0 + 1)) with (-1) by (unfold texelEdge; cbn; lra). replace (texelEdge 1 0) with 1 by (unfold texelEdge; cbn; lra).
  destruct corner as (-> & -> & -> & ->). lra.
Qed.
Lemma sum_64 : (120 * (INR 64 * INR 64) + 486 * INR 64) / 16777216 <= 0.0025 * (4 * PI).
Proof. pose proof PI_lower. rewrite INR_IZR_INZ. change (Z.of_nat 64) with 64%Z. lra. Qed.
