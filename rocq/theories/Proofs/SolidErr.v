(** Solid angles of cube map texels in binary32. *)
From Coq Require Import ZArith Bool List Reals Lra Lia Psatz.
From Coquelicot Require Import Coquelicot.
From Flocq Require Import Core.Core IEEE754.BinarySingleNaN IEEE754.Binary IEEE754.Bits.
From Verif.Model Require Import Outcome Scalar Vec Simd Trig Numeric Ibl.
From Verif.Spec Require Import NormSpec SolidSpec.
From Verif.Proofs Require Import OrdScalar F32Round F32Err NumericProofs NormProofs RayErr YxyErr YxyRgb IblProofs SolidAngle CubeErr PiBounds.
Local Open Scope R_scope.

(** ** Real areas *)
Lemma atan_lip : forall a b, Rabs (atan b - atan a) <= Rabs (b - a).
Proof.
  intros a b. destruct (MVT_gen atan a b (fun x => / (1 + x * x))) as (c & _ & E).
  - intros x _. apply is_derive_Reals. evar_last; [apply derivable_pt_lim_atan|]. unfold Rsqr. field. nra.
  - intros x _. apply derivable_continuous_pt, derivable_pt_atan.
  - rewrite E, Rabs_mult. assert (0 <= c * c) by apply Rle_0_sqr.
    assert (0 < / (1 + c * c) <= 1) by (split; [apply Rinv_0_lt_compat; lra|rewrite <- Rinv_1; apply Rinv_le; lra]).
    rewrite (Rabs_right (/ _)) by lra. rewrite <- (Rmult_1_l (Rabs (b - a))) at 2. apply Rmult_le_compat_r; [apply Rabs_pos|lra].
Qed.
Lemma ratio_step : forall k y y', 1 <= k <= 2.00003 -> -1.00001 <= y -> y <= y' -> y' <= 1.00001 -> (y' - y) * (k * / 5.3) <= y' / sqrt (k + y' * y') - y / sqrt (k + y * y).
Proof.
  intros k y y' K Y YY Y'. destruct (MVT_gen (fun t => t / sqrt (k + t * t)) y y' (fun t => k / (sqrt (k + t * t) * sqrt (k + t * t) * sqrt (k + t * t)))) as (c & C & E).
  - intros t _. assert (Q : 0 < k + t * t) by nra. pose proof (sqrt_lt_R0 _ Q) as L. evar_last; [auto_derive; [split; [exact Q|split; [lra|trivial]]|reflexivity]|].
    set (s := sqrt (k + t * t)) in *. assert (S : s * s = k + t * t) by (apply sqrt_sqrt; lra). replace k with (s * s - t * t) at 1 by lra. field. lra.
  - intros t _. assert (Q : 0 < k + t * t) by nra. pose proof (sqrt_lt_R0 _ Q) as L. apply continuity_pt_filterlim.
    apply (ex_derive_continuous (fun t => t / sqrt (k + t * t))). auto_derive. split; [exact Q|]. split; [lra|trivial].
  - rewrite Rmin_left, Rmax_right in C by lra. rewrite E. rewrite Rmult_comm. apply Rmult_le_compat_r; [lra|].
    assert (CC : 0 <= c * c <= 1.00003) by nra. assert (Q : 0 < k + c * c) by lra. set (s := sqrt (k + c * c)).
    assert (S : s * s = k + c * c) by (apply sqrt_sqrt; lra). assert (S0 : 0 < s) by (apply sqrt_lt_R0; lra). assert (S1 : s <= 1.741) by nra.
    unfold Rdiv. apply Rmult_le_compat_l; [lra|]. apply Rinv_le; [apply Rmult_lt_0_compat; [apply Rmult_lt_0_compat|]; exact S0|].
    rewrite S. apply Rle_trans with (3.00006 * 1.741); [apply Rmult_le_compat; lra|lra].
Qed.
Lemma rectangle_large : forall x0 x1 y0 y1, -1.00001 <= x0 -> x0 <= x1 -> x1 <= 1.00001 -> -1.00001 <= y0 -> y0 <= y1 -> y1 <= 1.00001 ->
  (x1 - x0) * (y1 - y0) * / 5.3 <= sphereQuadrantArea x0 y0 - sphereQuadrantArea x0 y1 - sphereQuadrantArea x1 y0 + sphereQuadrantArea x1 y1.
Proof.
  intros x0 x1 y0 y1 X0 X X1 Y0 Y Y1.
  destruct (MVT_gen (fun x => sphereQuadrantArea x y1 - sphereQuadrantArea x y0) x0 x1 (fun x => slope y1 x - slope y0 x)) as (c & C & E).
  - intros x _. apply (is_derive_minus (fun x => sphereQuadrantArea x y1) (fun x => sphereQuadrantArea x y0)); apply area_derive.
  - intros x _. apply continuity_pt_filterlim. apply (ex_derive_continuous (fun x => sphereQuadrantArea x y1 - sphereQuadrantArea x y0)).
    exists (slope y1 x - slope y0 x).
    apply (is_derive_minus (fun x => sphereQuadrantArea x y1) (fun x => sphereQuadrantArea x y0)); apply area_derive.
  - cbv beta in E. rewrite Rmin_left, Rmax_right in C by lra. assert (CC : 0 <= c * c <= 1.00003) by nra.
    pose proof (ratio_step (1 + c * c) y0 y1 ltac:(lra) Y0 Y Y1) as R.
    assert (P : forall t, 0 < sqrt (1 + c * c + t * t)) by (intros t; apply sqrt_lt_R0; nra). pose proof (P y0) as P0'. pose proof (P y1) as P1'.
    assert (SL : (y1 - y0) * / 5.3 <= slope y1 c - slope y0 c).
    { unfold slope. replace (c * c + y1 * y1 + 1) with (1 + c * c + y1 * y1) by ring. replace (c * c + y0 * y0 + 1) with (1 + c * c + y0 * y0) by ring.
      replace (y1 / ((1 + c * c) * sqrt (1 + c * c + y1 * y1)) - y0 / ((1 + c * c) * sqrt (1 + c * c + y0 * y0)))
        with (/ (1 + c * c) * (y1 / sqrt (1 + c * c + y1 * y1) - y0 / sqrt (1 + c * c + y0 * y0))) by (field; repeat split; lra).
      apply Rle_trans with (/ (1 + c * c) * ((y1 - y0) * ((1 + c * c) * / 5.3))); [right; generalize (/ 5.3); intros h; field; lra|].
      apply Rmult_le_compat_l; [apply Rlt_le, Rinv_0_lt_compat; lra|exact R]. }
    assert ((y1 - y0) * / 5.3 * (x1 - x0) <= (slope y1 c - slope y0 c) * (x1 - x0)) by (apply Rmult_le_compat_r; lra). lra.
Qed.
(** the argument of the arc tangent *)
Definition tanQ (x y : R) : R := x * y / sqrt (x * x + y * y + 1).
Lemma tanQ_in : forall x y, -1.00001 <= x <= 1.00001 -> -1.00001 <= y <= 1.00001 -> Rabs (tanQ x y) <= 0.6 /\ 1 <= sqrt (x * x + y * y + 1) <= 1.8.
Proof.
  intros x y X Y. assert (XX : 0 <= x * x <= 1.00003) by nra. assert (YY : 0 <= y * y <= 1.00003) by nra. set (p := x * x) in *. set (q := y * y) in *.
  set (s := sqrt (p + q + 1)). assert (S : s * s = p + q + 1) by (apply sqrt_sqrt; lra). assert (S0 : 0 <= s) by apply sqrt_pos.
  assert (S1 : 1 <= s <= 1.8) by (split; apply Rnot_lt_le; intros K; nra). split; [|exact S1].
  unfold tanQ. fold p q s. unfold Rdiv. rewrite Rabs_mult, (Rabs_right (/ s)) by (apply Rle_ge, Rlt_le, Rinv_0_lt_compat; lra).
  apply Rmult_le_reg_r with s; [lra|]. rewrite Rmult_assoc, Rinv_l, Rmult_1_r by lra.
  apply Rsqr_incr_0; [|apply Rabs_pos|lra]. unfold Rsqr. rewrite <- Rabs_mult. replace (x * y * (x * y)) with (p * q) by (unfold p, q; ring).
  assert (0 <= p * q) by (apply Rmult_le_pos; lra). rewrite Rabs_right by lra. replace (0.6 * s * (0.6 * s)) with (0.36 * (s * s)) by lra. rewrite S. nra.
Qed.

(** ** One corner *)
Section Corner.
  Context (T : Trig f32) (HT : goodAtan2 T) (x y : f32) (Fx : fin x) (Fy : fin y) (Hx : -1.00001 <= val x <= 1.00001) (Hy : -1.00001 <= val y <= 1.00001).
  Lemma corner_near : fin (sphereQuadrantArea x y) /\ Rabs (val (sphereQuadrantArea x y) - sphereQuadrantArea (val x) (val y)) <= 3.64 * U /\ Rabs (sphereQuadrantArea (val x) (val y)) <= 0.6.
  Proof.
    destruct (tanQ_in (val x) (val y) Hx Hy) as [TQ SQ]. rewrite areaR. fold (tanQ (val x) (val y)). set (t := tanQ (val x) (val y)) in *.
    destruct (lit_Z 1 ltac:(lia)) as [F1 V1]. change (slit 1 0 : f32) with (@f1 f32 ScalarF32) in F1, V1.
    assert (XX : 0 <= val x * val x <= 1.00003) by nra. assert (YY : 0 <= val y * val y <= 1.00003) by nra. assert (XY : -1.00003 <= val x * val y <= 1.00003) by nra.
    destruct (lengths_near GEN) as (_ & L3 & _). destruct (L3 (V3 x y f1)) as [FL EL].
    { split; [apply fin_l3; assumption|]. rewrite inner3, V1. split.
      - apply Rle_trans with (bpow radix2 0); [apply bpow_le; lia|change (bpow radix2 0) with 1; lra].
      - apply Rle_trans with (bpow radix2 2); [change (bpow radix2 2) with 4; lra|apply bpow_le; lia]. }
    unfold norm in EL. rewrite inner3, V1, Rmult_1_r in EL. set (s := sqrt (val x * val x + val y * val y + 1)) in *. set (L := lengthp3 (V3 x y f1)) in *. apply Rabs_le_inv in EL.
    destruct (mul_small x y Fx Fy) as [Fq Vq]; [apply small10; lra|]. pose proof (rerr (val x * val y)) as R. rewrite <- Vq in R.
    assert (Bq : -1.1 <= val (x * y)%sc <= 1.1) by (pose proof (rerr_b (val x * val y) 1.1 ltac:(lra)) as Z; rewrite <- Vq in Z; lra).
    assert (BL : 0.99 <= val L <= 1.81) by lra.
    destruct (HT (x * y)%sc L Fq FL ltac:(lra) ltac:(lra)) as [Fa Ea]. change (tatan2 (x * y)%sc L) with (sphereQuadrantArea x y) in Fa, Ea.
    set (q := val (x * y)%sc) in *. set (m := val x * val y) in *. set (l := val L) in *. set (t' := q / l) in *.
    assert (Et : t * s = m) by (unfold t, tanQ; fold s m; field; lra). assert (Et' : t' * l = q) by (unfold t'; field; lra).
    assert (Am : Rabs m = Rabs t * s) by (rewrite <- Et, Rabs_mult, (Rabs_right s) by lra; reflexivity).
    pose proof (Rabs_pos t) as Pt.
    assert (D : Rabs (t' - t) <= 4.03 * U * 0.6 + 2 * tiny).
    { assert (N : Rabs ((t' - t) * l) <= 4.02 * U * (Rabs t * s) + tiny).
      { replace ((t' - t) * l) with ((q - m) + t * (s - l)) by (rewrite <- Et, Rmult_minus_distr_r, Et'; ring). eapply Rle_trans; [apply Rabs_triang|]. rewrite Rabs_mult.
        assert (Rabs t * Rabs (s - l) <= Rabs t * (3.02 * U * s)) by (apply Rmult_le_compat_l; [exact Pt|apply Rabs_le; lra]). rewrite Am in R. lra. }
      rewrite Rabs_mult, (Rabs_right l) in N by lra. pose proof (Rabs_pos (t' - t)) as Pd.
      assert (S2 : s <= 1.000001 * l) by lra.
      assert (Rabs t * s <= 0.6 * (1.000001 * l)) by (apply Rmult_le_compat; lra).
      apply Rmult_le_reg_r with l; [lra|]. lra. }
    pose proof (atan_lip t t') as A1. pose proof (atan_lip 0 t') as A2. rewrite atan_0, !Rminus_0_r in A2. pose proof (atan_lip 0 t) as A3. rewrite atan_0, !Rminus_0_r in A3.
    assert (T1 : Rabs t' <= 0.60001) by (replace t' with (t + (t' - t)) by ring; eapply Rle_trans; [apply Rabs_triang|]; lra).
    assert (B : bpow radix2 (-149) <= tiny) by (eapply Rle_trans; [apply (bpow_le radix2 _ (-100)); lia|cbn; lra]).
    split; [exact Fa|]. split; [|lra].
    replace (val (sphereQuadrantArea x y) - atan t) with ((val (sphereQuadrantArea x y) - atan t') + (atan t' - atan t)) by ring. eapply Rle_trans; [apply Rabs_triang|]. lra.
  Qed.
End Corner.

(** ** Texels *)
Lemma edge_in : forall n c, (1 <= n)%Z -> (0 <= c <= n)%Z -> -1 <= texelEdge n c <= 1.
Proof.
  intros n c N C. unfold texelEdge. assert (P : 1 <= IZR n) by (apply IZR_le; lia). assert (0 <= IZR c) by (apply IZR_le; lia). assert (IZR c <= IZR n) by (apply IZR_le; lia).
  assert (0 < / IZR n) by (apply Rinv_0_lt_compat; lra). assert (0 <= IZR c * / IZR n) by (apply Rmult_le_pos; lra).
  assert (IZR c * / IZR n <= IZR n * / IZR n) by (apply Rmult_le_compat_r; lra). rewrite Rinv_r in * by lra. unfold Rdiv. lra.
Qed.
Lemma edges_near : forall n c, (1 <= n <= 512)%Z -> (0 <= c < n)%Z -> let inv : f32 := (f1 / slit n 0)%sc in let s := stOf c inv in
  fin (s - inv)%sc /\ fin (s + inv)%sc /\ nearEdge (val (s - inv)%sc) n (c + 1) /\ nearEdge (val (s + inv)%sc) n c /\
  -1.00001 <= val (s - inv)%sc <= 1.00001 /\ -1.00001 <= val (s + inv)%sc <= 1.00001 /\ 1.999 * / IZR n <= val (s + inv)%sc - val (s - inv)%sc.
Proof.
  intros n c N C inv s. assert (N' : (1 <= n <= 2 ^ 16)%Z) by lia. destruct (inv_val n N') as (Fi & e & He & Ei). destruct (st_near n N' c C) as [Fs Es]. fold inv in Fi, Ei, Fs, Es. fold s in Fs, Es.
  assert (B : 1 <= IZR n <= 512) by (split; apply IZR_le; lia). assert (I : / 512 <= / IZR n <= 1) by (split; [apply Rinv_le; lra|rewrite <- Rinv_1; apply Rinv_le; lra]).
  pose proof (edge_in n c ltac:(lia) ltac:(lia)) as E0. pose proof (edge_in n (c + 1) ltac:(lia) ltac:(lia)) as E1.
  assert (A0 : texelEdge n c = 1 - 2 * centre n c + / IZR n) by (unfold texelEdge, centre; field; lra).
  assert (A1 : texelEdge n (c + 1) = 1 - 2 * centre n c - / IZR n) by (unfold texelEdge, centre; rewrite plus_IZR; field; lra).
  apply Rabs_le_inv in He. apply Rabs_le_inv in Es. set (i := / IZR n) in *. assert (Ie : - U <= i * e <= U).
  { split; [apply Rle_trans with (1 * - U); [lra|]|apply Rle_trans with (1 * U); [|lra]].
    - apply Rle_trans with (i * - U); [|apply Rmult_le_compat_l; lra]. assert (i * U <= 1 * U) by (apply Rmult_le_compat_r; lra). lra.
    - apply Rle_trans with (i * U); [apply Rmult_le_compat_l; lra|apply Rmult_le_compat_r; lra]. }
  assert (Vi : val inv = i + i * e) by (rewrite Ei; ring).
  destruct (sub_small s inv Fs Fi) as [Fl Vl]; [apply small10; lra|]. pose proof (rerr_b (val s - val inv) 1.01 ltac:(lra)) as Rl. rewrite <- Vl in Rl.
  destruct (add_small s inv Fs Fi) as [Fh Vh]; [apply small10; lra|]. pose proof (rerr_b (val s + val inv) 1.01 ltac:(lra)) as Rh. rewrite <- Vh in Rh.
  split; [exact Fl|]. split; [exact Fh|]. unfold nearEdge. split; [apply Rabs_le; lra|]. split; [apply Rabs_le; lra|]. lra.
Qed.
Theorem texel_area : forall (T : Trig f32), goodAtan2 T -> forall n cx cy, (1 <= n <= 512)%Z -> (0 <= cx < n)%Z -> (0 <= cy < n)%Z ->
  let inv : f32 := (f1 / slit n 0)%sc in let a := calcSolidAngle (coordsToST cx cy inv) inv in
  exists x0 x1 y0 y1 w, nearEdge x0 n (cx + 1) /\ nearEdge x1 n cx /\ nearEdge y0 n (cy + 1) /\ nearEdge y1 n cy /\
    hasSolidAngle x0 x1 y0 y1 w /\ fin a /\ Rabs (val a - w) <= 20 / 16777216 /\ 0 < val a /\ Rabs (val a - w) <= 27 * (IZR n * IZR n) / 16777216 * w.
Proof.
  intros T HT n cx cy N X Y inv a. destruct (edges_near n cx N X) as (Fx0 & Fx1 & Ex0 & Ex1 & Bx0 & Bx1 & Dx). destruct (edges_near n cy N Y) as (Fy0 & Fy1 & Ey0 & Ey1 & By0 & By1 & Dy).
  fold inv in Fx0, Fx1, Ex0, Ex1, Bx0, Bx1, Dx, Fy0, Fy1, Ey0, Ey1, By0, By1, Dy.
  set (x0 := (stOf cx inv - inv)%sc) in *. set (x1 := (stOf cx inv + inv)%sc) in *. set (y0 := (stOf cy inv - inv)%sc) in *. set (y1 := (stOf cy inv + inv)%sc) in *.
  change a with (sphereQuadrantArea x0 y0 - sphereQuadrantArea x0 y1 - sphereQuadrantArea x1 y0 + sphereQuadrantArea x1 y1)%sc.
  exists (val x0), (val x1), (val y0), (val y1), (sphereQuadrantArea (val x1) (val y1) - sphereQuadrantArea (val x1) (val y0) - sphereQuadrantArea (val x0) (val y1) + sphereQuadrantArea (val x0) (val y0)).
  split; [exact Ex0|]. split; [exact Ex1|]. split; [exact Ey0|]. split; [exact Ey1|]. split; [apply solid_angle_rect|].
  assert (B : 1 <= IZR n <= 512) by (split; apply IZR_le; lia). assert (I : / 512 <= / IZR n <= 1) by (split; [apply Rinv_le; lra|rewrite <- Rinv_1; apply Rinv_le; lra]).
  pose proof (rectangle_large (val x0) (val x1) (val y0) (val y1) ltac:(lra) ltac:(lra) ltac:(lra) ltac:(lra) ltac:(lra) ltac:(lra)) as LA.
  assert (M : 1.999 * / IZR n * (1.999 * / IZR n) <= (val x1 - val x0) * (val y1 - val y0)) by (apply Rmult_le_compat; lra).
  assert (M' : 1.999 * / 512 * (1.999 * / 512) <= 1.999 * / IZR n * (1.999 * / IZR n)) by (apply Rmult_le_compat; lra).
  destruct (corner_near T HT x0 y0 Fx0 Fy0 Bx0 By0) as (F00 & E00 & B00). destruct (corner_near T HT x0 y1 Fx0 Fy1 Bx0 By1) as (F01 & E01 & B01).
  destruct (corner_near T HT x1 y0 Fx1 Fy0 Bx1 By0) as (F10 & E10 & B10). destruct (corner_near T HT x1 y1 Fx1 Fy1 Bx1 By1) as (F11 & E11 & B11).
  set (a00 := sphereQuadrantArea x0 y0) in *. set (a01 := sphereQuadrantArea x0 y1) in *. set (a10 := sphereQuadrantArea x1 y0) in *. set (a11 := sphereQuadrantArea x1 y1) in *.
  set (r00 := sphereQuadrantArea (val x0) (val y0)) in *. set (r01 := sphereQuadrantArea (val x0) (val y1)) in *. set (r10 := sphereQuadrantArea (val x1) (val y0)) in *. set (r11 := sphereQuadrantArea (val x1) (val y1)) in *.
  apply Rabs_le_inv in E00. apply Rabs_le_inv in E01. apply Rabs_le_inv in E10. apply Rabs_le_inv in E11. apply Rabs_le_inv in B00. apply Rabs_le_inv in B01. apply Rabs_le_inv in B10. apply Rabs_le_inv in B11.
  destruct (sub_small a00 a01 F00 F01) as [F1 V1]; [apply small10; lra|]. pose proof (rerr_b (val a00 - val a01) 1.201 ltac:(lra)) as R1. rewrite <- V1 in R1.
  destruct (sub_small _ a10 F1 F10) as [F2 V2]; [apply small10; lra|]. match type of V2 with _ = rnd ?t => assert (B2 : - (1.802) <= t <= 1.802) by lra; pose proof (rerr_b t 1.802 B2) as R2 end. rewrite <- V2 in R2.
  destruct (add_small _ a11 F2 F11) as [F3 V3]; [apply small10; lra|]. match type of V3 with _ = rnd ?t => assert (B3 : - (2.403) <= t <= 2.403) by lra; pose proof (rerr_b t 2.403 B3) as R3 end. rewrite <- V3 in R3.
  assert (E : Rabs (val (a00 - a01 - a10 + a11)%sc - (r11 - r10 - r01 + r00)) <= 20 / 16777216) by (apply Rabs_le; lra).
  split; [exact F3|]. split; [exact E|]. split; [lra|]. apply Rle_trans with (1 := E).
  set (w := r11 - r10 - r01 + r00) in *. assert (W : 1.999 * / IZR n * (1.999 * / IZR n) * / 5.3 <= w) by (unfold w; lra).
  apply Rle_trans with (27 * (IZR n * IZR n) / 16777216 * (1.999 * / IZR n * (1.999 * / IZR n) * / 5.3)).
  - replace (27 * (IZR n * IZR n) / 16777216 * (1.999 * / IZR n * (1.999 * / IZR n) * / 5.3)) with (27 / 16777216 * (IZR n * / IZR n) * (IZR n * / IZR n) * (1.999 * 1.999 * / 5.3)) by (unfold Rdiv; ring). rewrite Rinv_r by lra. lra.
  - apply Rmult_le_compat_l; [|exact W]. assert (0 <= IZR n * IZR n) by apply Rle_0_sqr. lra.
Qed.

(** ** An arc tangent that meets the hypothesis: the angle rounded to binary32 *)
Notation fe := (SpecFloat.fexp 24 128).
Definition nearestF32 (r : R) : f32 := if Req_EM_T (rnd r) 0 then f0 else slit (Ztrunc (scaled_mantissa radix2 fe (rnd r))) (cexp radix2 fe (rnd r)).
Lemma nearest_ok : forall r, -2 <= r <= 2 -> fin (nearestF32 r) /\ val (nearestF32 r) = rnd r.
Proof.
  intros r H. pose proof (fexp_correct 24 128 eq_refl) as VE. set (x := rnd r). unfold nearestF32. fold x. destruct (Req_EM_T x 0) as [Z|NZ]; [rewrite Z; exact (lit_Z 0 ltac:(lia))|].
  assert (G : generic_format radix2 fe x) by (apply generic_format_round; [exact VE|apply valid_rnd_round_mode]).
  pose proof (rerr_b r 2 ltac:(lra)) as B. fold x in B.
  assert (MG : (mag radix2 x <= 3)%Z).
  { apply mag_le_bpow; [exact NZ|]. apply Rle_lt_trans with 3; [apply Rabs_le; lra|]. cbn. lra. }
  assert (CE : (mag radix2 x - 24 <= cexp radix2 fe x)%Z /\ (-149 <= cexp radix2 fe x <= 104)%Z).
  { unfold cexp, SpecFloat.fexp. change (SpecFloat.emin 24 128) with (-149)%Z. lia. }
  destruct (lit_exact (Ztrunc (scaled_mantissa radix2 fe x)) (cexp radix2 fe x)) as [F V].
  - apply lt_IZR. rewrite abs_IZR, <- (scaled_mantissa_generic radix2 fe x G).
    apply Rlt_le_trans with (1 := scaled_mantissa_lt_bpow radix2 fe x). change (IZR (2 ^ 24)) with (bpow radix2 24). apply bpow_le. lia.
  - lia.
  - split; [exact F|]. rewrite V. symmetry. exact G.
Qed.
Definition roundedTrig : Trig f32 := {| tsin := fun x => nearestF32 (sin (val x)); tcos := fun x => nearestF32 (cos (val x)); ttan := fun x => nearestF32 (tan (val x));
  tasin := fun x => nearestF32 (asin (val x)); tacos := fun x => nearestF32 (acos (val x)); tatan2 := fun y x => nearestF32 (Ratan2 (val y) (val x)); tpi := piF |}.
Lemma rounded_good : goodAtan2 roundedTrig.
Proof.
  intros y x Fy Fx Hx Hy. change (@tatan2 f32 roundedTrig y x) with (nearestF32 (Ratan2 (val y) (val x))).
  unfold Ratan2. destruct (Rlt_dec 0 (val x)) as [P|P]; [|lra]. set (a := atan (val y / val x)).
  assert (A : -2 <= a <= 2). { pose proof (atan_bound (val y / val x)) as K. fold a in K. pose proof PI_4. lra. }
  destruct (nearest_ok a A) as [F V]. split; [exact F|]. rewrite V. eapply Rle_trans; [apply rnd_err|]. pose proof (Rabs_pos a) as Pa.
  apply Rplus_le_compat; [|unfold eta0; apply bpow_le; lia]. apply Rmult_le_compat_r; [exact Pa|]. unfold u24. cbn. lra.
Qed.

(** ** Large maps: every quadrant area is a multiple of 2^-24, the texel is smaller *)
Lemma ratio_step_le : forall k y y', 1.99 <= k <= 2 -> 0.99 <= y -> y <= y' -> y' <= 1 -> y' / sqrt (k + y' * y') - y / sqrt (k + y * y) <= (y' - y) * (k * / 4.8).
Proof.
  intros k y y' K Y YY Y'. destruct (MVT_gen (fun t => t / sqrt (k + t * t)) y y' (fun t => k / (sqrt (k + t * t) * sqrt (k + t * t) * sqrt (k + t * t)))) as (c & C & E).
  - intros t _. assert (Q : 0 < k + t * t) by nra. pose proof (sqrt_lt_R0 _ Q) as L. evar_last; [auto_derive; [split; [exact Q|split; [lra|trivial]]|reflexivity]|].
    set (s := sqrt (k + t * t)) in *. assert (S : s * s = k + t * t) by (apply sqrt_sqrt; lra). replace k with (s * s - t * t) at 1 by lra. field. lra.
  - intros t _. assert (Q : 0 < k + t * t) by nra. pose proof (sqrt_lt_R0 _ Q) as L. apply continuity_pt_filterlim.
    apply (ex_derive_continuous (fun t => t / sqrt (k + t * t))). auto_derive. split; [exact Q|]. split; [lra|trivial].
  - rewrite Rmin_left, Rmax_right in C by lra. rewrite E. rewrite (Rmult_comm (y' - y)). apply Rmult_le_compat_r; [lra|].
    assert (CC : 0.98 <= c * c <= 1) by nra. assert (Q : 0 < k + c * c) by lra. set (s := sqrt (k + c * c)).
    assert (S : s * s = k + c * c) by (apply sqrt_sqrt; lra). assert (S0 : 0 < s) by (apply sqrt_lt_R0; lra). assert (S1 : 1.7 <= s) by (apply Rnot_lt_le; intros H; nra).
    unfold Rdiv. apply Rmult_le_compat_l; [lra|]. apply Rinv_le; [lra|]. rewrite S. apply Rle_trans with (2.97 * 1.7); [lra|apply Rmult_le_compat; lra].
Qed.
Lemma rectangle_small : forall x0 x1 y0 y1, 0.999 <= x0 -> x0 <= x1 -> x1 <= 1 -> 0.999 <= y0 -> y0 <= y1 -> y1 <= 1 ->
  sphereQuadrantArea x1 y1 - sphereQuadrantArea x1 y0 - sphereQuadrantArea x0 y1 + sphereQuadrantArea x0 y0 <= (x1 - x0) * (y1 - y0) * / 4.8.
Proof.
  intros x0 x1 y0 y1 X0 X X1 Y0 Y Y1.
  destruct (MVT_gen (fun x => sphereQuadrantArea x y1 - sphereQuadrantArea x y0) x0 x1 (fun x => slope y1 x - slope y0 x)) as (c & C & E).
  - intros x _. apply (is_derive_minus (fun x => sphereQuadrantArea x y1) (fun x => sphereQuadrantArea x y0)); apply area_derive.
  - intros x _. apply continuity_pt_filterlim. apply (ex_derive_continuous (fun x => sphereQuadrantArea x y1 - sphereQuadrantArea x y0)).
    exists (slope y1 x - slope y0 x).
    apply (is_derive_minus (fun x => sphereQuadrantArea x y1) (fun x => sphereQuadrantArea x y0)); apply area_derive.
  - cbv beta in E. rewrite Rmin_left, Rmax_right in C by lra. assert (CC : 0.99 <= c * c <= 1) by nra.
    pose proof (ratio_step_le (1 + c * c) y0 y1 ltac:(lra) ltac:(lra) Y Y1) as R.
    assert (P : forall t, 0 < sqrt (1 + c * c + t * t)) by (intros t; apply sqrt_lt_R0; nra). pose proof (P y0) as P0'. pose proof (P y1) as P1'.
    assert (SL : slope y1 c - slope y0 c <= (y1 - y0) * / 4.8).
    { unfold slope. replace (c * c + y1 * y1 + 1) with (1 + c * c + y1 * y1) by ring. replace (c * c + y0 * y0 + 1) with (1 + c * c + y0 * y0) by ring.
      replace (y1 / ((1 + c * c) * sqrt (1 + c * c + y1 * y1)) - y0 / ((1 + c * c) * sqrt (1 + c * c + y0 * y0)))
        with (/ (1 + c * c) * (y1 / sqrt (1 + c * c + y1 * y1) - y0 / sqrt (1 + c * c + y0 * y0))) by (field; repeat split; lra).
      apply Rle_trans with (/ (1 + c * c) * ((y1 - y0) * ((1 + c * c) * / 4.8))); [|right; generalize (/ 4.8); intros h; field; lra].
      apply Rmult_le_compat_l; [apply Rlt_le, Rinv_0_lt_compat; lra|exact R]. }
    assert ((slope y1 c - slope y0 c) * (x1 - x0) <= (y1 - y0) * / 4.8 * (x1 - x0)) by (apply Rmult_le_compat_r; lra). lra.
Qed.
Definition grid (x : f32) : Prop := fin x /\ exists m, val x = IZR m * bpow radix2 (-24).
Lemma grid_half : forall x : f32, fin x -> / 2 <= val x < 1 -> grid x.
Proof.
  intros x F H. split; [exact F|]. exists (Ztrunc (scaled_mantissa radix2 fe (val x))).
  pose proof (generic_format_B2R 24 128 x) as G. unfold generic_format, F2R in G. cbn [Fnum Fexp] in G.
  replace (cexp radix2 fe (val x)) with (-24)%Z in G; [exact G|]. symmetry. unfold cexp. rewrite (mag_unique radix2 _ 0).
  - reflexivity.
  - rewrite Rabs_right by lra. change (bpow radix2 (0 - 1)) with (/ 2). change (bpow radix2 0) with 1. lra.
Qed.
Lemma grid_exact : forall m, Rabs (IZR m * bpow radix2 (-24)) < 1 -> rnd (IZR m * bpow radix2 (-24)) = IZR m * bpow radix2 (-24).
Proof.
  intros m H. destruct (lit_exact m (-24)) as [F V]; [|lia|rewrite <- V; apply rnd_val].
  apply lt_IZR. rewrite abs_IZR. change (bpow radix2 (-24)) with U in H. rewrite Rabs_mult, (Rabs_right U) in H by lra. change (IZR (2 ^ 24)) with 16777216. lra.
Qed.
Lemma grid_add : forall a b : f32, grid a -> grid b -> -1 < val a + val b < 1 -> grid (a + b)%sc /\ val (a + b)%sc = val a + val b.
Proof.
  intros a b (Fa & m & A) (Fb & n & B) H. destruct (add_small a b Fa Fb) as [F V]; [apply small10; lra|].
  assert (E : val a + val b = IZR (m + n) * bpow radix2 (-24)) by (rewrite plus_IZR, A, B; ring).
  rewrite E in V. rewrite grid_exact in V by (rewrite <- E; apply Rabs_def1; lra). split; [split; [exact F|exists (m + n)%Z; exact V]|]. rewrite V, E. reflexivity.
Qed.
Lemma grid_sub : forall a b : f32, grid a -> grid b -> -1 < val a - val b < 1 -> grid (a - b)%sc /\ val (a - b)%sc = val a - val b.
Proof.
  intros a b (Fa & m & A) (Fb & n & B) H. destruct (sub_small a b Fa Fb) as [F V]; [apply small10; lra|].
  assert (E : val a - val b = IZR (m - n) * bpow radix2 (-24)) by (rewrite minus_IZR, A, B; ring).
  rewrite E in V. rewrite grid_exact in V by (rewrite <- E; apply Rabs_def1; lra). split; [split; [exact F|exists (m - n)%Z; exact V]|]. rewrite V, E. reflexivity.
Qed.
Lemma corner_area : forall x y, 0.999 <= x <= 1 -> 0.999 <= y <= 1 -> 0.51 <= sphereQuadrantArea x y <= 0.54.
Proof.
  intros x y X Y. destruct corner as (C & _). rewrite areaR in C. pose proof PI_upper as PA. pose proof PI_lower as PB.
  rewrite areaR. pose proof (atan_lip (1 * 1 / sqrt (1 * 1 + 1 * 1 + 1)) (x * y / sqrt (x * x + y * y + 1))) as L. rewrite C in L.
  assert (B : Rabs (x * y / sqrt (x * x + y * y + 1) - 1 * 1 / sqrt (1 * 1 + 1 * 1 + 1)) <= 0.004).
  { assert (XY : 0.998 <= x * y <= 1) by nra. assert (SS : 2.996 <= x * x + y * y + 1 <= 3) by nra.
    assert (R : forall q, 2.996 <= q <= 3 -> 0.577 <= / sqrt q <= 0.578).
    { intros q Hq. set (s := sqrt q). assert (S : s * s = q) by (apply sqrt_sqrt; lra). assert (S0 : 0 <= s) by apply sqrt_pos.
      assert (S1 : 1.7305 <= s <= 1.7325) by (split; apply Rnot_lt_le; intros K; nra).
      split; [apply Rle_trans with (/ 1.7325); [lra|apply Rinv_le; lra]|apply Rle_trans with (/ 1.7305); [apply Rinv_le; lra|lra]]. }
    pose proof (R _ SS) as R1. pose proof (R (1 * 1 + 1 * 1 + 1) ltac:(lra)) as R2. unfold Rdiv.
    assert (0.998 * 0.577 <= x * y * / sqrt (x * x + y * y + 1) <= 1 * 0.578) by (split; apply Rmult_le_compat; lra). apply Rabs_le. lra. }
  apply Rabs_le_inv in B. assert (L' := Rle_trans _ _ _ L (Rabs_le _ _ B)). apply Rabs_le_inv in L'. lra.
Qed.
Theorem texel_lost : forall (T : Trig f32), goodAtan2 T -> let inv : f32 := (f1 / slit 8192 0)%sc in let a := calcSolidAngle (coordsToST 0 0 inv) inv in
  exists w, hasSolidAngle (texelEdge 8192 1) (texelEdge 8192 0) (texelEdge 8192 1) (texelEdge 8192 0) w /\ 0 < w /\ fin a /\ (val a <= 0 \/ 4 * w <= val a).
Proof.
  intros T HT inv a. set (lo := (stOf 0 inv - inv)%sc). set (hi := (stOf 0 inv + inv)%sc).
  destruct (lit_exact 4095 (-12) ltac:(lia) ltac:(lia)) as [Fl Vl]. destruct (lit_Z 1 ltac:(lia)) as [Fh Vh].
  assert (El : B2FF 24 128 lo = B2FF 24 128 (slit 4095 (-12) : f32)) by (unfold lo, inv; vm_compute; reflexivity). assert (Eh : B2FF 24 128 hi = B2FF 24 128 (slit 1 0 : f32)) by (unfold hi, inv; vm_compute; reflexivity).
  clear Fl Fh. assert (Fl : fin lo) by (unfold lo, inv; vm_compute; reflexivity). assert (Fh : fin hi) by (unfold hi, inv; vm_compute; reflexivity).
  assert (R : forall x y : f32, B2FF 24 128 x = B2FF 24 128 y -> val x = val y) by (intros x y E; rewrite <- !FF2R_B2FF, E; reflexivity).
  apply R in El, Eh. rewrite Vl in El. rewrite Vh in Eh. clear Vl Vh. rename El into Vl, Eh into Vh. clear R. change (bpow radix2 (-12)) with (/ 4096) in Vl.
  assert (L1 : texelEdge 8192 1 = val lo) by (rewrite Vl; unfold texelEdge; lra). assert (L0 : texelEdge 8192 0 = val hi) by (rewrite Vh; unfold texelEdge; lra). rewrite L1, L0.
  change a with (sphereQuadrantArea lo lo - sphereQuadrantArea lo hi - sphereQuadrantArea hi lo + sphereQuadrantArea hi hi)%sc.
  exists (sphereQuadrantArea (val hi) (val hi) - sphereQuadrantArea (val hi) (val lo) - sphereQuadrantArea (val lo) (val hi) + sphereQuadrantArea (val lo) (val lo)).
  split; [apply solid_angle_rect|].
  pose proof (rectangle_positive (val lo) (val hi) (val lo) (val hi) ltac:(lra) ltac:(lra)) as WP.
  pose proof (rectangle_small (val lo) (val hi) (val lo) (val hi) ltac:(lra) ltac:(lra) ltac:(lra) ltac:(lra) ltac:(lra) ltac:(lra)) as WS.
  assert (K : forall x y : f32, fin x -> fin y -> 0.999 <= val x <= 1 -> 0.999 <= val y <= 1 -> grid (sphereQuadrantArea x y) /\ 0.5 <= val (sphereQuadrantArea x y) <= 0.55).
  { intros x y Fx Fy Hx Hy. destruct (corner_near T HT x y Fx Fy ltac:(lra) ltac:(lra)) as (F & E & _). pose proof (corner_area (val x) (val y) Hx Hy) as C. apply Rabs_le_inv in E.
    split; [apply grid_half; [exact F|lra]|lra]. }
  assert (Bl : 0.999 <= val lo <= 1) by lra. assert (Bh : 0.999 <= val hi <= 1) by lra.
  destruct (K lo lo Fl Fl Bl Bl) as [G00 B00]. destruct (K lo hi Fl Fh Bl Bh) as [G01 B01]. destruct (K hi lo Fh Fl Bh Bl) as [G10 B10]. destruct (K hi hi Fh Fh Bh Bh) as [G11 B11]. clear K.
  set (a00 := sphereQuadrantArea lo lo) in *. set (a01 := sphereQuadrantArea lo hi) in *. set (a10 := sphereQuadrantArea hi lo) in *. set (a11 := sphereQuadrantArea hi hi) in *.
  destruct (grid_sub a00 a01 G00 G01 ltac:(lra)) as [G1 V1]. destruct (grid_sub _ a10 G1 G10 ltac:(lra)) as [G2 V2]. destruct (grid_add _ a11 G2 G11 ltac:(lra)) as [G3 V3].
  split; [lra|]. destruct G3 as [F3 (m & E3)]. split; [exact F3|]. rewrite E3. change (bpow radix2 (-24)) with U.
  destruct (Z_le_gt_dec m 0) as [M|M]; [left; assert (IZR m <= 0) by (apply IZR_le; lia); lra|right; assert (1 <= IZR m) by (apply IZR_le; lia); rewrite Vl, Vh in WS; rewrite Vl, Vh; lra].
Qed.
