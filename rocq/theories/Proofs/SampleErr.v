(** GGX importance sampling in binary32. *)
From Coq Require Import ZArith Bool List Reals Lra Lia Psatz.
From Flocq Require Import Core.Core IEEE754.BinarySingleNaN IEEE754.Binary IEEE754.Bits.
From Verif.Model Require Import Scalar Vec Trig Simd Numeric Ibl.
From Verif.Spec Require Import AngleSpec GgxSpec IblSpec.
From Verif.Proofs Require Import OrdScalar F32Round F32Err NumericProofs NormProofs PiBounds RayErr YxyErr YxyRgb AngleErr CubeErr GgxErr IblProofs.
Local Open Scope R_scope.

Lemma rnd1 : rnd 1 = 1.
Proof. destruct (lit_Z 1 ltac:(lia)) as [F1 V1]. rewrite <- V1. apply rnd_val. Qed.
(** just below one *)
Lemma rnd_below1 : rnd (1 - / 67108864) = 1.
Proof.
  destruct (lit_Z 1 ltac:(lia)) as [F1 V1]. destruct (lit_exact 1 (-26) ltac:(lia) ltac:(lia)) as [F2 V2].
  change (bpow radix2 (-26)) with (/ 67108864) in V2. rewrite Rmult_1_l in V2.
  destruct (sub_small _ _ F1 F2) as [F V]; [rewrite V1, V2; apply small10; lra|]. rewrite V1, V2 in V. rewrite <- V, <- V1. vm_compute. reflexivity.
Qed.
Lemma rnd_01 : forall x, 0 <= x <= 1 -> 0 <= rnd x <= 1.
Proof. intros x H. pose proof rnd1 as E1. pose proof rnd_0 as E0. split; [rewrite <- E0|rewrite <- E1]; apply rnd_le; lra. Qed.

Section Sample.
  Context (w a : f32) (Fw : fin w) (Fa : fin a) (Hw : 0 <= val w < 1) (Ha : / 1024 <= val a <= 1).
  Let W := val w. Let A := val a.
  Let phi : R := 1 + (A + 1) * ((A - 1) * W).
  Let den : f32 := (f1 + (a + f1) * ((a - f1) * w))%sc.
  Let num : f32 := (f1 - w)%sc.
  Lemma W_below : W <= 1 - U.
  Proof.
    unfold W. destruct (lit_exact 16777215 (-24) ltac:(lia) ltac:(lia)) as [F V]. change (bpow radix2 (-24)) with U in V.
    replace (1 - U) with (16777215 * U) by lra. rewrite <- V. apply Rnot_lt_le. intros H.
    assert (S : generic_format radix2 (FLT_exp (-149) 24) (val w)) by (apply (generic_format_B2R 24 128)).
    destruct (lit_Z 1 ltac:(lia)) as [F1 V1].
    assert (K : succ radix2 (FLT_exp (-149) 24) (val (slit 16777215 (-24) : f32)) <= val w).
    { apply succ_le_lt; [exact (@FLT_exp_valid (-149) 24 eq_refl)|apply (generic_format_B2R 24 128)|exact S|exact H]. }
    assert (E : 1 <= succ radix2 (FLT_exp (-149) 24) (val (slit 16777215 (-24) : f32))).
    { rewrite succ_eq_pos by (rewrite V; lra). rewrite ulp_neq_0 by (rewrite V; lra).
      unfold cexp. rewrite V. rewrite (mag_unique radix2 _ 0).
      - change (bpow radix2 (FLT_exp (-149) 24 0)) with U. lra.
      - rewrite Rabs_right by lra. change (bpow radix2 (0 - 1)) with (/ 2). change (bpow radix2 0) with 1. lra. }
    lra.
  Qed.
  Lemma A2 : / 1048576 <= A * A <= 1.
  Proof. fold A in Ha. split; [replace (/ 1048576) with (/ 1024 * / 1024) by lra; apply Rmult_le_compat; lra|rewrite <- (Rmult_1_r 1); apply Rmult_le_compat; lra]. Qed.
  Lemma phiE : phi = 1 - W + A * A * W.
  Proof. unfold phi. ring. Qed.
  Lemma phi_le : A * A <= phi <= 1 /\ 1 - W <= phi.
  Proof.
    pose proof A2 as Q. fold W in Hw. rewrite phiE. assert (0 <= A * A * W <= 1 * W) by (split; [apply Rmult_le_pos; lra|apply Rmult_le_compat_r; lra]).
    assert (0 <= (1 - A * A) * (1 - W)) by (apply Rmult_le_pos; lra). lra.
  Qed.
  Lemma num_is : fin num /\ val num = rnd (1 - W) /\ U <= val num <= 1.
  Proof.
    destruct (lit_Z 1 ltac:(lia)) as [F1 V1]. change (slit 1 0 : f32) with (@f1 f32 ScalarF32) in F1, V1. fold W in Hw.
    destruct (sub_small f1 w F1 Fw) as [F V]; [rewrite V1; fold W; apply small10; lra|]. rewrite V1 in V. fold W in V. split; [exact F|]. split; [exact V|].
    fold num in V. rewrite V. pose proof W_below as B. split; [|apply rnd_01; lra].
    destruct (lit_exact 1 (-24) ltac:(lia) ltac:(lia)) as [F2 V2]. change (bpow radix2 (-24)) with U in V2. rewrite Rmult_1_l in V2. rewrite <- V2, <- (rnd_val (slit 1 (-24))). apply rnd_le. rewrite V2. lra.
  Qed.
  Lemma den_is : exists p, fin den /\ val den = rnd (1 + p) /\ Rabs (p - (phi - 1)) <= 4.0002 * U * (1 - phi) + 36 * tiny /\ Rabs (val den - phi) <= 4.01 * U.
  Proof.
    pose proof phi_le as [P _]. pose proof A2 as Q. destruct (lit_Z 1 ltac:(lia)) as [F1 V1]. change (slit 1 0 : f32) with (@f1 f32 ScalarF32) in F1, V1.
    fold A in Ha. fold W in Hw.
    destruct (add_small a f1 Fa F1) as [Fp Vp]; [rewrite V1; fold A; apply small10; lra|]. rewrite V1 in Vp. fold A in Vp.
    assert (Ap : ap 1 6 (val (a + f1)%sc) (A + 1)) by (apply (ap_weak 1 1); [lra|rewrite Vp; apply ap_rnd]).
    destruct (sub_small a f1 Fa F1) as [Fq Vq]; [rewrite V1; fold A; apply small10; lra|]. rewrite V1 in Vq. fold A in Vq.
    assert (Aq : ap 1 1 (val (a - f1)%sc) (A - 1)) by (rewrite Vq; apply ap_rnd).
    assert (Aw : ap 0 1 (val w) W) by apply ap_refl.
    assert (B1 : Rabs (A + 1) <= 2) by (apply Rabs_le; lra). assert (B2 : Rabs W <= 1) by (apply Rabs_le; lra). assert (B3 : Rabs (A - 1) <= 1) by (apply Rabs_le; lra).
    assert (B4 : Rabs ((A - 1) * W) <= 1) by (rewrite Rabs_mult; apply Rle_trans with (1 * 1); [apply Rmult_le_compat; try apply Rabs_pos; assumption|lra]).
    pose proof (ap_mul 1 1 0 2.0001 _ _ _ _ ltac:(lra) ltac:(lra) ltac:(lra) (Rle_trans _ 1 2 B3 ltac:(lra)) (Rle_trans _ 1 2 B2 ltac:(lra)) Aq Aw ltac:(lra)) as A1.
    pose proof (ap_in 1 6 _ _ 2 ltac:(lra) ltac:(lra) B1 ltac:(lra) Ap) as I1. pose proof (ap_in 1 1 _ _ 1 ltac:(lra) ltac:(lra) B3 ltac:(lra) Aq) as I3.
    assert (PR : forall x y, -2.5 <= x <= 2.5 -> -2.5 <= y <= 2.5 -> small (x * y)).
    { intros x y X Y. apply small10. assert (Rabs (x * y) <= 2.5 * 2.5) by (rewrite Rabs_mult; apply Rmult_le_compat; try apply Rabs_pos; apply Rabs_le; lra). apply Rabs_le_inv in H. lra. }
    destruct (mul_small (a - f1)%sc w Fq Fw) as [Fs Vs]; [apply PR; fold W; lra|]. rewrite <- Vs in A1. replace (6 * 1) with 6 in A1 by ring.
    pose proof (ap_in 2.0001 6 _ _ 1 ltac:(lra) ltac:(lra) B4 ltac:(lra) A1) as I4.
    pose proof (ap_mul 6 1 2.0001 4.0002 _ _ _ _ ltac:(lra) ltac:(lra) ltac:(lra) B1 (Rle_trans _ 1 2 B4 ltac:(lra)) Ap A1 ltac:(lra)) as A3.
    destruct (mul_small (a + f1)%sc ((a - f1) * w)%sc Fp Fs) as [Ft Vt]; [apply PR; lra|]. rewrite <- Vt in A3. replace (6 * 6) with 36 in A3 by ring.
    set (e := ((a + f1) * ((a - f1) * w))%sc) in *. unfold ap in A3. assert (B5 : (A + 1) * ((A - 1) * W) = phi - 1) by (unfold phi; ring). rewrite B5 in A3.
    rewrite (Rabs_left1 (phi - 1)) in A3 by lra. exists (val e).
    pose proof A3 as A4. apply Rabs_le_inv in A4.
    destruct (add_small f1 e F1 Ft) as [Fz Vz]; [rewrite V1; apply small10; lra|]. rewrite V1 in Vz.
    pose proof (rerr (1 + val e)) as R. rewrite <- Vz in R. split; [exact Fz|]. split; [exact Vz|].
    rewrite (Rabs_right (1 + val e)) in R by lra. apply Rabs_le_inv in R. change den with (f1 + e)%sc.
    split; [eapply Rle_trans; [exact A3|]; lra|apply Rabs_le; lra].
  Qed.
  Lemma num_le_den : val num <= val den.
  Proof.
    destruct den_is as (p & _ & V & E & _). destruct num_is as (_ & Vn & _ & N1). pose proof A2 as Q. pose proof phiE as PE. fold W in Hw. apply Rabs_le_inv in E.
    assert (M : 1 * W / 1048576 <= A * A * W <= 1 * W) by (split; [unfold Rdiv; rewrite Rmult_1_l, Rmult_comm; apply Rmult_le_compat_r; lra|apply Rmult_le_compat_r; lra]).
    set (m := A * A * W) in *. rewrite V. destruct (Rle_or_lt W (/ 134217728)) as [L|L].
    - apply Rle_trans with (1 := N1). rewrite <- rnd_below1 at 1. apply rnd_le. lra.
    - rewrite Vn. apply rnd_le. lra.
  Qed.
  Lemma c2_is : fin (num / den)%sc /\ val (num / den)%sc = rnd (val num / val den) /\ 0 <= val (num / den)%sc <= 1.
  Proof.
    destruct den_is as (_ & Fd & _). destruct num_is as (Fn & _ & N0 & N1). pose proof num_le_den as L.
    assert (B : 0 <= val num / val den <= 1).
    { split; [apply Rmult_le_pos; [lra|apply Rlt_le, Rinv_0_lt_compat; lra]|]. apply Rmult_le_reg_r with (val den); [lra|]. unfold Rdiv. rewrite Rmult_assoc, Rinv_l by lra. lra. }
    destruct (div_small _ _ Fn Fd) as [F V]; [lra|apply small10; lra|]. split; [exact F|]. split; [exact V|]. rewrite V. apply rnd_01. exact B.
  Qed.
  Let c2 : f32 := (num / den)%sc.
  Lemma sqrt_01 : forall x : f32, fin x -> 0 <= val x <= 1 -> fin (ssqrt x) /\ 0 <= val (ssqrt x) <= 1 /\ Rabs (val (ssqrt x) * val (ssqrt x) - val x) <= 2 * U + 2 * tiny.
  Proof.
    intros x F H. destruct (sqrt_fin32 x F ltac:(lra)) as [Fs Vs]. set (q := sqrt (val x)) in *. assert (Q : q * q = val x) by (apply sqrt_def; lra).
    assert (Q0 : 0 <= q) by apply sqrt_pos. assert (Q1 : q <= 1) by (apply Rnot_lt_le; intros K; nra).
    split; [exact Fs|]. pose proof (rnd_01 q ltac:(lra)) as B. pose proof (rerr q) as R. rewrite <- Vs in B, R. split; [exact B|]. set (z := val (ssqrt x)) in *.
    rewrite <- Q. replace (z * z - q * q) with ((z - q) * (z + q)) by ring. rewrite Rabs_mult. rewrite (Rabs_right q) in R by lra.
    apply Rle_trans with ((U + tiny) * 2); [|lra]. apply Rmult_le_compat; try apply Rabs_pos; [lra|apply Rabs_le; lra].
  Qed.
  Lemma angles : fin (ssqrt c2) /\ fin (ssqrt (f1 - c2)%sc) /\ 0 <= val (ssqrt c2) <= 1 /\ 0 <= val (ssqrt (f1 - c2)%sc) <= 1 /\
    Rabs (val (ssqrt c2) * val (ssqrt c2) + val (ssqrt (f1 - c2)%sc) * val (ssqrt (f1 - c2)%sc) - 1) <= 5.01 * U.
  Proof.
    destruct c2_is as (F & _ & B). fold c2 in F, B. destruct (lit_Z 1 ltac:(lia)) as [F1 V1]. change (slit 1 0 : f32) with (@f1 f32 ScalarF32) in F1, V1.
    destruct (sub_small f1 c2 F1 F) as [Fo Vo]; [rewrite V1; apply small10; lra|]. rewrite V1 in Vo.
    pose proof (rnd_01 (1 - val c2) ltac:(lra)) as Bo. pose proof (rerr (1 - val c2)) as R. rewrite <- Vo in Bo, R. rewrite (Rabs_right (1 - val c2)) in R by lra.
    destruct (sqrt_01 c2 F B) as (Fz & Bz & Ez). destruct (sqrt_01 (f1 - c2)%sc Fo Bo) as (Fs & Bs & Es).
    split; [exact Fz|]. split; [exact Fs|]. split; [exact Bz|]. split; [exact Bs|]. apply Rabs_le_inv in R. apply Rabs_le_inv in Ez. apply Rabs_le_inv in Es. apply Rabs_le. lra.
  Qed.
  Lemma cos_near : / 512 <= A -> within (5 / (A * A)) (ssqrt c2) (sqrt ((1 - W) / (1 + (A * A - 1) * W))).
  Proof.
    intros HA. destruct den_is as (_ & Fd & _ & _ & Ed). destruct num_is as (Fn & Vn & N0 & N1). pose proof num_le_den as L. pose proof phi_le as [P P1]. pose proof W_below as WB. apply Rabs_le_inv in Ed. fold W in Hw. fold A in Ha.
    assert (Q : / 262144 <= A * A <= 1).
    { split; [replace (/ 262144) with (/ 512 * / 512) by lra; apply Rmult_le_compat; lra|apply A2]. }
    destruct (rnd_fac (1 - W) (normal_pos (1 - W) ltac:(lra))) as (_ & g1 & G1 & E1). rewrite E1 in Vn. pose proof (fac_in 1 g1 ltac:(lra) G1) as I1.
    assert (ID : 0.9 <= / val den <= 300000).
    { split; [apply Rle_trans with (/ 1.1); [lra|apply Rinv_le; lra]|]. replace 300000 with (/ / 300000) by (rewrite Rinv_inv; reflexivity). apply Rinv_le; lra. }
    assert (BQ : U * 0.9 <= val num / val den <= 1 * 300000) by (unfold Rdiv; split; apply Rmult_le_compat; lra).
    destruct (div_fac num den Fn Fd ltac:(lra) ltac:(lra)) as (g2 & G2 & F2 & E2). fold c2 in F2, E2. pose proof (fac_in 1 g2 ltac:(lra) G2) as I2.
    set (dl := val den / phi - 1). assert (Edl : val den = phi * (1 + dl)) by (unfold dl; field; lra).
    set (b := 4.01 * U * / (A * A)). assert (IA : 1 <= / (A * A) <= 262144).
    { split; [rewrite <- Rinv_1; apply Rinv_le; lra|]. replace 262144 with (/ / 262144) by (rewrite Rinv_inv; reflexivity). apply Rinv_le; lra. }
    assert (Hb : 0 <= b <= 0.063) by (unfold b; lra).
    assert (Hd : - b <= dl <= b).
    { apply Rabs_le_inv. unfold dl. replace (val den / phi - 1) with ((val den - phi) * / phi) by (field; lra). rewrite Rabs_mult, (Rabs_right (/ phi)) by (apply Rle_ge, Rlt_le, Rinv_0_lt_compat; lra).
      unfold b. apply Rmult_le_compat; [apply Rabs_pos|apply Rlt_le, Rinv_0_lt_compat; lra|apply Rabs_le; lra|apply Rinv_le; lra]. }
    set (T := (1 - W) / phi). assert (PT : U <= T <= 1).
    { unfold T. split.
      - apply Rmult_le_reg_r with phi; [lra|]. unfold Rdiv. rewrite Rmult_assoc, Rinv_l by lra. lra.
      - apply Rmult_le_reg_r with phi; [lra|]. unfold Rdiv. rewrite Rmult_assoc, Rinv_l by lra. lra. }
    set (h := / (1 + dl)). assert (Hh : Rabs (h - 1) <= 1.068 * b).
    { unfold h. replace (/ (1 + dl) - 1) with (- dl * / (1 + dl)) by (field; lra). rewrite Rabs_mult, Rabs_Ropp, (Rabs_right (/ (1 + dl))) by (apply Rle_ge, Rlt_le, Rinv_0_lt_compat; lra).
      rewrite (Rmult_comm 1.068). apply Rmult_le_compat; [apply Rabs_pos|apply Rlt_le, Rinv_0_lt_compat; lra|apply Rabs_le; lra|]. apply Rle_trans with (/ 0.937); [apply Rinv_le; lra|lra]. }
    set (g := g1 * g2). assert (G : fac 2.0001 g) by (apply (fac_mul 1 1); try assumption; lra). unfold fac in G.
    set (v := h * g). assert (Hv : Rabs (v - 1) <= 1.069 * b + 2.0001 * U).
    { unfold v. replace (h * g - 1) with ((h - 1) * g + (g - 1)) by ring. eapply Rle_trans; [apply Rabs_triang|]. rewrite Rabs_mult.
      assert (Ig : Rabs g <= 1.000001) by (apply Rabs_le_inv in G; apply Rabs_le; lra).
      assert (Rabs (h - 1) * Rabs g <= 1.068 * b * 1.000001) by (apply Rmult_le_compat; try apply Rabs_pos; assumption). lra. }
    assert (Pv : 0.93 <= v <= 1.07) by (apply Rabs_le_inv in Hv; lra).
    assert (EV : val c2 = T * v) by (rewrite E2, Vn, Edl; unfold T, v, h, g; field; lra).
    destruct c2_is as (_ & _ & Bc). fold c2 in Bc.
    destruct (sqrt_fin32 c2 F2 ltac:(lra)) as [Fz Vz]. rewrite EV, sqrt_mult_alt in Vz by lra.
    set (Z := sqrt T) in *. set (s := sqrt v) in *. assert (ZZ : Z * Z = T) by (apply sqrt_def; lra). assert (ss : s * s = v) by (apply sqrt_def; lra).
    assert (Z0 : 0 <= Z) by apply sqrt_pos. assert (s0 : 0 <= s) by apply sqrt_pos.
    assert (ZB : U <= Z <= 1) by (split; apply Rnot_lt_le; intros K; nra). assert (sB : 0.96 <= s <= 1.04) by (split; apply Rnot_lt_le; intros K; nra).
    assert (Hs : Rabs (s - 1) <= (1.069 * b + 2.0001 * U) * / 1.96).
    { replace (s - 1) with ((v - 1) * / (s + 1)) by (rewrite <- ss; field; lra). rewrite Rabs_mult, (Rabs_right (/ (s + 1))) by (apply Rle_ge, Rlt_le, Rinv_0_lt_compat; lra).
      apply Rmult_le_compat; [apply Rabs_pos|apply Rlt_le, Rinv_0_lt_compat; lra|exact Hv|apply Rinv_le; lra]. }
    assert (BZ : U * 0.96 <= Z * s <= 1 * 1.04) by (split; apply Rmult_le_compat; lra).
    destruct (rnd_fac (Z * s) (normal_pos (Z * s) ltac:(lra))) as (_ & k & Gk & Ek). rewrite Ek in Vz.
    split; [exact Fz|]. replace (1 + (A * A - 1) * W) with phi by (unfold phi; ring). fold T Z. rewrite Vz.
    replace (Z * s * k - Z) with ((s * k - 1) * Z) by ring. rewrite Rabs_mult. apply Rmult_le_compat_r; [apply Rabs_pos|].
    unfold fac in Gk. replace (s * k - 1) with ((s - 1) * k + (k - 1)) by ring. eapply Rle_trans; [apply Rabs_triang|]. rewrite Rabs_mult.
    assert (Ik : Rabs k <= 1.000001) by (apply Rabs_le_inv in Gk; apply Rabs_le; lra).
    assert (Rabs (s - 1) * Rabs k <= (1.069 * b + 2.0001 * U) * / 1.96 * 1.000001) by (apply Rmult_le_compat; try apply Rabs_pos; assumption).
    unfold b in *. unfold Rdiv. lra.
  Qed.
End Sample.

(** ** The half vector *)
Lemma mul_sq : forall s c : f32, fin s -> fin c -> 0 <= val s <= 1 -> val c * val c <= 2 ->
  fin (s * c)%sc /\ Rabs (val (s * c)%sc * val (s * c)%sc - val s * val s * (val c * val c)) <= 2.01 * U * (val c * val c) + 4 * tiny.
Proof.
  intros s c Fs Fc Hs Hc. set (S := val s) in *. set (C := val c) in *.
  assert (AC : Rabs C <= 1.5) by (apply Rabs_le; split; apply Rnot_lt_le; intros K; nra).
  set (m := Rabs C) in *. assert (m0 : 0 <= m) by apply Rabs_pos. assert (mm : m * m = C * C) by (unfold m; rewrite <- Rabs_mult; apply Rabs_right, Rle_ge, Rle_0_sqr).
  assert (AS : Rabs (S * C) <= m) by (rewrite Rabs_mult, (Rabs_right S) by lra; fold m; assert (S * m <= 1 * m) by (apply Rmult_le_compat_r; lra); lra).
  destruct (mul_small s c Fs Fc) as [F V]; [fold S C; apply small10; apply Rabs_le_inv in AS; lra|]. fold S C in V. split; [exact F|].
  pose proof (rerr (S * C)) as R. rewrite <- V in R. set (x := val (s * c)%sc) in *. set (t := S * C) in *.
  replace (S * S * (C * C)) with (t * t) by (unfold t; ring). replace (x * x - t * t) with ((x - t) * (2 * t + (x - t))) by ring. rewrite Rabs_mult, <- mm.
  assert (R1 : Rabs (x - t) <= U * m + tiny) by (assert (U * Rabs t <= U * m) by (apply Rmult_le_compat_l; lra); lra).
  apply Rle_trans with ((U * m + tiny) * (2.001 * m + tiny)).
  - apply Rmult_le_compat; try apply Rabs_pos; [exact R1|]. eapply Rle_trans; [apply Rabs_triang|]. rewrite Rabs_mult, (Rabs_right 2) by lra. assert (U * m <= 0.0001 * m) by (apply Rmult_le_compat_r; lra). lra.
  - assert (0 <= m * m) by (apply Rmult_le_pos; lra). replace ((U * m + tiny) * (2.001 * m + tiny)) with (2.001 * U * (m * m) + (U + 2.001) * tiny * m + tiny * tiny) by ring.
    assert ((U + 2.001) * tiny * m <= (U + 2.001) * tiny * 1.5) by (apply Rmult_le_compat_l; lra). lra.
Qed.
Lemma sample_unit : forall (T : Trig f32) (u : vec2 f32) (a : f32) e, let phi := (f2 * piF * x2 u)%sc in let h := importanceSamplingNdfDggx u a in
  fin (y2 u) -> fin a -> 0 <= val (y2 u) < 1 -> / 1024 <= val a <= 1 ->
  fin (tcos phi) -> fin (tsin phi) -> e <= 1 -> Rabs (val (tcos phi) * val (tcos phi) + val (tsin phi) * val (tsin phi) - 1) <= e ->
  fin (vx h) /\ fin (vy h) /\ fin (vz h) /\ 0 <= val (vz h) <= 1 /\
  Rabs (val (vx h) * val (vx h) + val (vy h) * val (vy h) + val (vz h) * val (vz h) - 1) <= e + 10 * U.
Proof.
  intros T [ux w] a e phi h Fw Fa Hw Ha Fc Fn He H. cbn [x2 y2] in *. destruct (angles w a Fw Fa Hw Ha) as (Fz & Fs & Bz & Bs & E).
  set (z := ssqrt ((f1 - w) / (f1 + (a + f1) * ((a - f1) * w)))%sc) in *. set (s := ssqrt (f1 - (f1 - w) / (f1 + (a + f1) * ((a - f1) * w)))%sc) in *.
  set (c := tcos phi) in *. set (n := tsin phi) in *. change (vx h) with (s * c)%sc. change (vy h) with (s * n)%sc. change (vz h) with z.
  apply Rabs_le_inv in H. set (cc := val c * val c) in *. set (nn := val n * val n) in *. assert (0 <= cc) by apply Rle_0_sqr. assert (0 <= nn) by apply Rle_0_sqr.
  destruct (mul_sq s c Fs Fc Bs ltac:(fold cc; lra)) as [Fx Ex]. destruct (mul_sq s n Fs Fn Bs ltac:(fold nn; lra)) as [Fy Ey]. fold cc in Ex. fold nn in Ey.
  split; [exact Fx|]. split; [exact Fy|]. split; [exact Fz|]. split; [exact Bz|].
  set (ss := val s * val s) in *. assert (Bss : 0 <= ss <= 1 * 1) by (unfold ss; split; [apply Rle_0_sqr|apply Rmult_le_compat; lra]).
  assert (K : - e <= ss * (cc + nn - 1) <= e).
  { apply Rabs_le_inv. rewrite Rabs_mult, (Rabs_right ss) by lra. replace e with (1 * e) by ring. apply Rmult_le_compat; [lra|apply Rabs_pos|lra|apply Rabs_le; lra]. }
  apply Rabs_le_inv in E. apply Rabs_le_inv in Ex. apply Rabs_le_inv in Ey. apply Rabs_le. lra.
Qed.
Lemma sample_quantile : forall (T : Trig f32) (u : vec2 f32) (a : f32), fin (y2 u) -> fin a -> 0 <= val (y2 u) < 1 -> / 512 <= val a <= 1 ->
  exists c, 0 < c <= 1 /\ tailFraction (val a) c = val (y2 u) /\ within (5 / (val a * val a)) (vz (importanceSamplingNdfDggx u a)) c.
Proof.
  intros T [ux w] a Fw Fa Hw Ha. cbn [x2 y2] in *. exists (sqrt ((1 - val w) / (1 + (val a * val a - 1) * val w))).
  destruct (cos2_bounds (val w) (val a) Hw ltac:(lra)) as [_ B]. rewrite cos2R in B. split; [|split].
  - split; [apply sqrt_lt_R0; lra|]. eapply Rle_trans; [apply sqrt_le_1_alt, (proj2 B)|rewrite sqrt_1; lra].
  - rewrite <- cos2R. apply sample_tail; lra.
  - apply (cos_near w a Fw Fa Hw); lra.
Qed.
Lemma nan_mul : forall x c : f32, is_nan 24 128 x = true -> is_nan 24 128 (x * c)%sc = true.
Proof. intros x c H. destruct x; try discriminate H. destruct c; reflexivity. Qed.
(** roughness 0.000244: the squared cosine rounds to more than one *)
Lemma sample_nan : exists w a : f32, fin w /\ fin a /\ 0 <= val w < 1 /\ 0 < val a < 1 /\
  forall (T : Trig f32) ux, is_nan 24 128 (vx (importanceSamplingNdfDggx (V2 ux w) a)) = true /\ is_nan 24 128 (vy (importanceSamplingNdfDggx (V2 ux w) a)) = true.
Proof.
  exists (slit 8888441 (-24)), (slit 16773340 (-36)). destruct (lit_exact 8888441 (-24) ltac:(lia) ltac:(lia)) as [F1 V1]. destruct (lit_exact 16773340 (-36) ltac:(lia) ltac:(lia)) as [F2 V2].
  split; [exact F1|]. split; [exact F2|]. rewrite V1, V2. change (bpow radix2 (-24)) with U. change (bpow radix2 (-36)) with (/ 68719476736). split; [lra|]. split; [lra|].
  intros T ux. set (w := slit 8888441 (-24) : f32). set (a := slit 16773340 (-36) : f32).
  assert (N : is_nan 24 128 (ssqrt (f1 - cosTheta2 w a : f32)%sc) = true) by (vm_compute; reflexivity).
  split; apply nan_mul; exact N.
Qed.
Lemma ex_sample : fin (fhalf : f32) /\ 0 <= val (fhalf : f32) < 1 /\ / 512 <= val (fhalf : f32) <= 1 /\ tailFraction (/ 2) (sqrt (0.8)) = / 2.
Proof.
  destruct half_val as [F V]. split; [exact F|]. rewrite V. split; [lra|]. split; [lra|]. unfold tailFraction. rewrite sqrt_def by lra. lra.
Qed.
(** a constant cosine and sine *)
Definition flatTrig : Trig f32 := {| tsin := fun _ => f0; tcos := fun _ => f1; ttan := fun x => x; tasin := fun x => x; tacos := fun x => x; tatan2 := fun x _ => x; tpi := piF |}.
Lemma ex_sample_trig : forall x : f32, fin (@tcos f32 flatTrig x) /\ fin (@tsin f32 flatTrig x) /\
  Rabs (val (@tcos f32 flatTrig x) * val (@tcos f32 flatTrig x) + val (@tsin f32 flatTrig x) * val (@tsin f32 flatTrig x) - 1) <= 0.
Proof.
  intros x. change (@tcos f32 flatTrig x) with (slit 1 0 : f32). change (@tsin f32 flatTrig x) with (slit 0 0 : f32).
  destruct (lit_Z 1 ltac:(lia)) as [F1 V1]. destruct (lit_Z 0 ltac:(lia)) as [F2 V2]. rewrite V1, V2. split; [exact F1|]. split; [exact F2|].
  replace (1 * 1 + 0 * 0 - 1) with 0 by ring. rewrite Rabs_R0. lra.
Qed.
