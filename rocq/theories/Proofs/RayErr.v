(** The slab test in binary32: the answer is the exact one for a box whose faces are moved by rounding. *)
From Coq Require Import ZArith Bool List Lia Reals Lra Psatz Btauto.
From Flocq Require Import Core.Core IEEE754.BinarySingleNaN IEEE754.Binary IEEE754.Bits.
From Flocq Require Relative Plus_error.
From Verif.Model Require Import Outcome Scalar Vec Simd Aabb.
From Verif.Spec Require Import GeomSpec BvhGeomSpec RaySpec CullSpec RayErrSpec.
From Verif.Proofs Require Import OrdScalar F32Round F32Err BvhBoxes AabbOrder RealLits AabbMore AabbWitness GuardProofs.
Local Open Scope R_scope.

#[local] Instance fexp_okR : Valid_exp (SpecFloat.fexp 24 128) := fexp_correct 24 128 eq_refl.
#[local] Instance prec24R : Prec_gt_0 24 := eq_refl.

Lemma p60 : 2 ^ 60 = bpow radix2 60.
Proof. cbn. lra. Qed.
Lemma b60 : bpow radix2 (-60) = / bpow radix2 60.
Proof. exact (bpow_opp radix2 60). Qed.
Lemma ip60 : / 2 ^ 60 = bpow radix2 (-60).
Proof. rewrite p60, b60. reflexivity. Qed.
Lemma p150 : / 2 ^ 150 = eta0.
Proof. unfold eta0. rewrite <- (Rinv_inv (bpow radix2 (-150))). f_equal. rewrite <- bpow_opp. cbn. lra. Qed.

(** relative errors without an underflow term *)
Lemma sub_rel : forall a b : f32, exists e, Rabs e <= u24 /\ rnd (val a - val b) = (val a - val b) * (1 + e).
Proof.
  intros a b.
  destruct (Plus_error.FLT_plus_error_N_ex radix2 (-149) 24 (fun x => negb (Z.even x)) (val a) (- val b)) as (e & He & E).
  - apply generic_format_B2R.
  - apply generic_format_opp, generic_format_B2R.
  - exists e. split; [|exact E]. eapply Rle_trans; [exact He|]. unfold Relative.u_ro, u24. cbn. lra.
Qed.
Lemma rel_normal : forall x, bpow radix2 (-126) <= Rabs x -> exists e, Rabs e <= u24 /\ rnd x = x * (1 + e).
Proof.
  intros x Hx.
  destruct (Relative.relative_error_N_FLT_ex radix2 (-149) 24 ltac:(lia) (fun x => negb (Z.even x)) x) as (e & He & E).
  - exact Hx.
  - exists e. split; [|exact E]. eapply Rle_trans; [exact He|]. unfold u24. cbn. lra.
Qed.

(** the parameter at which the ray passes the face [m] *)
Definition cross (m o d : f32) : f32 := ((m - o) * (f1 / d))%sc.

Section Face.
  Variables (o d : f32).
  Hypothesis Co : coordIn o.
  Hypothesis Fd : fin d.
  Hypothesis Bd : / 2 ^ 60 <= Rabs (val d) <= 2 ^ 60.

  Lemma d_nz : val d <> 0.
  Proof. intros E. rewrite E, Rabs_R0 in Bd. pose proof (bpow_gt_0 radix2 (-60)). rewrite ip60 in Bd. lra. Qed.
  Lemma recip_bounds : bpow radix2 (-60) <= Rabs (1 / val d) <= bpow radix2 60.
  Proof.
    pose proof d_nz. unfold Rdiv. rewrite Rmult_1_l, Rabs_inv by assumption.
    assert (0 < Rabs (val d)) by (apply Rabs_pos_lt; assumption).
    rewrite ip60, p60 in Bd. split.
    - rewrite b60. apply Rinv_le; [assumption|apply Bd].
    - rewrite <- (Rinv_inv (bpow radix2 60)). apply Rinv_le; [apply Rinv_0_lt_compat, bpow_gt_0|].
      rewrite <- b60. apply Bd.
  Qed.
  Lemma recip_val : exists e, Rabs e <= u24 /\ fin (f1 / d)%sc /\ val (f1 / d)%sc = rnd (1 / val d) /\
    val (f1 / d)%sc = 1 / val d * (1 + e).
  Proof.
    destruct recip_bounds as [L U].
    destruct (lit_Z 1 ltac:(lia)) as [F1 V1].
    destruct (div_small f1 d F1 Fd d_nz) as [F V].
    { change (f1 : f32) with (slit 1 0 : f32). rewrite V1. unfold small. eapply Rle_trans; [exact U|apply bpow_le; lia]. }
    change (val f1) with (val (slit 1 0 : f32)) in V. rewrite V1 in V.
    destruct (rel_normal (1 / val d)) as (e & He & E); [eapply Rle_trans; [|exact L]; apply bpow_le; lia|].
    exists e. split; [exact He|]. split; [exact F|]. split; [exact V|]. rewrite V. exact E.
  Qed.
  Lemma gap_val : forall m : f32, coordIn m -> exists e, Rabs e <= u24 /\ fin (m - o)%sc /\
    val (m - o)%sc = rnd (val m - val o) /\ val (m - o)%sc = (val m - val o) * (1 + e) /\ Rabs (val m - val o) <= bpow radix2 61.
  Proof.
    intros m (Fm & Bm). destruct Co as (Fo & Bo). rewrite p60 in Bm, Bo.
    assert (B : Rabs (val m - val o) <= bpow radix2 61).
    { assert (E61 : bpow radix2 61 = bpow radix2 60 + bpow radix2 60) by (cbn; lra). rewrite E61.
      unfold Rminus. eapply Rle_trans; [apply Rabs_triang|]. rewrite Rabs_Ropp. apply Rplus_le_compat; assumption. }
    destruct (sub_small m o Fm Fo) as [F V]; [unfold small; eapply Rle_trans; [exact B|apply bpow_le; lia]|].
    destruct (sub_rel m o) as (e & He & E).
    exists e. split; [exact He|]. split; [exact F|]. split; [exact V|]. split; [rewrite V; exact E|exact B].
  Qed.

  Lemma cross_val : forall m : f32, coordIn m ->
    fin (cross m o d) /\ val (cross m o d) = rnd (rnd (val m - val o) * rnd (1 / val d)) /\
    Rabs (val (cross m o d)) <= bpow radix2 124 /\
    movedFace (val o) (val d) (val m) (val o + val (cross m o d) * val d).
  Proof.
    intros m Cm. unfold cross.
    destruct (gap_val m Cm) as (e1 & H1 & F1 & R1 & V1 & B1). destruct recip_val as (e3 & H3 & F3 & R3 & V3).
    destruct recip_bounds as [_ U]. pose proof d_nz as Nz.
    assert (P124 : Rabs (val (m - o)%sc * val (f1 / d)%sc) <= bpow radix2 124).
    { rewrite Rabs_mult, V1, V3, !Rabs_mult.
      assert (Q1 : Rabs (1 + e1) <= 2) by (eapply Rle_trans; [apply Rabs_triang|]; rewrite Rabs_R1; rewrite u24_val in H1; lra).
      assert (Q3 : Rabs (1 + e3) <= 2) by (eapply Rle_trans; [apply Rabs_triang|]; rewrite Rabs_R1; rewrite u24_val in H3; lra).
      apply Rle_trans with ((bpow radix2 61 * 2) * (bpow radix2 60 * 2)).
      - apply Rmult_le_compat; try (apply Rmult_le_pos; apply Rabs_pos); apply Rmult_le_compat; try apply Rabs_pos; assumption.
      - apply Rle_trans with (bpow radix2 61 * bpow radix2 60 * bpow radix2 2); [cbn; lra|].
        rewrite <- !bpow_plus. apply bpow_le. lia. }
    destruct (mul_small (m - o)%sc (f1 / d)%sc F1 F3) as [F V].
    { unfold small. eapply Rle_trans; [exact P124|apply bpow_le; lia]. }
    split; [exact F|]. split; [rewrite V, R1, R3; reflexivity|]. split.
    { rewrite V. pose proof (rnd_abs_le (val (m - o)%sc * val (f1 / d)%sc) 1 124 ltac:(lia) ltac:(lia)) as K. rewrite !Rmult_1_l in K. apply K, P124. }
    unfold movedFace. split; [|intros Z; contradiction].
    pose proof (rnd_err (val (m - o)%sc * val (f1 / d)%sc)) as E. rewrite <- V in E. rewrite V1, V3 in E.
    set (t := val ((m - o) * (f1 / d))%sc) in *. set (x := val m - val o) in *.
    unfold faceSlack. fold x. unfold Rdiv at 2. rewrite p150.
    replace (x * (1 + e1) * (1 / val d * (1 + e3))) with (x * ((1 + e1) * (1 + e3)) / val d) in E by (field; exact Nz).
    replace (val o + t * val d - val m) with ((t - x * ((1 + e1) * (1 + e3)) / val d) * val d + x * ((1 + e1) * (1 + e3) - 1))
      by (unfold x; field; exact Nz).
    eapply Rle_trans; [apply Rabs_triang|]. rewrite !Rabs_mult.
    assert (D : Rabs (x * ((1 + e1) * (1 + e3)) / val d) * Rabs (val d) = Rabs x * Rabs ((1 + e1) * (1 + e3))).
    { rewrite <- !Rabs_mult. f_equal. field. exact Nz. }
    pose proof (Rabs_pos x) as Px. pose proof (Rabs_pos (val d)) as Pd.
    assert (K1 : Rabs ((1 + e1) * (1 + e3)) <= 1 + 2.0001 * u24).
    { apply Rabs_le_inv in H1. apply Rabs_le_inv in H3. rewrite u24_val in *. apply Rabs_le. split; nra. }
    assert (K2 : Rabs ((1 + e1) * (1 + e3) - 1) <= 2.0001 * u24).
    { apply Rabs_le_inv in H1. apply Rabs_le_inv in H3. rewrite u24_val in *. apply Rabs_le. split; nra. }
    apply Rle_trans with ((u24 * Rabs (x * ((1 + e1) * (1 + e3)) / val d) + eta0) * Rabs (val d) + Rabs x * (2.0001 * u24)).
    { apply Rplus_le_compat; [apply Rmult_le_compat_r; assumption|apply Rmult_le_compat_l; assumption]. }
    rewrite Rmult_plus_distr_r, Rmult_assoc, D.
    assert (K3 : u24 * (Rabs x * Rabs ((1 + e1) * (1 + e3))) <= 1.0001 * u24 * Rabs x).
    { rewrite u24_val in *. nra. }
    replace (2 ^ 24) with 16777216 by (cbn; lra). rewrite u24_val in *. lra.
  Qed.

  Lemma cross_mono : forall m1 m2 : f32, coordIn m1 -> coordIn m2 -> val m1 <= val m2 ->
    val (cross m1 o d) * val d <= val (cross m2 o d) * val d.
  Proof.
    intros m1 m2 C1 C2 H.
    destruct (cross_val m1 C1) as (_ & -> & _). destruct (cross_val m2 C2) as (_ & -> & _).
    assert (A : rnd (val m1 - val o) <= rnd (val m2 - val o)) by (apply F32Round.rnd_le; lra).
    pose proof d_nz as Nz.
    destruct (Rtotal_order (val d) 0) as [N|[Z|P]]; [|contradiction|].
    - assert (S : rnd (1 / val d) <= 0).
      { rewrite <- rnd_0. apply F32Round.rnd_le. unfold Rdiv. rewrite Rmult_1_l. apply Rlt_le, Rinv_lt_0_compat, N. }
      assert (T : rnd (rnd (val m2 - val o) * rnd (1 / val d)) <= rnd (rnd (val m1 - val o) * rnd (1 / val d))) by (apply F32Round.rnd_le; nra).
      nra.
    - assert (S : 0 <= rnd (1 / val d)).
      { rewrite <- rnd_0. apply F32Round.rnd_le. unfold Rdiv. rewrite Rmult_1_l. apply Rlt_le, Rinv_0_lt_compat, P. }
      assert (T : rnd (rnd (val m1 - val o) * rnd (1 / val d)) <= rnd (rnd (val m2 - val o) * rnd (1 / val d))) by (apply F32Round.rnd_le; nra).
      nra.
  Qed.
End Face.

(** *** one axis *)
Lemma fltMax_val : ext (fltMax : f32) = maxFinite /\ num (fltMax : f32).
Proof. split; [|reflexivity]. rewrite fltMax_ext. unfold maxFinite. cbn. lra. Qed.
Lemma mfltMax_val : ext (- fltMax : f32)%sc = - maxFinite /\ num (- fltMax : f32)%sc.
Proof. split; [|reflexivity]. rewrite mfltMax_ext, (proj1 fltMax_val). reflexivity. Qed.
Lemma maxFinite_lt : 0 < maxFinite < maxF.
Proof. unfold maxFinite. split; [cbn; lra|]. cbn. lra. Qed.
Lemma maxFinite_124 : bpow radix2 124 <= maxFinite.
Proof. unfold maxFinite. cbn. lra. Qed.

Definition axisLo p (par : bool) (mn mx o s : f32) : f32 :=
  if par then (- fltMax)%sc else simdmin p ((mn - o) * s)%sc ((mx - o) * s)%sc.
Definition axisHi p (par : bool) (mn mx o s : f32) : f32 :=
  if par then fltMax else simdmax p ((mn - o) * s)%sc ((mx - o) * s)%sc.
Definition axisOut (par : bool) (mn mx o : f32) : bool := par && (slt o mn || sgt o mx).

Lemma zero_cases : forall d : f32, fin d -> val d = 0 -> exists sd, d = B754_zero 24 128 sd.
Proof.
  intros [s|s|s pl H|s m e H] F V; cbn in F; try discriminate; [eauto|].
  exfalso. destruct s.
  - pose proof (F2R_lt_0 radix2 (Float radix2 (Zneg m) e) eq_refl) as X. change (val (B754_finite 24 128 true m e H)) with (F2R (Float radix2 (Zneg m) e)) in V. lra.
  - pose proof (F2R_gt_0 radix2 (Float radix2 (Zpos m) e) eq_refl) as X. change (val (B754_finite 24 128 false m e H)) with (F2R (Float radix2 (Zpos m) e)) in V. lra.
Qed.
Lemma over_zero : forall (g d : f32) sd, fin g -> val g <> 0 -> d = B754_zero 24 128 sd ->
  num (g * (f1 / d))%sc /\
  ext (g * (f1 / d))%sc = (if sd then -1 else 1) * (if Rlt_dec 0 (val g) then maxF else - maxF).
Proof.
  intros g d sd F N ->.
  destruct g as [s|s|s pl H|s m e H]; cbn in F; try discriminate; [cbn in N; lra|].
  split; [destruct s, sd; reflexivity|].
  destruct s.
  - pose proof (F2R_lt_0 radix2 (Float radix2 (Zneg m) e) eq_refl) as X.
    destruct (Rlt_dec 0 (val (B754_finite 24 128 true m e H))) as [Y|Y].
    + change (val (B754_finite 24 128 true m e H)) with (F2R (Float radix2 (Zneg m) e)) in Y. lra.
    + destruct sd.
      * change (ext ((B754_finite 24 128 true m e H : f32) * (f1 / (B754_zero 24 128 true : f32)))%sc) with maxF. lra.
      * change (ext ((B754_finite 24 128 true m e H : f32) * (f1 / (B754_zero 24 128 false : f32)))%sc) with (- maxF). lra.
  - pose proof (F2R_gt_0 radix2 (Float radix2 (Zpos m) e) eq_refl) as X.
    destruct (Rlt_dec 0 (val (B754_finite 24 128 false m e H))) as [Y|Y].
    + destruct sd.
      * change (ext ((B754_finite 24 128 false m e H : f32) * (f1 / (B754_zero 24 128 true : f32)))%sc) with (- maxF). lra.
      * change (ext ((B754_finite 24 128 false m e H : f32) * (f1 / (B754_zero 24 128 false : f32)))%sc) with maxF. lra.
    + change (val (B754_finite 24 128 false m e H)) with (F2R (Float radix2 (Zpos m) e)) in Y. lra.
Qed.
Lemma gap_sign : forall m o : f32, coordIn o -> coordIn m -> val o <> val m ->
  fin (m - o)%sc /\ val (m - o)%sc <> 0 /\ (0 < val (m - o)%sc <-> val o < val m).
Proof.
  intros m o Co Cm N. destruct (gap_val o Co m Cm) as (e & He & F & _ & V & _).
  split; [exact F|]. apply Rabs_le_inv in He. rewrite u24_val in He. rewrite V. split; [nra|]. split; intros; nra.
Qed.

Definition axisFits (L H : f32) (out : bool) (o d lo hi : R) : Prop :=
  num L /\ num H /\ (d <> 0 -> - maxFinite <= ext L /\ ext H <= maxFinite) /\
  forall t, Rabs t <= maxFinite -> (out = false /\ ext L <= t <= ext H <-> lo <= o + t * d <= hi).

Lemma axis_fits : forall p par (mn mx o s d : f32), coordIn mn -> coordIn mx -> coordIn o -> val mn <= val mx ->
  invertedAxis32 (maskOf par) s d -> offFace (maskOf par) o mn mx d ->
  exists lo hi, movedFace (val o) (val d) (val mn) lo /\ movedFace (val o) (val d) (val mx) hi /\ lo <= hi /\
    axisFits (axisLo p par mn mx o s) (axisHi p par mn mx o s) (axisOut par mn mx o) (val o) (val d) lo hi.
Proof.
  intros p par mn mx o s d Cm Cx Co Hle (Fd & Cases) Off.
  destruct par; [destruct Cases as [(_ & Z)|(E & _)]; [|discriminate]|destruct Cases as [(E & _)|(_ & -> & Cases)]; [discriminate|]].
  - (* flagged *)
    exists (val mn), (val mx).
    assert (M : forall m : f32, movedFace (val o) (val d) (val m) (val m)).
    { intros m. split; [|auto]. rewrite Rminus_diag_eq, Rabs_R0 by reflexivity. unfold faceSlack. rewrite Z, Rabs_R0.
      pose proof (Rabs_pos (val m - val o)). lra. }
    split; [apply M|]. split; [apply M|]. split; [exact Hle|].
    unfold axisFits, axisLo, axisHi, axisOut. split; [reflexivity|]. split; [reflexivity|]. split; [intros N; contradiction|].
    intros t Ht. rewrite (proj1 fltMax_val), (proj1 mfltMax_val), Z. apply Rabs_le_inv in Ht. cbn [andb]. unfold sgt.
    rewrite orb_false_iff. rewrite !slt_false by (apply fin_num; first [apply Co|apply Cm|apply Cx]).
    rewrite !fin_ext by first [apply Co|apply Cm|apply Cx]. split; intros; lra.
  - destruct Cases as [Z|Bd].
    + (* 1 / 0 *)
      destruct (Off eq_refl Z) as [N1 N2]. exists (val mn), (val mx).
      assert (M : forall m : f32, movedFace (val o) (val d) (val m) (val m)).
      { intros m. split; [|auto]. rewrite Rminus_diag_eq, Rabs_R0 by reflexivity. unfold faceSlack. rewrite Z, Rabs_R0.
        pose proof (Rabs_pos (val m - val o)). lra. }
      split; [apply M|]. split; [apply M|]. split; [exact Hle|].
      destruct (zero_cases d Fd Z) as (sd & Ed).
      destruct (gap_sign mn o Co Cm N1) as (G1 & G2 & G3). destruct (gap_sign mx o Co Cx N2) as (G4 & G5 & G6).
      destruct (over_zero (mn - o)%sc d sd G1 G2 Ed) as [A1 A2]. destruct (over_zero (mx - o)%sc d sd G4 G5 Ed) as [B1 B2].
      unfold axisFits, axisLo, axisHi, axisOut.
      split; [apply simdmin_num; assumption|]. split; [apply simdmax_num; assumption|]. split; [intros N; contradiction|].
      intros t Ht. rewrite simdmin_ext, simdmax_ext by assumption. rewrite A2, B2, Z. apply Rabs_le_inv in Ht.
      pose proof maxFinite_lt as [MP ML]. cbn [andb].
      destruct (Rlt_dec 0 (val (mn - o)%sc)) as [X|X]; destruct (Rlt_dec 0 (val (mx - o)%sc)) as [Y|Y];
        rewrite G3 in X; rewrite G6 in Y; destruct sd;
        unfold Rmin, Rmax; repeat (destruct Rle_dec; try lra); split; intros; try lra; split; try reflexivity; lra.
    + pose proof (cross_val o d Co Fd Bd mn Cm) as (F1 & _ & B1 & M1).
      pose proof (cross_val o d Co Fd Bd mx Cx) as (F2 & _ & B2 & M2).
      pose proof (cross_mono o d Co Fd Bd mn mx Cm Cx Hle) as Mono. pose proof (d_nz d Bd) as Nz.
      exists (val o + val (cross mn o d) * val d), (val o + val (cross mx o d) * val d).
      split; [exact M1|]. split; [exact M2|]. split; [lra|].
      fold (cross mn o d) (cross mx o d) in *.
      unfold axisFits, axisLo, axisHi, axisOut. fold (cross mn o d) (cross mx o d).
      pose proof (fin_num _ F1) as N1. pose proof (fin_num _ F2) as N2.
      split; [apply simdmin_num; assumption|]. split; [apply simdmax_num; assumption|].
      rewrite simdmin_ext, simdmax_ext, !fin_ext by assumption.
      pose proof maxFinite_124. apply Rabs_le_inv in B1. apply Rabs_le_inv in B2.
      split.
      { intros _. split; [apply Rmin_glb; lra|apply Rmax_lub; lra]. }
      intros t Ht. cbn [andb].
      set (a := val (cross mn o d)) in *. set (c := val (cross mx o d)) in *.
      destruct (Rtotal_order (val d) 0) as [N|[Z|P]]; [|contradiction|].
      * assert (c <= a) by nra. rewrite Rmin_right, Rmax_left by lra.
        split; [intros (_ & T); split; nra|]. intros T. split; [reflexivity|split; nra].
      * assert (a <= c) by nra. rewrite Rmin_left, Rmax_right by lra.
        split; [intros (_ & T); split; nra|]. intros T. split; [reflexivity|split; nra].
Qed.

(** *** three axes *)
Lemma hmax32 : forall p (a b c w : f32), num a -> num b -> num c ->
  let h := hmax p (V4 a b c w) in let M := Rmax (Rmax (ext a) (ext b)) (ext c) in
  (num (vx h) /\ ext (vx h) = M) /\ (num (vy h) /\ ext (vy h) = M) /\ (num (vz h) /\ ext (vz h) = M).
Proof.
  intros p a b c w Na Nb Nc. unfold hmax, vmax, swYZX, swZXY, map2_4. cbn [vx vy vz vw].
  assert (N : forall x y : f32, num x -> num y -> num (simdmax p x y)) by (intros; apply simdmax_num; assumption).
  rewrite !simdmax_ext by auto. destruct (Rmax3 (ext a) (ext b) (ext c)) as (-> & -> & ->).
  split; [|split]; (split; [auto|reflexivity]).
Qed.
Lemma hmin32 : forall p (a b c w : f32), num a -> num b -> num c ->
  let h := hmin p (V4 a b c w) in let M := Rmin (Rmin (ext a) (ext b)) (ext c) in
  (num (vx h) /\ ext (vx h) = M) /\ (num (vy h) /\ ext (vy h) = M) /\ (num (vz h) /\ ext (vz h) = M).
Proof.
  intros p a b c w Na Nb Nc. unfold hmin, vmin, swYZX, swZXY, map2_4. cbn [vx vy vz vw].
  assert (N : forall x y : f32, num x -> num y -> num (simdmin p x y)) by (intros; apply simdmin_num; assumption).
  rewrite !simdmin_ext by auto. destruct (Rmin3 (ext a) (ext b) (ext c)) as (-> & -> & ->).
  split; [|split]; (split; [auto|reflexivity]).
Qed.

Lemma slabs32 : forall p (b : aabb f32) r px py pz,
  vx (rparallel r) = maskOf px -> vy (rparallel r) = maskOf py -> vz (rparallel r) = maskOf pz ->
  let lo f c := axisLo p c (f (bmin b)) (f (bmax b)) (f (rorigin r)) (f (rdir r)) in
  let hi f c := axisHi p c (f (bmin b)) (f (bmax b)) (f (rorigin r)) (f (rdir r)) in
  let out f c := axisOut c (f (bmin b)) (f (bmax b)) (f (rorigin r)) in
  num (lo vx px) -> num (lo vy py) -> num (lo vz pz) -> num (hi vx px) -> num (hi vy py) -> num (hi vz pz) ->
  let M := Rmax (Rmax (ext (lo vx px)) (ext (lo vy py))) (ext (lo vz pz)) in
  let m := Rmin (Rmin (ext (hi vx px)) (ext (hi vy py))) (ext (hi vz pz)) in
  let miss := Rlt_bool m M || Rlt_bool m 0 || (out vx px || out vy py || out vz pz) in
  exists a z : f32, num a /\ num z /\ ext a = M /\ ext z = m /\
  raycast2I p b r = (if miss then V2 fltMax (- fltMax)%sc else V2 a z) /\ raycast1I p b r = x2 (raycast2I p b r).
Proof.
  intros p b r px py pz E1 E2 E3 lo hi out L1 L2 L3 H1 H2 H3 M m miss.
  set (SL := select4 (rparallel r) (dup4 (- fltMax)%sc)
    (vmin p (vmul (vsub (bmin b) (rorigin r)) (rdir r)) (vmul (vsub (bmax b) (rorigin r)) (rdir r)))).
  set (SH := select4 (rparallel r) (dup4 fltMax)
    (vmax p (vmul (vsub (bmin b) (rorigin r)) (rdir r)) (vmul (vsub (bmax b) (rorigin r)) (rdir r)))).
  assert (EL : exists w, SL = V4 (lo vx px) (lo vy py) (lo vz pz) w).
  { eexists. unfold SL, select4, vmin, vmul, vsub, map2_4. cbn [vx vy vz vw dup4].
    rewrite E1, E2, E3, !sel_mask. reflexivity. }
  assert (EH : exists w, SH = V4 (hi vx px) (hi vy py) (hi vz pz) w).
  { eexists. unfold SH, select4, vmax, vmul, vsub, map2_4. cbn [vx vy vz vw dup4].
    rewrite E1, E2, E3, !sel_mask. reflexivity. }
  set (N := hor (uor (uor (vgt (hmax p SL) (hmin p SH)) (vlt (hmin p SH) (dup4 f0)))
           (uand (rparallel r) (uor (vlt (rorigin r) (bmin b)) (vgt (rorigin r) (bmax b)))))).
  assert (R2 : raycast2I p b r = V2 (vx (select4 N (dup4 fltMax) (hmax p SL))) (vx (select4 N (dup4 (- fltMax)%sc) (hmin p SH)))) by reflexivity.
  assert (R1 : raycast1I p b r = x2 (raycast2I p b r)) by reflexivity.
  destruct EL as (wl & EL). destruct EH as (wh & EH).
  assert (XL := hmax32 p (lo vx px) (lo vy py) (lo vz pz) wl L1 L2 L3). rewrite <- EL in XL. cbv zeta in XL. fold M in XL.
  assert (XH := hmin32 p (hi vx px) (hi vy py) (hi vz pz) wh H1 H2 H3). rewrite <- EH in XH. cbv zeta in XH. fold m in XH.
  destruct XL as ((A1 & A2) & (A3 & A4) & (A5 & A6)). destruct XH as ((B1 & B2) & (B3 & B4) & (B5 & B6)).
  exists (vx (hmax p SL)), (vx (hmin p SH)). split; [exact A1|]. split; [exact B1|]. split; [exact A2|]. split; [exact B2|].
  split; [|exact R1].
  assert (NN : vx N = maskOf miss).
  { unfold N, hor, uor, uand, vlt, vgt, sgt, splatY, splatZ, map2_4. cbn [vx vy vz vw dup4].
    rewrite E1, E2, E3, !lor_masks, !land_masks, !lor_masks. f_equal.
    rewrite (slt_ext (vx (hmin p SH)) (vx (hmax p SL))), (slt_ext (vy (hmin p SH)) (vy (hmax p SL))), (slt_ext (vz (hmin p SH)) (vz (hmax p SL))) by assumption.
    rewrite (slt_ext (vx (hmin p SH)) f0), (slt_ext (vy (hmin p SH)) f0), (slt_ext (vz (hmin p SH)) f0) by first [assumption|reflexivity].
    rewrite A2, A4, A6, B2, B4, B6. change (ext (f0 : f32)) with 0. unfold miss, out, axisOut, sgt.
    repeat match goal with |- context [Rlt_bool ?a ?b] => let x := fresh "q" in set (x := Rlt_bool a b); clearbody x end.
    repeat match goal with |- context [@slt ?F ?S ?a ?b] => let x := fresh "q" in set (x := @slt F S a b); clearbody x end.
    clear. btauto. }
  rewrite R2. unfold select4. cbn [vx]. rewrite NN, !sel_mask. cbn [dup4 vx]. destruct miss; reflexivity.
Qed.

Lemma mask_of_flag : forall f s d, invertedAxis32 f s d -> exists c, f = maskOf c.
Proof. intros f s d (_ & [(-> & _)|(-> & _)]); [exists true|exists false]; reflexivity. Qed.

Theorem ray_moved_box : forall p (b : aabb f32) r d, pointIn60 (bmin b) -> pointIn60 (bmax b) -> pointIn60 (rorigin r) ->
  validBox b -> invertedRay32 r d -> moves d -> offFaces r d b ->
  let tt := raycast2I p b r in
  exists b' : aabb R, nonEmpty b' /\ movedCorner (rorigin r) d (bmin b) (bmin b') /\ movedCorner (rorigin r) d (bmax b) (bmax b') /\
  fin (x2 tt) /\ fin (y2 tt) /\
  (forall t, 0 <= t <= maxFinite -> (inBox b' (pointAt (realV (rorigin r)) (realV d) t) <-> val (x2 tt) <= t <= val (y2 tt))) /\
  (isHit tt = true <-> exists t, 0 <= t <= maxFinite /\ inBox b' (pointAt (realV (rorigin r)) (realV d) t)) /\
  (isHit tt = false -> tt = V2 fltMax (- fltMax)%sc) /\ raycast1I p b r = x2 tt.
Proof.
  intros p b r d (M1 & M2 & M3) (X1 & X2 & X3) (O1 & O2 & O3) ((_ & Vx1) & (_ & Vx2) & (_ & Vx3)) (I1 & I2 & I3) Mv (Of1 & Of2 & Of3) tt.
  rewrite (fin_ext (vx (bmin b))), (fin_ext (vx (bmax b))) in Vx1 by first [apply M1|apply X1].
  rewrite (fin_ext (vy (bmin b))), (fin_ext (vy (bmax b))) in Vx2 by first [apply M2|apply X2].
  rewrite (fin_ext (vz (bmin b))), (fin_ext (vz (bmax b))) in Vx3 by first [apply M3|apply X3].
  destruct (mask_of_flag _ _ _ I1) as (px & E1), (mask_of_flag _ _ _ I2) as (py & E2), (mask_of_flag _ _ _ I3) as (pz & E3).
  rewrite E1 in I1, Of1. rewrite E2 in I2, Of2. rewrite E3 in I3, Of3.
  destruct (axis_fits p px _ _ _ _ _ M1 X1 O1 Vx1 I1 Of1) as (l1 & h1 & L1 & H1 & W1 & (NL1 & NH1 & Fi1 & Eq1)).
  destruct (axis_fits p py _ _ _ _ _ M2 X2 O2 Vx2 I2 Of2) as (l2 & h2 & L2 & H2 & W2 & (NL2 & NH2 & Fi2 & Eq2)).
  destruct (axis_fits p pz _ _ _ _ _ M3 X3 O3 Vx3 I3 Of3) as (l3 & h3 & L3 & H3 & W3 & (NL3 & NH3 & Fi3 & Eq3)).
  exists (mkAabb (V4 l1 l2 l3 0) (V4 h1 h2 h3 0)).
  split; [exact (conj W1 (conj W2 W3))|]. split; [exact (conj L1 (conj L2 L3))|]. split; [exact (conj H1 (conj H2 H3))|].
  destruct (slabs32 p b r px py pz E1 E2 E3 NL1 NL2 NL3 NH1 NH2 NH3) as (a & z & Na & Nz & Ea & Ez & R2 & R1).
  set (lx := ext (axisLo p px _ _ _ _)) in *. set (ly := ext (axisLo p py _ _ _ _)) in *. set (lz := ext (axisLo p pz _ _ _ _)) in *.
  set (hx := ext (axisHi p px _ _ _ _)) in *. set (hy := ext (axisHi p py _ _ _ _)) in *. set (hz := ext (axisHi p pz _ _ _ _)) in *.
  set (ox := axisOut px _ _ _) in *. set (oy := axisOut py _ _ _) in *. set (oz := axisOut pz _ _ _) in *.
  set (miss := Rlt_bool _ _ || _ || _) in *.
  set (M := Rmax (Rmax lx ly) lz) in *. set (m := Rmin (Rmin hx hy) hz) in *.
  assert (Lx : lx <= M) by (eapply Rle_trans; [apply Rmax_l|apply Rmax_l]).
  assert (Ly : ly <= M) by (eapply Rle_trans; [apply Rmax_r|apply Rmax_l]).
  assert (Lz : lz <= M) by apply Rmax_r.
  assert (Hx : m <= hx) by (eapply Rle_trans; [apply Rmin_l|apply Rmin_l]).
  assert (Hy : m <= hy) by (eapply Rle_trans; [apply Rmin_l|apply Rmin_r]).
  assert (Hz : m <= hz) by apply Rmin_r.
  assert (Lub : forall t, lx <= t -> ly <= t -> lz <= t -> M <= t) by (intros; repeat apply Rmax_lub; assumption).
  assert (Glb : forall t, t <= hx -> t <= hy -> t <= hz -> t <= m) by (intros; repeat apply Rmin_glb; assumption).
  assert (Fin : - maxFinite <= M /\ m <= maxFinite).
  { destruct Mv as [N|[N|N]]; [destruct (Fi1 N)|destruct (Fi2 N)|destruct (Fi3 N)]; lra. }
  pose proof maxFinite_lt as [MP ML].
  assert (In : forall t, 0 <= t <= maxFinite ->
    (inBox (mkAabb (V4 l1 l2 l3 0) (V4 h1 h2 h3 0)) (pointAt (realV (rorigin r)) (realV d) t) <->
     (ox = false /\ oy = false /\ oz = false) /\ M <= t <= m)).
  { intros t Ht. assert (At : Rabs t <= maxFinite) by (rewrite Rabs_pos_eq; lra).
    specialize (Eq1 t At). specialize (Eq2 t At). specialize (Eq3 t At).
    unfold inBox, in3, pointAt, realV. cbn [bmin bmax vx vy vz ext OrdR]. rewrite <- Eq1, <- Eq2, <- Eq3.
    split.
    - intros ((A1 & A2) & (B1 & B2) & (C1 & C2)). split; [tauto|]. split; [apply Lub; lra|apply Glb; lra].
    - intros ((A & B & C) & T). split; [|split]; (split; [assumption|lra]). }
  assert (Em : miss = Rlt_bool m M || Rlt_bool m 0 || (ox || oy || oz)) by reflexivity.
  clearbody miss M m lx ly lz hx hy hz ox oy oz.
  unfold tt. rewrite R1. rewrite R2. destruct miss.
  - assert (No : forall t, 0 <= t <= maxFinite -> ~ ((ox = false /\ oy = false /\ oz = false) /\ M <= t <= m)).
    { intros t Ht ((-> & -> & ->) & T). rewrite !Rlt_bool_false in Em by lra. discriminate. }
    cbn [x2 y2]. split; [reflexivity|]. split; [reflexivity|].
    assert (Hh : isHit (V2 (fltMax : f32) (- fltMax)%sc) = false) by reflexivity.
    split; [|split; [|split]].
    + intros t Ht. rewrite (In t Ht). split; [intros K; elim (No t Ht K)|].
      rewrite <- (fin_ext (fltMax : f32)), <- (fin_ext (- fltMax : f32)%sc) by reflexivity.
      rewrite (proj1 fltMax_val), (proj1 mfltMax_val). lra.
    + rewrite Hh. split; [discriminate|]. intros (t & Ht & K). apply (In t Ht) in K. elim (No t Ht K).
    + reflexivity.
    + reflexivity.
  - symmetry in Em. apply orb_false_iff in Em. destruct Em as (Em & Eo). apply orb_false_iff in Em. destruct Em as (Em1 & Em2).
    apply orb_false_iff in Eo. destruct Eo as (Eo & O33). apply orb_false_iff in Eo. destruct Eo as (O11 & O22).
    destruct (Rlt_bool_spec m M) as [|C1]; [discriminate|]. destruct (Rlt_bool_spec m 0) as [|C2]; [discriminate|].
    cbn [x2 y2].
    assert (Fa : fin a) by (apply ext_fin; [exact Na|lra]). assert (Fz : fin z) by (apply ext_fin; [exact Nz|lra]).
    rewrite (fin_ext a Fa) in Ea. rewrite (fin_ext z Fz) in Ez.
    assert (Hh : isHit (V2 a z) = true).
    { unfold isHit, sge. cbn [x2 y2]. apply andb_true_iff. rewrite !sle_iff by first [assumption|reflexivity].
      rewrite !fin_ext by first [assumption|reflexivity]. change (val (f0 : f32)) with 0. lra. }
    split; [exact Fa|]. split; [exact Fz|].
    split; [|split; [|split]].
    + intros t Ht. rewrite (In t Ht), Ea, Ez. tauto.
    + split; [intros _|intros _; exact Hh]. exists (Rmax 0 M).
      assert (T : 0 <= Rmax 0 M <= maxFinite) by (split; [apply Rmax_l|apply Rmax_lub; lra]).
      split; [exact T|]. apply (In _ T). split; [tauto|]. split; [apply Rmax_r|apply Rmax_lub; lra].
    + rewrite Hh. discriminate.
    + reflexivity.
Qed.

(** the same with boxes grown or shrunk by the slack *)
Theorem ray_grown : forall p (b : aabb f32) r d, pointIn60 (bmin b) -> pointIn60 (bmax b) -> pointIn60 (rorigin r) ->
  validBox b -> invertedRay32 r d -> moves d -> offFaces r d b ->
  let x := pointAt (realV (rorigin r)) (realV d) in let tt := raycast2I p b r in
  (raycastI p b r = true -> exists t, 0 <= t /\ inBoxBy inGrown b (rorigin r) d (x t)) /\
  (forall t, 0 <= t <= maxFinite -> inBoxBy inShrunk b (rorigin r) d (x t) -> raycastI p b r = true) /\
  (forall t, 0 <= t -> val (x2 tt) <= t <= val (y2 tt) -> inBoxBy inGrown b (rorigin r) d (x t)) /\
  (forall t, 0 <= t <= maxFinite -> inBoxBy inShrunk b (rorigin r) d (x t) -> val (x2 tt) <= t <= val (y2 tt)).
Proof.
  intros p b r d M X O V I Mv Of x tt.
  destruct (ray_moved_box p b r d M X O V I Mv Of) as (b' & _ & (L1 & L2 & L3) & (H1 & H2 & H3) & Fx & Fy & In & Hit & _).
  fold tt in In, Hit, Fx, Fy. fold x in In, Hit. change (raycastI p b r) with (isHit tt).
  destruct L1 as [L1 _], L2 as [L2 _], L3 as [L3 _], H1 as [H1 _], H2 as [H2 _], H3 as [H3 _].
  apply Rabs_le_inv in L1. apply Rabs_le_inv in L2. apply Rabs_le_inv in L3.
  apply Rabs_le_inv in H1. apply Rabs_le_inv in H2. apply Rabs_le_inv in H3.
  assert (G : forall q, inBox b' q -> inBoxBy inGrown b (rorigin r) d q).
  { intros q (Q1 & Q2 & Q3). cbn [ext OrdR] in Q1, Q2, Q3. unfold inBoxBy, inGrown. lra. }
  assert (S : forall q, inBoxBy inShrunk b (rorigin r) d q -> inBox b' q).
  { intros q (Q1 & Q2 & Q3). unfold inShrunk in Q1, Q2, Q3. unfold inBox, in3. cbn [ext OrdR]. lra. }
  split; [|split; [|split]].
  - intros K. apply Hit in K. destruct K as (t & Ht & K). exists t. split; [apply Ht|apply G, K].
  - intros t Ht K. apply Hit. exists t. split; [exact Ht|apply S, K].
  - intros t Ht K. apply G. apply In; [|exact K]. split; [exact Ht|].
    assert (YM : val (y2 tt) <= maxFinite).
    { pose proof (abs_B2R_le_emax_minus_prec 24 128 eq_refl (y2 tt)) as K'. apply Rabs_le_inv in K'.
      set (v := val (y2 tt)) in *. clearbody v.
      replace maxFinite with (bpow radix2 128 - bpow radix2 (128 - 24)) by (unfold maxFinite; cbn; lra). apply K'. }
    lra.
  - intros t Ht K. apply In; [exact Ht|apply S, K].
Qed.

(** *** the ray a user inverts: setDirection(f32x4::one / d, false) *)
Lemma abs_fin : forall x : f32, fin x -> fin (sabs x) /\ val (sabs x) = Rabs (val x).
Proof.
  intros x F. cbn [sabs ScalarF32]. unfold b32_abs. rewrite is_finite_Babs, B2R_Babs. split; [exact F|reflexivity].
Qed.
Lemma recip_not_flagged : forall d : f32, fin d -> (val d = 0 \/ / 2 ^ 60 <= Rabs (val d) <= 2 ^ 60) ->
  sle (sabs (f1 / d)%sc) (slit 1547425 (-87)) = false.
Proof.
  intros d F [Z|B].
  - destruct (zero_cases d F Z) as ([] & ->); vm_compute; reflexivity.
  - destruct (recip_val d F B) as (e & He & Fr & _ & V). destruct (recip_bounds d B) as [L _].
    destruct (abs_fin _ Fr) as [Fa Va]. destruct (lit_exact 1547425 (-87) ltac:(lia) ltac:(lia)) as [Fl Vl].
    apply sle_false; [apply fin_num, Fa|apply fin_num, Fl|]. rewrite !fin_ext by assumption. rewrite Va, Vl, V, Rabs_mult.
    assert (Rabs (1 + e) >= / 2).
    { apply Rabs_le_inv in He. rewrite u24_val in He. rewrite Rabs_pos_eq by lra. lra. }
    apply Rlt_le_trans with (bpow radix2 (-60) * / 2); [cbn; lra|].
    apply Rmult_le_compat; try lra. apply bpow_ge_0.
Qed.
Theorem inverted_by_hand : forall p (r : ray f32) (d : vec4 f32),
  (forall f, f = vx \/ f = vy \/ f = vz -> fin (f d) /\ (val (f d) = 0 \/ / 2 ^ 60 <= Rabs (val (f d)) <= 2 ^ 60)) ->
  let r' := setDirection p r (vdiv (dup4 f1) d) false in
  invertedRay32 r' d /\ rorigin r' = rorigin r /\ rparallel r' = V4 0%Z 0%Z 0%Z (vw (rparallel r')).
Proof.
  intros p r d H r'.
  destruct (H (@vx f32)) as [F1 C1]; [auto|]. destruct (H (@vy f32)) as [F2 C2]; [auto|]. destruct (H (@vz f32)) as [F3 C3]; [auto|].
  assert (E1 := recip_not_flagged _ F1 C1). assert (E2 := recip_not_flagged _ F2 C2). assert (E3 := recip_not_flagged _ F3 C3).
  assert (P : rparallel r' = V4 0%Z 0%Z 0%Z (vw (rparallel r'))).
  { unfold r', setDirection, parallelOf, vle, vabs, map2_4, map_4, vdiv, dup4, map2_4. cbn [rparallel vx vy vz vw].
    rewrite E1, E2, E3. reflexivity. }
  split; [|split; [reflexivity|exact P]].
  unfold invertedRay32. rewrite P. cbn [vx vy vz].
  split; [|split]; (split; [assumption|right; split; [reflexivity|split; [reflexivity|assumption]]]).
Qed.

(** rays that run in a face are judged by the instruction set and the side of the face *)
Theorem face_ray : forall p, exists (b : aabb f32) (r : ray f32) d t,
  r = setDirection p (newRay p (v4 0 0 0) d false) (vdiv (dup4 f1) d) false /\
  pointIn60 (bmin b) /\ pointIn60 (bmax b) /\ pointIn60 (rorigin r) /\ validBox b /\ invertedRay32 r d /\ moves d /\
  0 <= t /\ inBox (realBox b) (pointAt (realV (rorigin r)) (realV d) t) /\ raycastI p b r = false.
Proof.
  intros p.
  assert (C0 : forall z, (Z.abs z <= 10)%Z -> coordIn (fi z)).
  { intros z Hz. unfold coordIn, fi. destruct (lit_Z z ltac:(lia)) as [A B]. split; [exact A|]. rewrite B, <- abs_IZR.
    apply IZR_le in Hz. eapply Rle_trans; [exact Hz|]. cbn. lra. }
  assert (V : forall z, (Z.abs z <= 10)%Z -> val (fi z) = IZR z) by (intros z Hz; apply (lit_Z z ltac:(lia))).
  set (d := v4 1 0 0).
  assert (I : invertedRay32 (setDirection p (newRay p (v4 0 0 0) d false) (vdiv (dup4 f1) d) false) d).
  { apply inverted_by_hand. intros f [->|[->| ->]]; unfold d, v4; cbn [vx vy vz].
    - split; [reflexivity|right]. rewrite (V 1%Z) by lia. rewrite Rabs_R1. cbn. lra.
    - split; [reflexivity|left]. apply (V 0%Z). lia.
    - split; [reflexivity|left]. apply (V 0%Z). lia. }
  assert (M : moves d) by (left; unfold d, v4; cbn [vx]; rewrite (V 1%Z) by lia; lra).
  assert (G : forall a b c a' b' c', (Z.abs a <= 10)%Z -> (Z.abs b <= 10)%Z -> (Z.abs c <= 10)%Z -> (Z.abs a' <= 10)%Z -> (Z.abs b' <= 10)%Z -> (Z.abs c' <= 10)%Z ->
    (a <= 2 <= a')%Z -> (b <= 0 <= b')%Z -> (c <= 0 <= c')%Z -> raycastI p (bx a b c a' b' c') (setDirection p (newRay p (v4 0 0 0) d false) (vdiv (dup4 f1) d) false) = false ->
    exists (b : aabb f32) (r : ray f32) d t,
    r = setDirection p (newRay p (v4 0 0 0) d false) (vdiv (dup4 f1) d) false /\
    pointIn60 (bmin b) /\ pointIn60 (bmax b) /\ pointIn60 (rorigin r) /\ validBox b /\ invertedRay32 r d /\ moves d /\
    0 <= t /\ inBox (realBox b) (pointAt (realV (rorigin r)) (realV d) t) /\ raycastI p b r = false).
  { intros a b c a' b' c' A1 A2 A3 A4 A5 A6 (L1 & U1) (L2 & U2) (L3 & U3) E.
    exists (bx a b c a' b' c'), (setDirection p (newRay p (v4 0 0 0) d false) (vdiv (dup4 f1) d) false), d, 2.
    split; [reflexivity|]. split; [split; [|split]; apply C0; assumption|]. split; [split; [|split]; apply C0; assumption|].
    split; [split; [|split]; apply C0; lia|].
    apply IZR_le in L1, L2, L3, U1, U2, U3.
    split.
    { unfold validBox, in3, bx, v4. cbn [bmin bmax vx vy vz]. rewrite !fin_ext by (apply C0; assumption). rewrite !V by assumption. lra. }
    split; [exact I|]. split; [exact M|]. split; [lra|]. split; [|exact E].
    unfold inBox, in3, realBox, realV, pointAt, bx, v4, d, setDirection, newRay, v4. cbn [bmin bmax vx vy vz rorigin ext OrdR].
    rewrite !V by (assumption || lia). lra. }
  destruct p; try (apply (G 1 0 (-1) 2 1 1)%Z; try lia; vm_compute; reflexivity);
    apply (G 1 (-1) (-1) 2 0 1)%Z; try lia; vm_compute; reflexivity.
Qed.

Theorem ray_example : forall p, exists (b : aabb f32) (r : ray f32) d,
  r = setDirection p (newRay p (v4 (-5) 0 0) d false) (vdiv (dup4 f1) d) false /\ d = v4 3 1 0 /\ b = bx 1 1 (-1) 4 4 1 /\
  pointIn60 (bmin b) /\ pointIn60 (bmax b) /\ pointIn60 (rorigin r) /\ validBox b /\ invertedRay32 r d /\ moves d /\
  offFaces r d b /\ raycastI p b r = true /\ seq (x2 (raycast2I p b r)) (fi 2) = true /\ seq (y2 (raycast2I p b r)) (fi 3) = true.
Proof.
  intros p. exists (bx 1 1 (-1) 4 4 1). eexists. exists (v4 3 1 0). split; [reflexivity|].
  assert (C0 : forall z, (Z.abs z <= 10)%Z -> coordIn (fi z)).
  { intros z Hz. unfold coordIn, fi. destruct (lit_Z z ltac:(lia)) as [A B]. split; [exact A|]. rewrite B, <- abs_IZR.
    apply IZR_le in Hz. eapply Rle_trans; [exact Hz|]. cbn. lra. }
  assert (V : forall z, (Z.abs z <= 10)%Z -> val (fi z) = IZR z) by (intros z Hz; apply (lit_Z z ltac:(lia))).
  split; [reflexivity|]. split; [reflexivity|].
  split; [split; [|split]; apply C0; lia|]. split; [split; [|split]; apply C0; lia|]. split; [split; [|split]; apply C0; lia|].
  split.
  { unfold validBox, in3, bx, v4. cbn [bmin bmax vx vy vz]. rewrite !fin_ext by (apply C0; lia). rewrite !V by lia. lra. }
  split.
  { apply inverted_by_hand. intros f [->|[->| ->]]; unfold v4; cbn [vx vy vz].
    - split; [reflexivity|right]. rewrite (V 3%Z) by lia. rewrite Rabs_pos_eq by lra. cbn. lra.
    - split; [reflexivity|right]. rewrite (V 1%Z) by lia. rewrite Rabs_R1. cbn. lra.
    - split; [reflexivity|left]. apply (V 0%Z). lia. }
  split; [left; unfold v4; cbn [vx]; rewrite (V 3%Z) by lia; lra|].
  split.
  { unfold offFaces, offFace, setDirection, newRay, bx, v4. cbn [rorigin bmin bmax vx vy vz].
    split; [|split]; intros _ _; rewrite !V by lia; lra. }
  destruct p; (split; [|split]); vm_compute; reflexivity.
Qed.
