(** Closest points on segments and rays in binary32. *)
From Coq Require Import ZArith Bool List Reals Lra Lia Psatz.
From Flocq Require Import Core.Core IEEE754.BinarySingleNaN IEEE754.Binary IEEE754.Bits.
From Verif.Model Require Import Outcome Scalar Vec Simd Aabb Geometry.
From Verif.Spec Require Import ClosestErrSpec.
From Verif.Proofs Require Import OrdScalar F32Round F32Err Approx NormProofs MatErrProofs GeometryProofs CullProofs RayErr Euclid RealLits Frustum RayProofs SphereProofs.
Import ListNotations.
Local Open Scope R_scope.
Notation U := (/ 16777216) (only parsing).

Lemma lenS_pos : forall v, 0 <= lenS v. Proof. intros. apply sqrt_pos. Qed.
Lemma lenS_sq : forall v, lenS v * lenS v = vx v * vx v + vy v * vy v + vz v * vz v.
Proof. intros. apply sqrt_sqrt. nra. Qed.
Lemma lane_lenS : forall v, Rabs (vx v) <= lenS v /\ Rabs (vy v) <= lenS v /\ Rabs (vz v) <= lenS v.
Proof. exact lane_le_len. Qed.
(** |w1 d1| + |w2 d2| + |w3 d3| <= |w| |d| *)
Lemma cauchy_abs : forall w d, Rabs (vx w * vx d) + Rabs (vy w * vy d) + Rabs (vz w * vz d) <= lenS w * lenS d.
Proof.
  intros w d. pose proof (lenS_pos w). pose proof (lenS_pos d).
  pose proof (cauchy3 (Rabs (vx w)) (Rabs (vy w)) (Rabs (vz w)) (Rabs (vx d)) (Rabs (vy d)) (Rabs (vz d))) as C.
  rewrite !Rabs_mult. apply Rsqr_incr_0_var; [|apply Rmult_le_pos; assumption].
  eapply Rle_trans; [exact C|]. unfold Rsqr.
  assert (E : forall x, Rabs x * Rabs x = x * x) by (intros; rewrite <- Rabs_mult; apply Rabs_pos_eq; nra).
  rewrite !E, <- !lenS_sq. right. ring.
Qed.
Lemma sum_lanes : forall w, Rabs (vx w) + Rabs (vy w) + Rabs (vz w) <= 2 * lenS w.
Proof.
  intros w. pose proof (cauchy_abs w (V4 1 1 1 0)) as C. cbn [vx vy vz] in C. rewrite !Rmult_1_r in C.
  eapply Rle_trans; [exact C|]. rewrite (Rmult_comm 2). apply Rmult_le_compat_l; [apply lenS_pos|].
  unfold lenS. cbn [vx vy vz]. replace 2 with (sqrt (2 * 2)) by (apply sqrt_square; lra). apply sqrt_le_1; lra.
Qed.

(** perturbed inner products *)
Lemma dot_real : forall w d W D S L e u, 0 <= u <= / 64 -> 0 <= e <= / 64 -> lenS W = S -> lenS D = L ->
  Rabs (vx w - vx W) <= u * Rabs (vx W) -> Rabs (vy w - vy W) <= u * Rabs (vy W) -> Rabs (vz w - vz W) <= u * Rabs (vz W) ->
  Rabs (vx d - vx D) <= e * L -> Rabs (vy d - vy D) <= e * L -> Rabs (vz d - vz D) <= e * L ->
  Rabs (dotS w d - dotS W D) <= (1.04 * u + 2 * e) * (S * L) /\
  Rabs (vx w * vx d) + Rabs (vy w * vy d) + Rabs (vz w * vz d) <= (1 + u) * (1 + 2 * e) * (S * L).
Proof.
  intros w d W D S L e u Hu He ES EL W1 W2 W3 D1 D2 D3.
  pose proof (cauchy_abs W D) as C. pose proof (sum_lanes W) as SW. rewrite ES, EL in *.
  pose proof (lenS_pos W) as PS. pose proof (lenS_pos D) as PL. rewrite ES, EL in *.
  assert (PSL : 0 <= S * L) by (apply Rmult_le_pos; assumption).
  (* one lane *)
  assert (G : forall a b A B, Rabs (a - A) <= u * Rabs A -> Rabs (b - B) <= e * L ->
    Rabs (a * b - A * B) <= u * Rabs (A * B) + (1 + u) * (e * L * Rabs A) /\
    Rabs (a * b) <= (1 + u) * (Rabs (A * B) + e * L * Rabs A)).
  { intros a b A B Ha Hb. rewrite !Rabs_mult.
    replace (a * b - A * B) with ((a - A) * B + (A * (b - B) + (a - A) * (b - B))) by ring.
    pose proof (Rabs_pos A). pose proof (Rabs_pos B). pose proof (Rabs_pos (a - A)). pose proof (Rabs_pos (b - B)).
    assert (Q1 : Rabs (a - A) * Rabs B <= u * Rabs A * Rabs B) by (apply Rmult_le_compat_r; assumption).
    assert (Q2 : Rabs A * Rabs (b - B) <= Rabs A * (e * L)) by (apply Rmult_le_compat_l; assumption).
    assert (Q3 : Rabs (a - A) * Rabs (b - B) <= u * Rabs A * (e * L)) by (apply Rmult_le_compat; assumption).
    assert (K : Rabs ((a - A) * B + (A * (b - B) + (a - A) * (b - B))) <= u * (Rabs A * Rabs B) + (1 + u) * (e * L * Rabs A)).
    { eapply Rle_trans; [apply Rabs_triang|]. eapply Rle_trans; [apply Rplus_le_compat_l, Rabs_triang|]. rewrite !Rabs_mult. lra. }
    split; [exact K|].
    pose proof (Rabs_triang (A * B) (a * b - A * B)) as T. replace (A * B + (a * b - A * B)) with (a * b) in T by ring.
    replace (a * b - A * B) with ((a - A) * B + (A * (b - B) + (a - A) * (b - B))) in T by ring.
    rewrite <- (Rabs_mult a b). rewrite (Rabs_mult A B) in T. lra. }
  destruct (G _ _ _ _ W1 D1) as [E1 A1]. destruct (G _ _ _ _ W2 D2) as [E2 A2]. destruct (G _ _ _ _ W3 D3) as [E3 A3].
  set (m := Rabs (vx W * vx D) + Rabs (vy W * vy D) + Rabs (vz W * vz D)) in *.
  set (s := Rabs (vx W) + Rabs (vy W) + Rabs (vz W)) in *.
  assert (PeL : 0 <= e * L) by (apply Rmult_le_pos; lra).
  assert (Hs : e * L * s <= e * L * (2 * S)) by (apply Rmult_le_compat_l; assumption).
  assert (Hs2 : (1 + u) * (e * L * s) <= (1 + u) * (2 * e * (S * L))) by (apply Rmult_le_compat_l; lra).
  assert (Hm : u * m <= u * (S * L)) by (apply Rmult_le_compat_l; lra).
  assert (Hue : u * (2 * e * (S * L)) <= u * (2 * / 64 * (S * L))).
  { apply Rmult_le_compat_l; [lra|]. apply Rmult_le_compat_r; lra. }
  split.
  - unfold dotS.
    replace (vx w * vx d + vy w * vy d + vz w * vz d - (vx W * vx D + vy W * vy D + vz W * vz D)) with
      ((vx w * vx d - vx W * vx D) + ((vy w * vy d - vy W * vy D) + (vz w * vz d - vz W * vz D))) by ring.
    eapply Rle_trans; [apply Rabs_triang|]. eapply Rle_trans; [apply Rplus_le_compat_l, Rabs_triang|].
    eapply Rle_trans; [apply Rplus_le_compat; [exact E1|apply Rplus_le_compat; [exact E2|exact E3]]|].
    apply Rle_trans with (u * m + (1 + u) * (e * L * s)); [unfold m, s; right; ring|].
    assert (0 <= u * (S * L)) by (apply Rmult_le_pos; lra).
    lra.
  - apply Rle_trans with ((1 + u) * (m + e * L * s)); [unfold m, s; lra|].
    rewrite (Rmult_assoc (1 + u) (1 + 2 * e)). apply Rmult_le_compat_l; lra.
Qed.

Lemma p40 : bpow radix2 40 = 1099511627776. Proof. cbn. lra. Qed.
Lemma m40 : bpow radix2 (-40) = / 1099511627776. Proof. cbn. lra. Qed.
Lemma eta_70 : eta0 <= / 1099511627776 * (/ 1099511627776 * (/ 1099511627776 * / 1000000000)).
Proof. unfold eta0. replace (bpow radix2 (-150)) with (bpow radix2 (-120) * bpow radix2 (-30)) by (rewrite <- bpow_plus; reflexivity). cbn. lra. Qed.

Lemma inner_lanes : forall a b : vec4 f32, inner (l43 a) (l43 b) = dotS (realV a) (realV b) /\
  innerAbs (l43 a) (l43 b) = Rabs (val (vx a) * val (vx b)) + Rabs (val (vy a) * val (vy b)) + Rabs (val (vz a) * val (vz b)).
Proof. intros. unfold inner, innerAbs, l43, dotS, realV. cbn [vx vy vz]. split; ring. Qed.

(** the line parameter in binary32 *)
Lemma param_near : forall p (w d : vec4 f32) W D S L e, 0 <= e <= / 64 -> lenS W = S -> lenS D = L ->
  / 1099511627776 <= L <= 4398046511104 -> S <= 4398046511104 ->
  allFin (l43 w) -> allFin (l43 d) ->
  Rabs (val (vx w) - vx W) <= U * Rabs (vx W) -> Rabs (val (vy w) - vy W) <= U * Rabs (vy W) -> Rabs (val (vz w) - vz W) <= U * Rabs (vz W) ->
  Rabs (val (vx d) - vx D) <= e * L -> Rabs (val (vy d) - vy D) <= e * L -> Rabs (val (vz d) - vz D) <= e * L ->
  let t := (dot3 p w d / dot3 p d d)%sc in
  fin t /\ Rabs (val t - dotS W D / dotS D D) <= (11.7 * U + 6.7 * e) * (S / L) + U / 1000 /\ Rabs (dotS W D / dotS D D) <= S / L.
Proof.
  intros p w d W D S L e He ES EL HL HS Fw Fd W1 W2 W3 D1 D2 D3 t.
  assert (PS : 0 <= S) by (rewrite <- ES; apply lenS_pos).
  destruct (dot_real (realV w) (realV d) W D S L e U ltac:(lra) He ES EL W1 W2 W3 D1 D2 D3) as [NE NA].
  assert (Z : forall x X : R, Rabs (x - X) <= e * L -> Rabs (x - X) <= e * L) by auto.
  (* the denominator: d against D on both sides *)
  assert (DD : Rabs (dotS (realV d) (realV d) - L * L) <= 4.05 * e * (L * L)).
  { pose proof (sum_lanes D) as SD. rewrite EL in SD.
    assert (Q : forall b B, Rabs (b - B) <= e * L -> Rabs (b * b - B * B) <= 2 * (e * L) * Rabs B + e * L * (e * L)).
    { intros b B H. replace (b * b - B * B) with ((b - B) * (b - B) + 2 * ((b - B) * B)) by ring.
      eapply Rle_trans; [apply Rabs_triang|]. rewrite !Rabs_mult. rewrite (Rabs_pos_eq 2) by lra.
      pose proof (Rabs_pos (b - B)). pose proof (Rabs_pos B).
      assert (Rabs (b - B) * Rabs (b - B) <= e * L * (e * L)) by (apply Rmult_le_compat; assumption).
      assert (Rabs (b - B) * Rabs B <= e * L * Rabs B) by (apply Rmult_le_compat_r; assumption). lra. }
    pose proof (Q _ _ D1) as Q1. pose proof (Q _ _ D2) as Q2. pose proof (Q _ _ D3) as Q3.
    pose proof (lenS_sq D) as LS. rewrite EL in LS. rewrite LS at 1. unfold dotS, realV. cbn [vx vy vz].
    replace (_ - _) with ((val (vx d) * val (vx d) - vx D * vx D) + ((val (vy d) * val (vy d) - vy D * vy D) + (val (vz d) * val (vz d) - vz D * vz D))) by ring.
    eapply Rle_trans; [apply Rabs_triang|]. eapply Rle_trans; [apply Rplus_le_compat_l, Rabs_triang|].
    assert (PeL : 0 <= e * L) by (apply Rmult_le_pos; lra).
    assert (2 * (e * L) * (Rabs (vx D) + Rabs (vy D) + Rabs (vz D)) <= 2 * (e * L) * (2 * L)) by (apply Rmult_le_compat_l; lra).
    assert (e * L * (e * L) <= / 64 * (e * (L * L))).
    { replace (e * L * (e * L)) with (e * (e * (L * L))) by ring. apply Rmult_le_compat_r; [|lra]. apply Rmult_le_pos; [lra|nra]. }
    assert (0 <= e * (L * L)) by (apply Rmult_le_pos; [lra|nra]). lra. }
  assert (PLL : 0 < L * L) by nra.
  assert (PSL : 0 <= S * L) by (apply Rmult_le_pos; lra).
  assert (BL : L * L <= 4398046511104 * 4398046511104) by nra.
  assert (BSL : S * L <= 4398046511104 * 4398046511104) by (apply Rmult_le_compat; lra).
  assert (Ke : 4.05 * e * (L * L) <= 4.05 * / 64 * (L * L)) by (apply Rmult_le_compat_r; lra).
  destruct (inner_lanes w d) as [I1 I2]. destruct (inner_lanes d d) as [J1 _].
  assert (KA : (1 + U) * (1 + 2 * e) * (S * L) <= 1.033 * (S * L)).
  { apply Rmult_le_compat_r; [exact PSL|]. lra. }
  unfold realV in NA. cbn [vx vy vz] in NA. rewrite <- I2 in NA. rewrite <- I1 in NE. rewrite <- J1 in DD.
  destruct (dot3_err p w d Fw Fd) as [FN EN]; [lra|].
  destruct (dot3_err p d d Fd Fd) as [FM EM]; [rewrite inner_self; apply abs2 in DD; lra|].
  rewrite eta_val in EN, EM. rewrite inner_self in EM.
  set (Nh := val (dot3 p w d)) in *. set (Mh := val (dot3 p d d)) in *.
  pose proof eta_70 as E7. pose proof eta0_pos as E0.
  assert (DDr : dotS D D = L * L) by (unfold dotS; rewrite <- EL, lenS_sq; reflexivity).
  rewrite DDr. set (N := dotS W D) in *.
  assert (BN : Rabs N <= S * L).
  { unfold N, dotS. rewrite <- ES, <- EL. eapply Rle_trans; [|apply cauchy_abs].
    eapply Rle_trans; [apply Rabs_triang|]. apply Rplus_le_compat_r. apply Rabs_triang. }
  (* L^-2 and L^-3 against eta *)
  set (i := / L). assert (Hi : i * L = 1) by (unfold i; field; lra).
  assert (Pi : 0 < i) by (apply Rinv_0_lt_compat; lra).
  assert (Bi : i <= 1099511627776) by (unfold i; rewrite <- (Rinv_inv 1099511627776); apply Rinv_le; lra).
  assert (N1 : Rabs (Nh - N) <= (5.2 * U + 2 * e) * (S * L) + 10 * eta0).
  { replace (Nh - N) with ((Nh - inner (l43 w) (l43 d)) + (inner (l43 w) (l43 d) - N)) by ring.
    eapply Rle_trans; [apply Rabs_triang|]. lra. }
  assert (M1 : Rabs (Mh - L * L) <= (4.3 * U + 4.05 * e) * (L * L) + 10 * eta0).
  { replace (Mh - L * L) with ((Mh - inner (l43 d) (l43 d)) + (inner (l43 d) (l43 d) - L * L)) by ring.
    eapply Rle_trans; [apply Rabs_triang|]. pose proof (abs2 _ _ DD). lra. }
  assert (T1 : eta0 * (i * i) <= / 1000000000 * / 1099511627776).
  { apply Rle_trans with (eta0 * (1099511627776 * 1099511627776)); [apply Rmult_le_compat_l; [lra|apply Rmult_le_compat; lra]|]. lra. }
  assert (ML : L * L * 0.93 <= Mh).
  { apply abs2 in M1. assert (eta0 <= / 100000 * (L * L)).
    { replace eta0 with (eta0 * (i * i) * (L * L)) by (replace (eta0 * (i * i) * (L * L)) with (eta0 * (i * L) * (i * L)) by ring; rewrite Hi; ring).
      apply Rmult_le_compat_r; lra. } lra. }
  assert (PM : 0 < Mh) by lra.
  (* the quotient before rounding *)
  set (q := S / L). assert (Pq : 0 <= q) by (apply Rmult_le_pos; [exact PS|left; exact Pi]).
  assert (Eq : S * L = q * (L * L)) by (unfold q; field; lra).
  assert (QE : Rabs (Nh / Mh - N / (L * L)) <= (10.3 * U + 6.55 * e) * q + U / 4000 * (1 + q)).
  { replace (Nh / Mh - N / (L * L)) with (((Nh - N) * (L * L) - N * (Mh - L * L)) / (Mh * (L * L))) by (field; lra).
    unfold Rdiv. rewrite Rabs_mult, (Rabs_pos_eq (/ _)) by (left; apply Rinv_0_lt_compat; apply Rmult_lt_0_compat; assumption).
    apply (Rmult_le_reg_r (Mh * (L * L))); [apply Rmult_lt_0_compat; assumption|].
    rewrite Rmult_assoc, Rinv_l by (apply Rgt_not_eq, Rmult_lt_0_compat; assumption). rewrite Rmult_1_r.
    apply Rle_trans with (((5.2 * U + 2 * e) * (S * L) + 10 * eta0) * (L * L) + (S * L) * ((4.3 * U + 4.05 * e) * (L * L) + 10 * eta0)).
    { unfold Rminus. eapply Rle_trans; [apply Rabs_triang|]. rewrite Rabs_Ropp, !Rabs_mult. rewrite (Rabs_pos_eq L) by lra.
      apply Rplus_le_compat; [apply Rmult_le_compat_r; [lra|exact N1]|].
      apply Rmult_le_compat; try apply Rabs_pos; assumption. }
    apply Rle_trans with (((10.3 * U + 6.55 * e) * q + U * / 4000 * (1 + q)) * (L * L * 0.93 * (L * L))).
    2:{ apply Rmult_le_compat_l; [|apply Rmult_le_compat_r; lra]. 
        assert (0 <= e * q) by (apply Rmult_le_pos; lra). lra. }
    rewrite Eq.
    assert (X1 : eta0 <= U / 400000 * (L * L)).
    { replace eta0 with (eta0 * (i * i) * (L * L)) by (replace (eta0 * (i * i) * (L * L)) with (eta0 * (i * L) * (i * L)) by ring; rewrite Hi; ring).
      apply Rmult_le_compat_r; lra. }
    assert (X2 : 10 * eta0 * (L * L) <= 10 * (U / 400000 * (L * L)) * (L * L)) by (apply Rmult_le_compat_r; lra).
    assert (X3 : q * (L * L) * (10 * eta0) <= q * (L * L) * (10 * (U / 400000 * (L * L)))).
    { apply Rmult_le_compat_l; [apply Rmult_le_pos; lra|lra]. }
    set (LL := L * L) in *.
    assert (Y1 : 0 <= q * (LL * LL)) by (apply Rmult_le_pos; [lra|apply Rmult_le_pos; lra]).
    assert (Y2 : 0 <= e * (q * (LL * LL))) by (apply Rmult_le_pos; lra).
    assert (Y3 : 0 <= LL * LL) by (apply Rmult_le_pos; lra).
    apply Rle_trans with ((9.5 * U) * (q * (LL * LL)) + 6.05 * (e * (q * (LL * LL))) + 10 * (U / 400000) * (LL * LL) + 10 * (U / 400000) * (q * (LL * LL))).
    { lra. }
    apply Rle_trans with ((10.3 * U * 0.93) * (q * (LL * LL)) + 6.55 * 0.93 * (e * (q * (LL * LL))) + U * / 4000 * 0.93 * (LL * LL) + U * / 4000 * 0.93 * (q * (LL * LL))); [lra|].
    right. ring. }
  assert (BNq : Rabs (N / (L * L)) <= q).
  { unfold Rdiv. rewrite Rabs_mult, (Rabs_pos_eq (/ _)) by (left; apply Rinv_0_lt_compat; assumption).
    apply (Rmult_le_reg_r (L * L)); [assumption|]. rewrite Rmult_assoc, Rinv_l, Rmult_1_r by lra. rewrite <- Eq. exact BN. }
  assert (e * q <= / 64 * q) by (apply Rmult_le_compat_r; lra).
  assert (Bq : q <= 4398046511104 * 1099511627776) by (unfold q, Rdiv; fold i; apply Rmult_le_compat; lra).
  assert (AQ : Rabs (Nh / Mh) <= 1.11 * q + U / 4000).
  { pose proof (abs_near _ _ _ _ QE BNq). lra. }
  destruct (div_small (dot3 p w d) (dot3 p d d) FN FM) as [Ft Et]; [fold Mh; lra|fold Nh Mh; apply small_num; lra|].
  fold t in Ft, Et. fold Nh Mh in Et. split; [exact Ft|]. split; [|exact BNq].
  rewrite Et. pose proof (rnd_err (Nh / Mh)) as RE. rewrite u24_val in RE.
  replace (rnd (Nh / Mh) - N / (L * L)) with ((rnd (Nh / Mh) - Nh / Mh) + (Nh / Mh - N / (L * L))) by ring.
  eapply Rle_trans; [apply Rabs_triang|]. assert (0 <= e * q) by (apply Rmult_le_pos; lra). lra.
Qed.

Lemma fma_lane : forall p (d c a : f32) D C L K ed tau, fin d -> fin c -> fin a ->
  Rabs (val d - D) <= ed -> Rabs (val c - C) <= tau -> Rabs D <= L -> Rabs (val c) <= K -> Rabs (val a) <= 1152921504606846976 ->
  (L + ed) * K <= 10000000000000000000000000000 ->
  fin (simdfma p d c a) /\
  Rabs (val (simdfma p d c a) - (val a + D * C)) <= L * tau + ed * K + 2.1 * U * ((L + ed) * K) + 1.1 * U * Rabs (val a) + 3 * eta0.
Proof.
  intros p d c a D C L K ed tau Fd Fc Fa Hd Hc HD HK Ha HLK.
  pose proof eta0_small as ES. pose proof eta0_pos as EP.
  pose proof (Rabs_pos (val d - D)) as P1. pose proof (Rabs_pos (val c - C)) as P2. pose proof (Rabs_pos D) as P3.
  pose proof (Rabs_pos (val c)) as P4. pose proof (Rabs_pos (val a)) as P5.
  assert (Bd : Rabs (val d) <= L + ed) by (apply (abs_near _ D); lra).
  assert (BP : Rabs (val d * val c) <= (L + ed) * K) by (rewrite Rabs_mult; apply Rmult_le_compat; try apply Rabs_pos; lra).
  set (P := (L + ed) * K) in *.
  assert (EA : eb a (val a) (Rabs (val a)) 0).
  { split; [exact Fa|]. rewrite Rminus_eq_0, Rabs_R0. split; apply Rle_refl. }
  destruct (eb_fma p d c a (val a) (Rabs (val a)) 0 Fd Fc EA) as (F & E & _); [lra|].
  split; [exact F|]. rewrite u24_val in E.
  assert (G : Rabs (val d * val c - D * C) <= L * tau + ed * K).
  { replace (val d * val c - D * C) with (D * (val c - C) + (val d - D) * val c) by ring.
    eapply Rle_trans; [apply Rabs_triang|]. rewrite !Rabs_mult. apply Rplus_le_compat; apply Rmult_le_compat; lra. }
  replace (val (simdfma p d c a) - (val a + D * C)) with ((val (simdfma p d c a) - (val a + val d * val c)) + (val d * val c - D * C)) by ring.
  eapply Rle_trans; [apply Rabs_triang|]. pose proof (Rabs_pos (val d * val c)). lra.
Qed.

(** subtraction without underflow *)
Lemma sub_lane : forall a b : f32, fin a -> fin b -> Rabs (val a) <= 1099511627776 * 4 -> Rabs (val b) <= 1099511627776 * 4 ->
  fin (a - b)%sc /\ Rabs (val (a - b)%sc - (val a - val b)) <= U * Rabs (val a - val b).
Proof.
  intros a b Fa Fb Ba Bb. apply abs2 in Ba, Bb.
  destruct (sub_small a b Fa Fb) as [F V]; [apply small_num, Rabs_le; lra|].
  split; [exact F|]. rewrite V. destruct (sub_rel a b) as (e & He & ->). rewrite u24_val in He.
  replace ((val a - val b) * (1 + e) - (val a - val b)) with (e * (val a - val b)) by ring.
  rewrite Rabs_mult. apply Rmult_le_compat_r; [apply Rabs_pos|exact He].
Qed.
Lemma fair_lanes : forall v : vec4 f32, fair (l43 v) ->
  (fin (vx v) /\ Rabs (val (vx v)) <= 1099511627776) /\ (fin (vy v) /\ Rabs (val (vy v)) <= 1099511627776) /\ (fin (vz v) /\ Rabs (val (vz v)) <= 1099511627776).
Proof.
  intros v [F B]. unfold boundedBy, allFin, l43 in *. rewrite p40 in B. rewrite !Forall_cons_iff in *. tauto.
Qed.
Lemma dist_len : forall x a, distS x a = lenS (minusS x a). Proof. intros. reflexivity. Qed.
Lemma len_bound : forall v B, Rabs (vx v) <= B -> Rabs (vy v) <= B -> Rabs (vz v) <= B -> lenS v <= 2 * B.
Proof.
  intros v B H1 H2 H3. pose proof (Rabs_pos (vx v)). unfold lenS.
  assert (E : forall x, Rabs x <= B -> x * x <= B * B).
  { intros x H'. replace (x * x) with (Rabs x * Rabs x) by (rewrite <- Rabs_mult; apply Rabs_pos_eq; nra).
    apply Rmult_le_compat; try apply Rabs_pos; assumption. }
  pose proof (E _ H1). pose proof (E _ H2). pose proof (E _ H3).
  replace (2 * B) with (sqrt (2 * B * (2 * B))) by (apply sqrt_square; lra). apply sqrt_le_1; nra.
Qed.
(** differences of points *)
Lemma diff_near : forall x a : vec4 f32, fair (l43 x) -> fair (l43 a) ->
  let w := vsub x a in let W := minusS (realV x) (realV a) in
  allFin (l43 w) /\ lenS W <= 4398046511104 /\
  Rabs (val (vx w) - vx W) <= U * Rabs (vx W) /\ Rabs (val (vy w) - vy W) <= U * Rabs (vy W) /\ Rabs (val (vz w) - vz W) <= U * Rabs (vz W).
Proof.
  intros x a X A w W. destruct (fair_lanes x X) as ((F1 & B1) & (F2 & B2) & (F3 & B3)).
  destruct (fair_lanes a A) as ((G1 & C1) & (G2 & C2) & (G3 & C3)).
  destruct (sub_lane _ _ F1 G1 ltac:(lra) ltac:(lra)) as [K1 L1]. destruct (sub_lane _ _ F2 G2 ltac:(lra) ltac:(lra)) as [K2 L2].
  destruct (sub_lane _ _ F3 G3 ltac:(lra) ltac:(lra)) as [K3 L3].
  split. { unfold allFin, l43, w, vsub, map2_4. cbn [vx vy vz]. repeat (apply Forall_cons; [assumption|]). apply Forall_nil. }
  split.
  { replace 4398046511104 with (2 * 2199023255552) by lra. apply len_bound; unfold W, minusS, realV; cbn [vx vy vz];
      repeat match goal with H : Rabs _ <= 1099511627776 |- _ => apply abs2 in H end; apply Rabs_le; lra. }
  split; [exact L1|]. split; [exact L2|exact L3].
Qed.
Lemma clamp_lip : forall t T e, Rabs (t - T) <= e -> Rabs (Rmax 0 (Rmin t 1) - Rmax 0 (Rmin T 1)) <= e.
Proof. intros t T e H. apply abs2 in H. apply Rabs_le. unfold Rmax, Rmin. repeat destruct Rle_dec; lra. Qed.
Lemma max_lip : forall t T e, Rabs (t - T) <= e -> Rabs (Rmax t 0 - Rmax T 0) <= e.
Proof. intros t T e H. apply abs2 in H. apply Rabs_le. unfold Rmax. repeat destruct Rle_dec; lra. Qed.
Lemma clamp_f32 : forall t : f32, fin t -> fin (stdclamp t f0 f1) /\ val (stdclamp t f0 f1) = Rmax 0 (Rmin (val t) 1).
Proof.
  intros t F. destruct f0_val as [F0 V0]. destruct f1_fin as [F1 V1]. unfold stdclamp.
  destruct (slt t f0) eqn:E1.
  - split; [exact F0|]. rewrite V0. apply slt0 in E1; [|exact F]. unfold Rmax, Rmin. repeat destruct Rle_dec; lra.
  - assert (0 <= val t).
    { apply Rnot_lt_le. intros H. apply (slt0 t F) in H. rewrite H in E1. discriminate. }
    rewrite (slt_ext f1 t (fin_num _ F1) (fin_num _ F)) , !fin_ext, V1 by assumption.
    destruct (Rlt_bool_spec 1 (val t)) as [K|K]; (split; [assumption|]); rewrite ?V1; unfold Rmax, Rmin; repeat destruct Rle_dec; lra.
Qed.
Lemma max_f32 : forall t : f32, fin t -> fin (stdmax t f0) /\ val (stdmax t f0) = Rmax (val t) 0.
Proof.
  intros t F. destruct f0_val as [F0 V0]. unfold stdmax. destruct (slt t f0) eqn:E1.
  - split; [exact F0|]. rewrite V0. apply slt0 in E1; [|exact F]. unfold Rmax. destruct Rle_dec; lra.
  - split; [exact F|]. assert (0 <= val t).
    { apply Rnot_lt_le. intros H. apply (slt0 t F) in H. rewrite H in E1. discriminate. }
    unfold Rmax. destruct Rle_dec; lra.
Qed.

(** ** Segments *)
Theorem segment_near : forall p (a b x : vec4 f32), fair (l43 a) -> fair (l43 b) -> fair (l43 x) ->
  bpow radix2 (-40) <= distS (realV b) (realV a) ->
  let S := distS (realV x) (realV a) in let L := distS (realV b) (realV a) in
  (exists q, isNearest (onSegment (realV a) (realV b)) (realV x) q /\ lanesNear (19 * S + 4 * L) 2 a (closestPointSegment p a b x) q) /\
  fin (segmentParam p a b x) /\
  Rabs (val (segmentParam p a b x) - dotS (minusS (realV x) (realV a)) (minusS (realV b) (realV a)) / (L * L)) <= (19 * (S / L) + / 1000) / 16777216.
Proof.
  intros p a b x A B X HL. rewrite !dist_len in *. rewrite m40 in HL.
  set (W := minusS (realV x) (realV a)). set (D := minusS (realV b) (realV a)) in *.
  set (S := lenS W). set (L := lenS D) in *. cbv zeta.
  destruct (diff_near x a X A) as (FW & BS & W1 & W2 & W3). fold W in BS, W1, W2, W3. fold S in BS.
  destruct (diff_near b a B A) as (FD & BL & D1 & D2 & D3). fold D in BL, D1, D2, D3. fold L in BL.
  destruct (lane_lenS D) as (LD1 & LD2 & LD3). fold L in LD1, LD2, LD3.
  assert (PS : 0 <= S) by apply lenS_pos.
  destruct (param_near p (vsub x a) (vsub b a) W D S L U ltac:(lra) eq_refl eq_refl ltac:(lra) BS FW FD W1 W2 W3) as (Ft & Et & Bt); try lra.
  change (dot3 p (vsub x a) (vsub b a) / dot3 p (vsub b a) (vsub b a))%sc with (segmentParam p a b x) in *.
  assert (LL : dotS D D = L * L) by (unfold L; rewrite lenS_sq; reflexivity).
  set (t := segmentParam p a b x) in *. set (T := dotS W D / dotS D D) in *.
  assert (PL : 0 < L) by lra.
  assert (Pq : 0 <= S / L) by (apply Rmult_le_pos; [lra|left; apply Rinv_0_lt_compat; lra]).
  split.
  2:{ split; [exact Ft|]. rewrite <- LL. fold T. lra. }
  exists (closestPointSegment GEN (realV a) (realV b) (realV x)).
  assert (NZ : nonzeroS D).
  { intros (Z1 & Z2 & Z3). assert (L * L = 0) by (unfold L; rewrite lenS_sq, Z1, Z2, Z3; ring). nra. }
  split; [apply closestPointSegment_nearest; exact NZ|].
  destruct (clamp_f32 t Ft) as [Fc Vc].
  pose proof (clamp_lip _ _ _ Et) as Ec. rewrite <- Vc in Ec.
  set (C := Rmax 0 (Rmin T 1)) in *. set (c := stdclamp t f0 f1) in *.
  assert (Kc : Rabs (val c) <= 1) by (rewrite Vc; apply Rabs_le; unfold Rmax, Rmin; repeat destruct Rle_dec; lra).
  destruct (fair_lanes a A) as ((A1 & C1) & (A2 & C2) & (A3 & C3)).
  unfold allFin, l43 in FD. rewrite !Forall_cons_iff in FD. destruct FD as (G1 & G2 & G3 & _).
  assert (LT : L * ((11.7 * U + 6.7 * U) * (S / L) + U / 1000) = 18.4 * U * S + U / 1000 * L).
  { assert (LS' : L * (S / L) = S) by (field; lra). rewrite <- LS' at 2. lra. }
  assert (EL0 : 3 * eta0 <= U / 1000 * L).
  { pose proof eta_70. lra. }
  assert (Q : forall (f : vec4 R -> R) (d ai : f32), fin d -> fin ai -> Rabs (val ai) <= 1099511627776 -> Rabs (f D) <= L ->
    Rabs (val d - f D) <= U * Rabs (f D) ->
    fin (simdfma p d c ai) /\ Rabs (val (simdfma p d c ai) - (val ai + f D * C)) <= (19 * S + 4 * L + 2 * Rabs (val ai)) / 16777216).
  { intros f d ai Fd Fa Ba Bf Ed.
    assert (Ed' : Rabs (val d - f D) <= U * L) by lra.
    destruct (fma_lane p d c ai (f D) C L 1 (U * L) _ Fd Fc Fa Ed' Ec Bf Kc ltac:(lra) ltac:(lra)) as [F E].
    split; [exact F|]. eapply Rle_trans; [exact E|]. rewrite LT. pose proof (Rabs_pos (val ai)). lra. }
  assert (ER : forall f : vec4 R -> R, f = vx \/ f = vy \/ f = vz ->
    f (closestPointSegment GEN (realV a) (realV b) (realV x)) = f (realV a) + f D * C).
  { assert (ET : stdclamp (segmentParam GEN (realV a) (realV b) (realV x)) f0 f1 = C).
    { rewrite segmentParamR, f0R, f1R, stdclampR by lra. reflexivity. }
    intros f [->|[->| ->]]; unfold closestPointSegment; rewrite ET; unfold vfma, vsub, map2_4, dup4; cbn [vx vy vz vw];
      rewrite simdfmaR; unfold D, minusS; cbn [vx vy vz ssub ScalarR]; ring. }
  unfold lanesNear. rewrite (ER vx), (ER vy), (ER vz) by auto.
  split; [|split].
  - exact (Q vx _ _ G1 A1 C1 LD1 D1).
  - exact (Q vy _ _ G2 A2 C2 LD2 D2).
  - exact (Q vz _ _ G3 A3 C3 LD3 D3).
Qed.

(** ** Rays *)
Lemma back_lane : forall o d : f32, fin o -> fin d -> Rabs (val o) <= 1099511627776 -> Rabs (val d) <= 1099511627776 ->
  fin (o + d - o)%sc /\ Rabs (val (o + d - o)%sc - val d) <= 1.01 * U * Rabs (val o) + 2.01 * U * Rabs (val d).
Proof.
  intros o d Fo Fd Bo Bd. destruct (sum_rel o d Fo Fd ltac:(lra) ltac:(lra)) as [Fs Es].
  pose proof (Rabs_triang (val o) (val d)) as T. pose proof (Rabs_pos (val o)). pose proof (Rabs_pos (val d)).
  assert (Bs : Rabs (val (o + d)%sc) <= 1099511627776 * 4).
  { pose proof (abs_near _ _ _ _ Es (Rle_refl _)). lra. }
  destruct (sub_lane (o + d)%sc o Fs Fo Bs ltac:(lra)) as [F E]. split; [exact F|].
  assert (G : Rabs (val (o + d)%sc - val o - val d) <= U * (Rabs (val o) + Rabs (val d))).
  { replace (val (o + d)%sc - val o - val d) with (val (o + d)%sc - (val o + val d)) by ring. lra. }
  assert (K : Rabs (val (o + d)%sc - val o) <= Rabs (val d) + U * (Rabs (val o) + Rabs (val d))).
  { apply (abs_near _ (val d)); [exact G|apply Rle_refl]. }
  replace (val (o + d - o)%sc - val d) with ((val (o + d - o)%sc - (val (o + d)%sc - val o)) + (val (o + d)%sc - val o - val d)) by ring.
  eapply Rle_trans; [apply Rabs_triang|]. lra.
Qed.
Theorem ray_near : forall p (r : ray f32) (x : vec4 f32), fair (l43 (rorigin r)) -> fair (l43 (rdir r)) -> fair (l43 x) ->
  let S := distS (realV x) (realV (rorigin r)) in let L := lenS (realV (rdir r)) in let O := lenS (realV (rorigin r)) in
  bpow radix2 (-40) <= L -> O <= 131072 * L ->
  exists q, isNearest (onRay (realV (rorigin r)) (realV (rdir r))) (realV x) q /\
    lanesNear (28 * S + 7 * (S * (O / L)) + L) 2 (rorigin r) (closestPointRay p r x) q.
Proof.
  intros p r x Fo Fd Fx S L O HL HO. unfold S. rewrite dist_len. rewrite m40 in HL. clear S.
  set (o := rorigin r) in *. set (d := rdir r) in *. set (W := minusS (realV x) (realV o)). set (D := realV d) in *. set (S := lenS W).
  destruct (diff_near x o Fx Fo) as (FW & BS & W1 & W2 & W3). fold W in BS, W1, W2, W3. fold S in BS.
  destruct (fair_lanes o Fo) as ((F1 & B1) & (F2 & B2) & (F3 & B3)). destruct (fair_lanes d Fd) as ((G1 & C1) & (G2 & C2) & (G3 & C3)).
  destruct (lane_lenS D) as (LD1 & LD2 & LD3). fold L in LD1, LD2, LD3.
  destruct (lane_lenS (realV o)) as (LO1 & LO2 & LO3). fold O in LO1, LO2, LO3.
  assert (PS : 0 <= S) by apply lenS_pos. assert (PO : 0 <= O) by apply lenS_pos. assert (PL : 0 < L) by lra.
  assert (BL : L <= 4398046511104).
  { eapply Rle_trans; [apply (len_bound D 1099511627776); assumption|lra]. }
  destruct (back_lane _ _ F1 G1 B1 C1) as [H1 E1]. destruct (back_lane _ _ F2 G2 B2 C2) as [H2 E2]. destruct (back_lane _ _ F3 G3 B3 C3) as [H3 E3].
  set (v := vsub (vadd o d) o).
  set (g := O / L). assert (Eg : g * L = O) by (unfold g; field; lra).
  assert (Pg : 0 <= g) by (apply Rmult_le_pos; [lra|left; apply Rinv_0_lt_compat; lra]).
  assert (Bg : g <= 131072).
  { apply (Rmult_le_reg_r L); [exact PL|]. rewrite Eg. exact HO. }
  set (e := U * (1.01 * g + 2.01)).
  assert (EeL : e * L = 1.01 * U * O + 2.01 * U * L) by (unfold e; rewrite <- Eg; ring).
  cbn [vx vy vz realV] in LO1, LO2, LO3, LD1, LD2, LD3. unfold D in LD1, LD2, LD3. cbn [vx vy vz realV] in LD1, LD2, LD3.
  destruct (param_near p (vsub x o) v W D S L e) as (Ft & Et & Bt).
  1: unfold e; lra. 1,2: reflexivity. 1: lra. 1: exact BS. 1: exact FW.
  1: unfold allFin, l43, v, vsub, vadd, map2_4; cbn [vx vy vz]; repeat (apply Forall_cons; [assumption|]); apply Forall_nil.
  1,2,3: assumption.
  1,2,3: unfold v, vsub, vadd, map2_4, D, realV; cbn [vx vy vz]; rewrite EeL; lra.
  set (t := (dot3 p (vsub x o) v / dot3 p v v)%sc) in *. set (T := dotS W D / dotS D D) in *.
  destruct (max_f32 t Ft) as [Fc Vc]. pose proof (max_lip _ _ _ Et) as Ec. rewrite <- Vc in Ec.
  set (q := S / L) in *. set (C := Rmax T 0) in *. set (c := stdmax t f0) in *.
  assert (Eq : q * L = S) by (unfold q; field; lra).
  assert (Pq : 0 <= q) by (apply Rmult_le_pos; [lra|left; apply Rinv_0_lt_compat; lra]).
  assert (Be : 0 <= e <= / 64) by (unfold e; lra).
  assert (Beq : 0 <= e * q <= / 64 * q) by (split; [apply Rmult_le_pos; lra|apply Rmult_le_compat_r; lra]).
  assert (BC : Rabs C <= q).
  { apply abs2 in Bt. apply Rabs_le. unfold C, Rmax. destruct Rle_dec; lra. }
  assert (Kc : Rabs (val c) <= 1.2 * q + U / 1000).
  { pose proof (abs_near _ _ _ _ Ec BC). lra. }
  assert (LK : (L + 0) * (1.2 * q + U / 1000) = 1.2 * S + U / 1000 * L) by (rewrite <- Eq; ring).
  assert (LT : L * ((11.7 * U + 6.7 * e) * q + U / 1000) = 11.7 * U * S + 6.7 * (1.01 * U * (S * g) + 2.01 * U * S) + U / 1000 * L).
  { replace (L * ((11.7 * U + 6.7 * e) * q + U / 1000)) with (11.7 * U * (q * L) + 6.7 * ((e * L) * q) + U / 1000 * L) by ring.
    rewrite EeL, Eq. replace ((1.01 * U * O + 2.01 * U * L) * q) with (1.01 * U * (q * O) + 2.01 * U * (q * L)) by ring.
    rewrite Eq. replace (q * O) with (S * g) by (unfold q, g; field; lra). ring. }
  assert (Psg : 0 <= S * g) by (apply Rmult_le_pos; lra).
  assert (EL0 : 3 * eta0 <= U / 1000 * L) by (pose proof eta_70; lra).
  exists (closestPointRay GEN (mkRay D (rparallel r) (realV o)) (realV x)).
  assert (NZ : nonzeroS D).
  { intros (Z1 & Z2 & Z3). assert (L * L = 0) by (unfold L; rewrite lenS_sq, Z1, Z2, Z3; ring). nra. }
  split; [exact (closestPointRay_nearest GEN (mkRay D (rparallel r) (realV o)) (realV x) NZ)|].
  assert (Q : forall di oi : f32, fin di -> fin oi -> Rabs (val oi) <= 1099511627776 -> Rabs (val di) <= L ->
    fin (simdfma p di c oi) /\ Rabs (val (simdfma p di c oi) - (val oi + val di * C)) <= (28 * S + 7 * (S * g) + L + 2 * Rabs (val oi)) / 16777216).
  { intros di oi Fdi Foi Bo Bd.
    assert (E0 : Rabs (val di - val di) <= 0) by (rewrite Rminus_eq_0, Rabs_R0; lra).
    destruct (fma_lane p di c oi (val di) C L (1.2 * q + U / 1000) 0 _ Fdi Fc Foi E0 Ec Bd Kc ltac:(lra)) as [F E].
    { rewrite LK. lra. }
    split; [exact F|]. eapply Rle_trans; [exact E|]. rewrite LT, LK. pose proof (Rabs_pos (val oi)). lra. }
  assert (ER : forall f : vec4 R -> R, f = vx \/ f = vy \/ f = vz ->
    f (closestPointRay GEN (mkRay D (rparallel r) (realV o)) (realV x)) = f (realV o) + f D * C).
  { assert (EV : forall i : vec4 R -> R, i = vx \/ i = vy \/ i = vz -> i (vsub (vadd (realV o) D) (realV o)) = i D).
    { intros i [->|[->| ->]]; unfold vsub, vadd, map2_4; cbn [vx vy vz]; cbn [sadd ssub ScalarR]; ring. }
    assert (ET : (dot3 GEN (vsub (realV x) (realV o)) (vsub (vadd (realV o) D) (realV o)) /
      dot3 GEN (vsub (vadd (realV o) D) (realV o)) (vsub (vadd (realV o) D) (realV o)))%sc = T).
    { rewrite !dot3R, !EV by auto. reflexivity. }
    intros f Hf. unfold closestPointRay. cbn [rorigin rdir]. rewrite ET, stdmaxR, f0R. fold C.
    destruct Hf as [->|[->| ->]]; unfold vfma, dup4; cbn [vx vy vz]; rewrite simdfmaR; ring. }
  unfold lanesNear. rewrite (ER vx), (ER vy), (ER vz) by auto.
  split; [|split].
  - exact (Q _ _ G1 F1 B1 LD1).
  - exact (Q _ _ G2 F2 B2 LD2).
  - exact (Q _ _ G3 F3 B3 LD3).
Qed.
(** far from the coordinate origin the ray loses its direction *)
Theorem ray_far : forall p, exists (r : ray f32) (x : vec4 f32), fair (l43 (rorigin r)) /\ fair (l43 (rdir r)) /\ fair (l43 x) /\
  lenS (realV (rdir r)) = 1 /\ r = newRay p (V4 (slit 1 25) f0 f0 f0) (V4 f1 f0 f0 f0) false /\
  snan (vx (closestPointRay p r x)) = true /\ snan (vy (closestPointRay p r x)) = true /\ snan (vz (closestPointRay p r x)) = true.
Proof.
  intros p. exists (newRay p (V4 (slit 1 25) f0 f0 f0) (V4 f1 f0 f0 f0) false), (V4 f0 f1 f0 f0).
  destruct f0_val as [F0 V0]. destruct f1_fin as [F1 V1].
  destruct (lit_exact 1 25 ltac:(lia) ltac:(lia)) as [F2 V2].
  assert (K : forall a b c w : f32, fin a -> fin b -> fin c -> Rabs (val a) <= 1099511627776 -> Rabs (val b) <= 1099511627776 -> Rabs (val c) <= 1099511627776 ->
    fair (l43 (V4 a b c w))).
  { intros. unfold fair, allFin, boundedBy, l43. rewrite p40. cbn [vx vy vz].
    split; repeat (apply Forall_cons; [assumption|]); apply Forall_nil. }
  split; [|split; [|split; [|split; [|split; [reflexivity|]]]]].
  - apply K; try assumption; rewrite ?V0, ?V2, ?Rabs_R0; try lra. cbn. rewrite Rabs_pos_eq; lra.
  - apply K; try assumption; rewrite ?V0, ?V1, ?Rabs_R0, ?Rabs_R1; lra.
  - apply K; try assumption; rewrite ?V0, ?V1, ?Rabs_R0, ?Rabs_R1; lra.
  - unfold lenS, realV, newRay. cbn [rdir vx vy vz]. rewrite V0, V1. replace (1 * 1 + 0 * 0 + 0 * 0) with 1 by ring. apply sqrt_1.
  - destruct p; vm_compute; auto.
Qed.

(** ** Planes *)
Lemma nearest_on_plane : forall pl x q, 0 < dotS pl pl ->
  vx q = vx x - vx pl * (planeSide pl x / dotS pl pl) -> vy q = vy x - vy pl * (planeSide pl x / dotS pl pl) ->
  vz q = vz x - vz pl * (planeSide pl x / dotS pl pl) -> isNearest (onPlane pl) x q.
Proof.
  intros pl x q H E1 E2 E3. set (n := dotS pl pl) in *. set (d := planeSide pl x) in *.
  assert (Sq : sq x q = d * d / n).
  { unfold sq. rewrite E1, E2, E3.
    replace (_ + _) with ((vx pl * vx pl + vy pl * vy pl + vz pl * vz pl) * (d / n * (d / n))) by ring.
    change (vx pl * vx pl + vy pl * vy pl + vz pl * vz pl) with n. field. lra. }
  apply nearest_sq.
  - unfold onPlane, dotS. rewrite E1, E2, E3.
    replace (_ + _) with (d - (vx pl * vx pl + vy pl * vy pl + vz pl * vz pl) * (d / n)) by (unfold d, planeSide; ring).
    change (vx pl * vx pl + vy pl * vy pl + vz pl * vz pl) with n. field. lra.
  - intros r Hr. rewrite Sq. unfold onPlane, dotS in Hr.
    assert (D : d = vx pl * (vx x - vx r) + vy pl * (vy x - vy r) + vz pl * (vz x - vz r)) by (unfold d, planeSide; lra).
    apply (Rmult_le_reg_r n); [exact H|]. replace (d * d / n * n) with (d * d) by (field; lra).
    rewrite D. change (?a * ?a <= _) with (a² <= sq x r * n). eapply Rle_trans; [apply cauchy3|]. unfold sq, n, dotS. lra.
Qed.
Lemma m120 : 50 * eta0 <= bpow radix2 (-120) * U.
Proof.
  unfold eta0. replace (bpow radix2 (-150)) with (bpow radix2 (-120) * bpow radix2 (-30)) by (rewrite <- bpow_plus; reflexivity).
  pose proof (bpow_gt_0 radix2 (-120)). replace (bpow radix2 (-30)) with (/ 1073741824) by (cbn; lra). lra.
Qed.
Theorem plane_near : forall p (pl x : vec4 f32), fair (l4 pl) -> fair (l43 x) ->
  Rabs (dotS (realV pl) (realV pl) - 1) <= 16 / 16777216 ->
  let R0 := reach (realV pl) (V4 (Rabs (val (vx x))) (Rabs (val (vy x))) (Rabs (val (vz x))) 1) in
  exists q, isNearest (onPlane (realV pl)) (realV x) q /\
    lanesNear (23 * R0 + bpow radix2 (-120)) 2 x (closestPointPlane p pl x) q.
Proof.
  intros p pl x FP FX H1 R0.
  assert (Mp : mild (l4 pl)).
  { destruct FP as [F B]. split; [exact F|]. unfold boundedBy in *. eapply Forall_impl; [|exact B].
    intros y Hy. eapply Rle_trans; [exact Hy|]. apply bpow_le. lia. }
  assert (Mx : mild (l43 x)).
  { destruct FX as [F B]. split; [exact F|]. unfold boundedBy in *. eapply Forall_impl; [|exact B].
    intros y Hy. eapply Rle_trans; [exact Hy|]. apply bpow_le. lia. }
  destruct (plane_distance p pl x Mp Mx) as [Fd Ed]. fold R0 in Ed. unfold slack in Ed. rewrite eta_val in Ed.
  destruct (fair_lanes x FX) as ((F1 & B1) & (F2 & B2) & (F3 & B3)).
  assert (FP3 : fair (l43 pl)).
  { destruct FP as [F B]. unfold fair, allFin, boundedBy, l43, l4 in *. rewrite !Forall_cons_iff in *. tauto. }
  destruct (fair_lanes pl FP3) as ((G1 & C1) & (G2 & C2) & (G3 & C3)).
  assert (Bw : Rabs (val (vw pl)) <= 1099511627776).
  { destruct FP as [_ B]. unfold boundedBy, l4 in B. rewrite !Forall_cons_iff, p40 in B. tauto. }
  set (d := planeDistance p pl x) in *. set (dl := planeSide (realV pl) (realV x)) in *.
  set (n := dotS (realV pl) (realV pl)) in *. pose proof (abs2 _ _ H1) as H1'.
  assert (Bdl : Rabs dl <= R0).
  { unfold dl, R0. apply side_reach; unfold realV; cbn [vx vy vz]; lra. }
  assert (PR : 0 <= R0) by (pose proof (Rabs_pos dl); lra).
  assert (BR : R0 <= 3 * (1099511627776 * 1152921504606846976) + 1099511627776).
  { unfold R0. apply reach_le; unfold realV; cbn [vx vy vz vw]; try lra; split; first [apply Rabs_pos | lra]. }
  set (T := dl / n).
  assert (ET : Rabs (val d - T) <= 20.3 * U * R0 + 12 * eta0).
  { assert (Rabs (dl - T) <= 16.1 * U * R0).
    { unfold T. replace (dl - dl / n) with (dl * ((n - 1) / n)) by (field; lra). rewrite Rabs_mult.
      rewrite Rmult_comm. apply Rmult_le_compat; try apply Rabs_pos; [|exact Bdl].
      unfold Rdiv. rewrite Rabs_mult, (Rabs_pos_eq (/ n)) by (left; apply Rinv_0_lt_compat; lra).
      apply (Rmult_le_reg_r n); [lra|]. rewrite Rmult_assoc, Rinv_l, Rmult_1_r by lra. lra. }
    replace (val d - T) with ((val d - dl) + (dl - T)) by ring. eapply Rle_trans; [apply Rabs_triang|]. lra. }
  assert (Bn : forall f : vec4 R -> R, f = vx \/ f = vy \/ f = vz -> Rabs (f (realV pl)) <= 1.001).
  { assert (L : lenS (realV pl) <= 1.001).
    { unfold lenS. replace 1.001 with (sqrt (1.001 * 1.001)) by (apply sqrt_square; lra). apply sqrt_le_1; [nra|lra|].
      change (n <= 1.001 * 1.001). lra. }
    destruct (lane_lenS (realV pl)) as (L1 & L2 & L3). intros f [->|[->| ->]]; lra. }
  pose proof eta0_pos as E0. pose proof eta0_small as ES. pose proof m120 as E1.
  assert (BT : Rabs T <= 1.001 * R0).
  { replace T with (dl * / n) by reflexivity. rewrite Rabs_mult, (Rabs_pos_eq (/ n)) by (left; apply Rinv_0_lt_compat; lra).
    rewrite Rmult_comm. apply Rmult_le_compat; try apply Rabs_pos; [left; apply Rinv_0_lt_compat; lra| |exact Bdl].
    apply (Rmult_le_reg_r n); [lra|]. rewrite Rinv_l by lra. lra. }
  assert (Bd : Rabs (val d) <= 1.002 * R0 + 12 * eta0) by (pose proof (abs_near _ _ _ _ ET BT); lra).
  assert (Q : forall a b : f32, fin a -> fin b -> Rabs (val a) <= 1.001 -> Rabs (val b) <= 1099511627776 ->
    fin (b - a * d)%sc /\ Rabs (val (b - a * d)%sc - (val b - val a * T)) <= (23 * R0 + bpow radix2 (-120) + 2 * Rabs (val b)) / 16777216).
  { intros a b Fa Fb Ba Bb. pose proof (Rabs_pos (val a)) as Pa. pose proof (Rabs_pos (val b)) as Pb. pose proof (Rabs_pos (val d)) as Pd.
    assert (Bm : Rabs (val a * val d) <= 1.001 * (1.002 * R0 + 12 * eta0)) by (rewrite Rabs_mult; apply Rmult_le_compat; lra).
    destruct (mul_small a d Fa Fd) as [Fm Vm]; [apply small_num; lra|].
    pose proof (rnd_err (val a * val d)) as Rm. rewrite u24_val, <- Vm in Rm.
    assert (Em : Rabs (val (a * d)%sc - val a * T) <= 1.001 * (20.3 * U * R0 + 12 * eta0) + 1.01 * U * R0 + 2 * eta0).
    { replace (val (a * d)%sc - val a * T) with ((val (a * d)%sc - val a * val d) + val a * (val d - T)) by ring.
      eapply Rle_trans; [apply Rabs_triang|]. rewrite (Rabs_mult (val a) (val d - T)).
      assert (Rabs (val a) * Rabs (val d - T) <= 1.001 * (20.3 * U * R0 + 12 * eta0)) by (apply Rmult_le_compat; try apply Rabs_pos; lra).
      lra. }
    assert (BaT : Rabs (val a * T) <= 1.001 * (1.001 * R0)) by (rewrite Rabs_mult; apply Rmult_le_compat; try apply Rabs_pos; lra).
    assert (Bsum : Rabs (val b - val (a * d)%sc) <= Rabs (val b) + 1.01 * R0 + 20 * eta0).
    { pose proof (abs_near _ _ _ _ Em BaT) as X. unfold Rminus. eapply Rle_trans; [apply Rabs_triang|]. rewrite Rabs_Ropp. lra. }
    destruct (sub_small b (a * d)%sc Fb Fm) as [F V]; [apply small_num; lra|].
    split; [exact F|]. rewrite V. pose proof (rnd_err (val b - val (a * d)%sc)) as Rs. rewrite u24_val in Rs.
    replace (rnd (val b - val (a * d)%sc) - (val b - val a * T)) with
      ((rnd (val b - val (a * d)%sc) - (val b - val (a * d)%sc)) + - (val (a * d)%sc - val a * T)) by ring.
    eapply Rle_trans; [apply Rabs_triang|]. rewrite Rabs_Ropp. lra. }
  exists (V4 (val (vx x) - val (vx pl) * T) (val (vy x) - val (vy pl) * T) (val (vz x) - val (vz pl) * T) 0).
  split; [apply nearest_on_plane; [fold n; lra| | |]; reflexivity|].
  split; [|split].
  - apply (Q _ _ G1 F1 (Bn vx ltac:(auto)) B1).
  - apply (Q _ _ G2 F2 (Bn vy ltac:(auto)) B2).
  - apply (Q _ _ G3 F3 (Bn vz ltac:(auto)) B3).
Qed.
Theorem normalized_unit : forall p (pl : vec4 f32), moderate (l43 pl) ->
  Rabs (dotS (realV (normalizePlane p pl)) (realV (normalizePlane p pl)) - 1) <= 16 / 16777216.
Proof.
  intros p pl M. destruct (lengths_near p) as (_ & _ & _ & L3 & _). destruct (L3 pl M) as [A B].
  pose proof (div_all (l43 pl) _ M A B) as UO.
  destruct (unit_square _ _ 5.1 ltac:(lra) M UO) as [E _].
  change (map (fun x => (x / length3 p pl)%sc) (l43 pl)) with (l43 (normalizePlane p pl)) in E.
  rewrite (proj1 (inner_lanes _ _)) in E. pose proof eta_tiny. cbn [length l43 INR] in E. lra.
Qed.

(** ** Spheres *)
Lemma rel_lane : forall w W, Rabs (w - W) <= U * Rabs W -> (1 - U) * (1 - U) * (W * W) <= w * w <= (1 + U) * (1 + U) * (W * W).
Proof.
  intros w W H.
  assert (E : forall x, x * x = Rabs x * Rabs x) by (intros y; rewrite <- Rabs_mult; symmetry; apply Rabs_pos_eq; nra).
  rewrite (E w), (E W). pose proof (Rabs_pos W). pose proof (Rabs_pos w).
  pose proof (Rabs_triang W (w - W)) as T1. replace (W + (w - W)) with w in T1 by ring.
  pose proof (Rabs_triang w (W - w)) as T2. replace (w + (W - w)) with W in T2 by ring. rewrite Rabs_minus_sym in T2.
  split.
  - replace ((1 - U) * (1 - U) * (Rabs W * Rabs W)) with (((1 - U) * Rabs W) * ((1 - U) * Rabs W)) by ring. apply Rmult_le_compat; nra.
  - replace ((1 + U) * (1 + U) * (Rabs W * Rabs W)) with (((1 + U) * Rabs W) * ((1 + U) * Rabs W)) by ring. apply Rmult_le_compat; nra.
Qed.
Theorem sphere_near : forall p (s x : vec4 f32), fair (l4 s) -> fair (l43 x) -> 0 <= val (vw s) ->
  bpow radix2 (-40) <= distS (realV x) (realV s) ->
  exists q, isNearest (onSphere (realV s)) (realV x) q /\
    lanesNear (10 * val (vw s) + bpow radix2 (-120)) 2 s (closestPointSphere p s x) q.
Proof.
  intros p s x FS FX PR HL. rewrite dist_len in HL. rewrite m40 in HL.
  assert (FS3 : fair (l43 s)).
  { destruct FS as [F B]. unfold fair, allFin, boundedBy, l43, l4 in *. rewrite !Forall_cons_iff in *. tauto. }
  assert (Fw : fin (vw s) /\ Rabs (val (vw s)) <= 1099511627776).
  { destruct FS as [F B]. unfold allFin, boundedBy, l4 in *. rewrite p40 in B. rewrite !Forall_cons_iff in *. tauto. }
  destruct Fw as [FR BR]. rewrite Rabs_pos_eq in BR by exact PR. set (R0 := val (vw s)) in *.
  destruct (diff_near x s FX FS3) as (FW & BS & W1 & W2 & W3).
  set (w := vsub x s) in *. set (W := minusS (realV x) (realV s)) in *. set (L := lenS W) in *.
  assert (PL : 0 < L) by lra.
  (* the computed difference *)
  assert (LL : L * L = vx W * vx W + vy W * vy W + vz W * vz W) by apply lenS_sq.
  assert (IW : inner (l43 w) (l43 w) = val (vx w) * val (vx w) + val (vy w) * val (vy w) + val (vz w) * val (vz w)) by (unfold inner, l43; cbn [vx vy vz]; ring).
  pose proof (rel_lane _ _ W1) as K1. pose proof (rel_lane _ _ W2) as K2. pose proof (rel_lane _ _ W3) as K3.
  assert (IB : (1 - U) * (1 - U) * (L * L) <= inner (l43 w) (l43 w) <= (1 + U) * (1 + U) * (L * L)) by (rewrite IW, LL; lra).
  set (N := norm (l43 w)) in *.
  assert (PN : 0 <= N) by apply sqrt_pos.
  assert (NN : N * N = inner (l43 w) (l43 w)) by (apply sqrt_sqrt, inner_pos).
  assert (NB : (1 - U) * L <= N <= (1 + U) * L).
  { split; (apply Rsqr_incr_0_var; [unfold Rsqr; rewrite ?NN|lra]).
    - replace ((1 - U) * L * ((1 - U) * L)) with ((1 - U) * (1 - U) * (L * L)) by ring. apply IB.
    - replace ((1 + U) * L * ((1 + U) * L)) with ((1 + U) * (1 + U) * (L * L)) by ring. apply IB. }
  assert (BLL : / 1099511627776 * / 1099511627776 <= L * L <= 4398046511104 * 4398046511104) by (split; apply Rmult_le_compat; lra).
  assert (Mw : moderate (l43 w)).
  { split; [exact FW|]. split.
    - apply Rle_trans with (/ 1099511627776 * / 1099511627776 * / 4); [cbn; lra|]. lra.
    - apply Rle_trans with (4 * (4398046511104 * 4398046511104)); [lra|cbn; lra]. }
  destruct (normalize_near p) as (_ & _ & _ & N43 & _). destruct (N43 w Mw) as [FN EN]. fold N in EN. rewrite eta_val in EN.
  unfold allFin, l43 in FN, EN. rewrite !Forall_cons_iff in FN. destruct FN as (M1 & M2 & M3 & _).
  inversion EN as [|? ? ? ? EN1 EN']; subst. inversion EN' as [|? ? ? ? EN2 EN'']; subst. inversion EN'' as [|? ? ? ? EN3 _]; subst. clear EN EN' EN''.
  destruct (fair_lanes s FS3) as ((S1 & B1) & (S2 & B2) & (S3 & B3)).
  destruct (lane_lenS W) as (LW1 & LW2 & LW3). fold L in LW1, LW2, LW3.
  pose proof eta0_pos as E0. pose proof eta0_small as ES. pose proof m120 as E1.
  assert (PNl : 0 < N) by lra.
  assert (Q : forall (wi WI : R) (ni si : f32), fin ni -> fin si -> Rabs (val si) <= 1099511627776 -> Rabs WI <= L -> Rabs (wi - WI) <= U * Rabs WI ->
    Rabs (val ni - wi / N) <= 5.1 / 16777216 * Rabs (wi / N) + 2 * eta0 ->
    fin (si + ni * vw s)%sc /\ Rabs (val (si + ni * vw s)%sc - (val si + WI / L * R0)) <= (10 * R0 + bpow radix2 (-120) + 2 * Rabs (val si)) / 16777216).
  { intros wi WI ni si Fn Fs Bs BW Hw En. pose proof (Rabs_pos (val si)) as Ps.
    set (y := WI / L) in *.
    assert (By : Rabs y <= 1).
    { unfold y, Rdiv. rewrite Rabs_mult, (Rabs_pos_eq (/ L)) by (left; apply Rinv_0_lt_compat; exact PL).
      apply (Rmult_le_reg_r L); [exact PL|]. rewrite Rmult_assoc, Rinv_l, Rmult_1_r by lra. lra. }
    assert (Ey : Rabs (wi / N - y) <= 2.01 * U).
    { replace (wi / N - y) with (((wi - WI) * L + WI * (L - N)) / (N * L)) by (unfold y; field; lra).
      unfold Rdiv. rewrite Rabs_mult, (Rabs_pos_eq (/ (N * L))) by (left; apply Rinv_0_lt_compat, Rmult_lt_0_compat; assumption).
      apply (Rmult_le_reg_r (N * L)); [apply Rmult_lt_0_compat; assumption|]. rewrite Rmult_assoc, Rinv_l, Rmult_1_r by (apply Rgt_not_eq, Rmult_lt_0_compat; assumption).
      eapply Rle_trans; [apply Rabs_triang|]. rewrite !Rabs_mult, (Rabs_pos_eq L) by lra.
      assert (Rabs (wi - WI) * L <= U * L * L) by (apply Rmult_le_compat_r; lra).
      assert (Rabs (L - N) <= U * L) by (apply Rabs_le; lra).
      assert (Rabs WI * Rabs (L - N) <= L * (U * L)) by (apply Rmult_le_compat; try apply Rabs_pos; lra).
      assert (2.01 * U * ((1 - U) * L * L) <= 2.01 * U * (N * L)) by (apply Rmult_le_compat_l; [lra|apply Rmult_le_compat_r; lra]).
      lra. }
    assert (Bq : Rabs (wi / N) <= 1.001) by (pose proof (abs_near _ _ _ _ Ey By); lra).
    assert (Eny : Rabs (val ni - y) <= 7.2 * U).
    { replace (val ni - y) with ((val ni - wi / N) + (wi / N - y)) by ring. eapply Rle_trans; [apply Rabs_triang|].
      pose proof eta_70. lra. }
    assert (Bn : Rabs (val ni) <= 1.001) by (pose proof (abs_near _ _ _ _ Eny By); lra).
    assert (Bm : Rabs (val ni * R0) <= 1.001 * R0) by (rewrite Rabs_mult, (Rabs_pos_eq R0) by exact PR; apply Rmult_le_compat_r; lra).
    destruct (mul_small ni (vw s) Fn FR) as [Fm Vm]; [fold R0; apply small_num; lra|]. fold R0 in Vm.
    pose proof (rnd_err (val ni * R0)) as Rm. rewrite u24_val, <- Vm in Rm.
    assert (Em : Rabs (val (ni * vw s)%sc - y * R0) <= 8.3 * U * R0 + eta0).
    { replace (val (ni * vw s)%sc - y * R0) with ((val (ni * vw s)%sc - val ni * R0) + (val ni - y) * R0) by ring.
      eapply Rle_trans; [apply Rabs_triang|]. rewrite (Rabs_mult (val ni - y)), (Rabs_pos_eq R0) by exact PR.
      assert (Rabs (val ni - y) * R0 <= 7.2 * U * R0) by (apply Rmult_le_compat_r; lra). lra. }
    assert (ByR : Rabs (y * R0) <= R0) by (rewrite Rabs_mult, (Rabs_pos_eq R0) by exact PR; rewrite <- (Rmult_1_l R0) at 2; apply Rmult_le_compat_r; lra).
    pose proof (abs_near _ _ _ _ Em ByR) as Bmm.
    assert (Bsum : Rabs (val si + val (ni * vw s)%sc) <= Rabs (val si) + 1.001 * R0 + eta0).
    { eapply Rle_trans; [apply Rabs_triang|]. lra. }
    destruct (add_small si (ni * vw s)%sc Fs Fm) as [F V]; [apply small_num; lra|].
    split; [exact F|]. rewrite V. pose proof (rnd_err (val si + val (ni * vw s)%sc)) as Rs. rewrite u24_val in Rs.
    replace (rnd (val si + val (ni * vw s)%sc) - (val si + y * R0)) with
      ((rnd (val si + val (ni * vw s)%sc) - (val si + val (ni * vw s)%sc)) + (val (ni * vw s)%sc - y * R0)) by ring.
    eapply Rle_trans; [apply Rabs_triang|]. lra. }
  exists (closestPointSphere GEN (realV s) (realV x)).
  assert (NZ : nonzeroS W).
  { intros (Z1 & Z2 & Z3). rewrite Z1, Z2, Z3 in LL. nra. }
  split; [apply closestPointSphere_R; [exact PR|exact NZ]|].
  assert (ER : forall f : vec4 R -> R, f = vx \/ f = vy \/ f = vz ->
    f (closestPointSphere GEN (realV s) (realV x)) = f (realV s) + f W / L * R0).
  { destruct (normalize3R GEN (vsub (realV x) (realV s))) as (X1 & X2 & X3). cbn [vx vy vz] in X1, X2, X3.
    intros f Hf. unfold closestPointSphere, vadd, vscale, vmul, map2_4, dup4.
    destruct Hf as [->|[->| ->]]; cbn [vx vy vz]; rewrite ?X1, ?X2, ?X3; reflexivity. }
  unfold lanesNear. rewrite (ER vx), (ER vy), (ER vz) by auto.
  split; [|split].
  - exact (Q _ _ _ _ M1 S1 B1 LW1 W1 EN1).
  - exact (Q _ _ _ _ M2 S2 B2 LW2 W2 EN2).
  - exact (Q _ _ _ _ M3 S3 B3 LW3 W3 EN3).
Qed.
