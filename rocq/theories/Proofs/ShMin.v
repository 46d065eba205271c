(** C136: the minimum of the lighting, over the reals. *)
From Coq Require Import ZArith Reals Bool List Lia Lra Psatz.
From Verif.Model Require Import Outcome Scalar Vec Simd Matrix Trig Numeric Sh.
From Verif.Spec Require Import IblSpec ShSpec SphereSpec ShMinSpec.
From Verif.Proofs Require Import RealLits Frustum IblProofs GainProofs ShProofs HarmonicProofs.
Import ListNotations.
Local Open Scope R_scope.

Lemma abs_le : forall x y, Rabs x <= y -> - y <= x <= y.
Proof. intros x y H. unfold Rabs in H. destruct (Rcase_abs x); lra. Qed.
(** ** The constants *)
Lemma caMin_sq : forall i, (i < 9)%nat -> 0 < nth i (caMin : list R) 0 * nth i lacks 0 /\
  Rabs (nth i caMin 0 * nth i caMin 0 * (4 * PI * nth i squaredNorms 0) - nth i lacks 0 * nth i lacks 0) <= / 200000.
Proof.
  intros i Hi. destruct pi_box as (A & B & C). unfold caMin, squaredNorms, lacks.
  do 9 (destruct i as [|i]; [cbn [nth]; lit; split; [lra|apply Rabs_le; lra]|]). lia.
Qed.
Lemma caMin_close : forall i d, (i < 9)%nat -> unit3 d ->
  Rabs (nth i (harmonics d) 0 / normOf i - nth i caMin 0 * nth i (shaderPolys d) 0) <= / 75000.
Proof.
  intros i d Hi U. destruct (caMin_sq i Hi) as [P E]. destruct pi_box as (A & _).
  rewrite lacks_ok. pose proof (polys_bound i d U) as Q. pose proof (norms_low i Hi) as N. pose proof (sqrt_low i Hi) as SL.
  assert (L : / 2 <= Rabs (nth i lacks 0)).
  { clear - Hi. unfold lacks. do 9 (destruct i as [|i]; [cbn [nth]; unfold Rabs; destruct (Rcase_abs _); lra|]). lia. }
  set (t := nth i caMin 0) in *. set (a := nth i lacks 0) in *. set (q := nth i (shaderPolys d) 0) in *.
  set (s := 4 * PI * nth i squaredNorms 0) in *. assert (S : 0 < s) by (unfold s; apply Rmult_lt_0_compat; lra).
  assert (T : 0 < Rabs t). { apply Rabs_pos_lt. intros Z. rewrite Z in P. lra. }
  assert (E' : Rabs (Rabs t * Rabs t * s - Rabs a * Rabs a) <= / 200000).
  { replace (Rabs t * Rabs t) with (t * t) by (unfold Rabs; destruct (Rcase_abs t); ring).
    replace (Rabs a * Rabs a) with (a * a) by (unfold Rabs; destruct (Rcase_abs a); ring). exact E. }
  pose proof (close_root (Rabs t) (Rabs a) s (/ 200000) S ltac:(lra) T E') as K.
  change (sqrt s) with (normOf i) in K.
  assert (K2 : / 200000 / (Rabs a * normOf i) <= / 150000).
  { unfold Rdiv. apply Rle_trans with (/ 200000 * / (3 / 4)); [|lra]. apply Rmult_le_compat_l; [lra|]. apply Rinv_le_contravar; [lra|]. nra. }
  assert (K3 : Rabs (t - a / normOf i) <= / 150000).
  { destruct (Rle_dec 0 a) as [Ha|Ha].
    - assert (0 < t) by nra. rewrite (Rabs_pos_eq t), (Rabs_pos_eq a) in K by lra. rewrite (Rabs_pos_eq a) in K2 by lra. lra.
    - assert (t < 0) by nra. rewrite (Rabs_left t), (Rabs_left a) in K by lra. rewrite (Rabs_left a) in K2 by lra.
      replace (t - a / normOf i) with (- (- t - - a / normOf i)) by (field; lra). rewrite Rabs_Ropp. lra. }
  replace (a * q / normOf i - t * q) with (- ((t - a / normOf i) * q)) by (field; lra).
  rewrite Rabs_Ropp, Rabs_mult. pose proof (Rabs_pos (t - a / normOf i)). pose proof (Rabs_pos q).
  apply Rle_trans with (/ 150000 * 2); [apply Rmult_le_compat; lra|lra].
Qed.
(** the light with the constants of the code *)
Definition codeLight (w : sh9 R) (n : vec3 R) : R :=
  ca0 * s0 w - ca2 * s1 w * y3 n + ca2 * s2 w * z3 n - ca2 * s3 w * x3 n + ca4 * s4 w * (x3 n * y3 n) - ca4 * s5 w * (y3 n * z3 n)
  + ca6 * s6 w * (3 * z3 n * z3 n - 1) - ca4 * s7 w * (x3 n * z3 n) + ca8 * s8 w * (x3 n * x3 n - y3 n * y3 n).
Lemma ca_neg : (nth 1 caMin 0 : R) = - ca2 /\ (nth 3 caMin 0 : R) = - ca2 /\ (nth 5 caMin 0 : R) = - ca4 /\ (nth 7 caMin 0 : R) = - ca4 /\ (ca8 : R) = ca4 / 2.
Proof. unfold caMin, ca2, ca4, ca8. cbn [nth]. lit. split; [|split; [|split; [|split]]]; lra. Qed.
Lemma light_close : forall w n, unit3 n -> Rabs (light w n - codeLight w n) <= total w / 75000.
Proof.
  intros w n U. destruct ca_neg as (N1 & N3 & N5 & N7 & _).
  pose proof (caMin_close 0 n ltac:(lia) U) as H0. pose proof (caMin_close 1 n ltac:(lia) U) as H1. pose proof (caMin_close 2 n ltac:(lia) U) as H2.
  pose proof (caMin_close 3 n ltac:(lia) U) as H3. pose proof (caMin_close 4 n ltac:(lia) U) as H4. pose proof (caMin_close 5 n ltac:(lia) U) as H5.
  pose proof (caMin_close 6 n ltac:(lia) U) as H6. pose proof (caMin_close 7 n ltac:(lia) U) as H7. pose proof (caMin_close 8 n ltac:(lia) U) as H8.
  rewrite N1 in H1. rewrite N3 in H3. rewrite N5 in H5. rewrite N7 in H7.
  change (nth 0 caMin 0 : R) with (ca0 : R) in H0. change (nth 2 caMin 0 : R) with (ca2 : R) in H2. change (nth 4 caMin 0 : R) with (ca4 : R) in H4.
  change (nth 6 caMin 0 : R) with (ca6 : R) in H6. change (nth 8 caMin 0 : R) with (ca8 : R) in H8.
  unfold light, total, coefficients, codeLight. cbn [map fold_right nth] in *. unfold shaderPolys in *. cbn [nth] in *.
  set (g0 := nth 0 (harmonics n) 0 / normOf 0) in *. set (g1 := nth 1 (harmonics n) 0 / normOf 1) in *. set (g2 := nth 2 (harmonics n) 0 / normOf 2) in *.
  set (g3 := nth 3 (harmonics n) 0 / normOf 3) in *. set (g4 := nth 4 (harmonics n) 0 / normOf 4) in *. set (g5 := nth 5 (harmonics n) 0 / normOf 5) in *.
  set (g6 := nth 6 (harmonics n) 0 / normOf 6) in *. set (g7 := nth 7 (harmonics n) 0 / normOf 7) in *. set (g8 := nth 8 (harmonics n) 0 / normOf 8) in *.
  clearbody g0 g1 g2 g3 g4 g5 g6 g7 g8.
  assert (P : forall s g k, Rabs (g - k) <= / 75000 -> Rabs (s * (g - k)) <= Rabs s / 75000).
  { intros s g k H. rewrite Rabs_mult. unfold Rdiv. apply Rmult_le_compat_l; [apply Rabs_pos|exact H]. }
  apply (P (s0 w)) in H0. apply (P (s1 w)) in H1. apply (P (s2 w)) in H2. apply (P (s3 w)) in H3. apply (P (s4 w)) in H4.
  apply (P (s5 w)) in H5. apply (P (s6 w)) in H6. apply (P (s7 w)) in H7. apply (P (s8 w)) in H8.
  apply abs_le in H0, H1, H2, H3, H4, H5, H6, H7, H8.
  apply Rabs_le. set (x := x3 n) in *. set (y := y3 n) in *. set (z := z3 n) in *. split; lra.
Qed.

(** ** Light whose linear part points along the z axis *)
Lemma sq1 : forall s, s <> 0 -> let g := s * (1 / sqrt (- 0 * - 0 + - 0 * - 0 + s * s)) in g * g = 1.
Proof.
  intros s H g. unfold g. replace (- 0 * - 0 + - 0 * - 0 + s * s) with (s * s) by ring.
  assert (P : 0 < s * s) by nra. pose proof (sqrt_lt_R0 _ P) as Q. pose proof (sqrt_sqrt (s * s) ltac:(lra)) as E.
  replace (s * (1 / sqrt (s * s)) * (s * (1 / sqrt (s * s)))) with (s * s / (sqrt (s * s) * sqrt (s * s))) by (field; lra). rewrite E. field. exact H.
Qed.
Lemma f0R' : (f0 : R) = 0. Proof. apply litR. Qed.
Lemma f1R' : (f1 : R) = 1. Proof. apply litR. Qed.
Lemma f2R' : (f2 : R) = 2. Proof. apply litR. Qed.
Lemma fhalfR' : (fhalf : R) = / 2. Proof. unfold fhalf. lit. lra. Qed.
Lemma axial_frame : forall w, axial w -> exists g, g * g = 1 /\ shFrame w = M3 (V3 g 0 0) (V3 0 1 0) (V3 0 0 g).
Proof.
  intros w (H1 & H3 & H2). exists (s2 w * (1 / sqrt (- 0 * - 0 + - 0 * - 0 + s2 w * s2 w))). split; [apply sq1, H2|].
  pose proof (sq1 _ H2) as G. cbv zeta in G.
  unfold shFrame, normalizep3, lengthp3, dotp3, scale3, map_3. cbn [x3 y3 z3]. rewrite H1, H3, f1R', f0R'.
  change (@sneg R ScalarR) with Ropp. change (@sadd R ScalarR) with Rplus. change (@smul R ScalarR) with Rmult. change (@sdiv R ScalarR) with Rdiv. change (@ssqrt R ScalarR) with sqrt.
  set (g := s2 w * (1 / sqrt _)) in *. clearbody g. set (i := 1 / sqrt _). clearbody i.
  unfold neg3, map_3, crossp, transposep3, rows3. cbn [x3 y3 z3 b0 b1 b2].
  change (@sneg R ScalarR) with Ropp. change (@sadd R ScalarR) with Rplus. change (@smul R ScalarR) with Rmult. change (@ssub R ScalarR) with Rminus.
  match goal with |- context [sqrt ?e] => replace e with 1 by nra end. rewrite sqrt_1.
  f_equal; f_equal; nra.
Qed.
Notation hh := (sqrtHalfF * sqrtHalfF).
Definition eps : R := 1 - 2 * hh.
Lemma eps_small : Rabs eps <= / 25000000.
Proof. unfold eps. pose proof sqrtHalf_err as H. apply abs_le in H. apply Rabs_le. lra. Qed.
Lemma axial_rotated : forall w, axial w -> exists g, g * g = 1 /\ let r := rotateSh3Bands w (shFrame w) in
  s0 r = s0 w /\ s2 r = s2 w /\ s4 r = g * (1 - eps) * s4 w /\ s5 r = g * (1 - eps) * s5 w /\ s7 r = (1 - eps) * s7 w /\
  s6 r = s6 w + 3 / (2 * sqrt3F) * eps * (s5 w + s7 w) /\ s8 r = s8 w + / 2 * eps * (s7 w - s5 w).
Proof.
  intros w A. destruct (axial_frame w A) as (g & G & E). destruct A as (H1 & H3 & H2). exists g. split; [exact G|]. intros r. unfold r. rewrite E.
  unfold rotateSh3Bands. rewrite band1_actual. cbn [s0 s1 s2 s3 s4 s5 s6 s7 s8 b0 b1 b2]. unfold inner3. cbn [x3 y3 z3]. rewrite H1, H3.
  assert (S3 : (sqrt3F : R) <> 0) by (rewrite sqrt3F_val; lra).
  unfold eps. unfold rotateBand2. set (h := sqrtHalfF). clearbody h. set (q := sqrt3F) in *. 
  unfold rotateBand2With, projectVecToSH2K, multiply5, scale3, add3, map_3, map2_3. cbn [x3 y3 z3 u0 u1 u2 u3 u4 b0 b1 b2].
  rewrite ?nR, ?n2R, ?threeR, ?f0R', ?f1R', ?f2R', ?fhalfR'.
  change (@sneg R ScalarR) with Ropp. change (@sadd R ScalarR) with Rplus. change (@smul R ScalarR) with Rmult. change (@ssub R ScalarR) with Rminus. change (@sdiv R ScalarR) with Rdiv.
  fold q. clearbody q.
  assert (GG : g = 1 \/ g = -1). { assert ((g - 1) * (g + 1) = 0) as K by (ring_simplify; lra). apply Rmult_integral in K. destruct K; [left|right]; lra. }
  destruct GG as [-> | ->]; (split; [reflexivity|]; split; [ring|]; split; [ring|]; split; [ring|]; split; [ring|]; split; [field; exact S3|field]).
Qed.

(** ** The estimate *)
From Flocq Require Import Core.Raux.
Lemma sltR : forall x y : R, slt x y = true <-> x < y.
Proof. intros x y. change (slt x y) with (Rlt_bool x y). destruct (Rlt_bool_spec x y); split; intros; try lra; discriminate. Qed.
Lemma sleR : forall x y : R, sle x y = true <-> x <= y.
Proof. intros x y. change (sle x y) with (Rle_bool x y). destruct (Rle_bool_spec x y); split; intros; try lra; discriminate. Qed.
Lemma stdminR : forall x y : R, stdmin x y = Rmin x y.
Proof.
  intros x y. unfold stdmin. destruct (slt y x) eqn:E.
  - apply sltR in E. symmetry. apply Rmin_right. apply Rlt_le. exact E.
  - unfold Rmin. destruct (Rle_dec x y); [reflexivity|]. assert (y < x) as H by lra. apply sltR in H. congruence.
Qed.
(** the value the code takes for the least of a z z + b z + c over [-1, 1] *)
Definition lowest (a b c : R) : R :=
  let zmin := - b / (2 * a) in
  if sgt a 0 && sge zmin (-1) && sle zmin 1 then a * zmin * zmin + b * zmin + c else Rmin (a + b + c) (a - b + c).
Lemma lowest_below : forall a b c z, -1 <= z <= 1 -> lowest a b c <= a * (z * z) + b * z + c.
Proof.
  intros a b c z Z. unfold lowest. cbv zeta.
  destruct (sgt a 0) eqn:A; cbn [andb].
  - apply sltR in A.
    assert (V : forall t, a * (t * t) + b * t + c = a * (t - - b / (2 * a)) * (t - - b / (2 * a)) + c - b * b / (4 * a)) by (intros t; field; lra).
    assert (S0 : forall t : R, 0 <= t * t) by (intros; nra).
    destruct (sge (- b / (2 * a)) (-1)) eqn:L; cbn [andb]; [destruct (sle (- b / (2 * a)) 1) eqn:U|].
    + rewrite V. set (v := - b / (2 * a)). replace (a * v * v + b * v + c) with (c - b * b / (4 * a)) by (unfold v; field; lra).
      pose proof (Rmult_le_pos a _ (Rlt_le _ _ A) (S0 (z - v))). lra.
    + assert (1 < - b / (2 * a)) as H. { destruct (Rlt_dec 1 (- b / (2 * a))); [assumption|]. assert (- b / (2 * a) <= 1) as K by lra. apply sleR in K. congruence. }
      assert (B : 2 * a < - b). { apply (Rmult_lt_compat_r (2 * a)) in H; [|lra]. replace (- b / (2 * a) * (2 * a)) with (- b) in H by (field; lra). lra. }
      eapply Rle_trans; [apply Rmin_l|]. assert (0 <= (1 - z) * (- b - a * (1 + z))) by (apply Rmult_le_pos; nra). nra.
    + assert (- b / (2 * a) < -1) as H. { destruct (Rlt_dec (- b / (2 * a)) (-1)); [assumption|]. assert (-1 <= - b / (2 * a)) as K by lra. apply sleR in K. unfold sge in L. congruence. }
      assert (B : - b < - (2 * a)). { apply (Rmult_lt_compat_r (2 * a)) in H; [|lra]. replace (- b / (2 * a) * (2 * a)) with (- b) in H by (field; lra). lra. }
      eapply Rle_trans; [apply Rmin_r|]. assert (0 <= (1 + z) * (b - a * (1 - z))) by (apply Rmult_le_pos; nra). nra.
  - assert (a <= 0). { destruct (Rlt_dec 0 a) as [K|]; [apply sltR in K; unfold sgt in A; congruence|lra]. }
    assert (Q : 0 <= (- a) * ((1 - z) * (1 + z))) by (apply Rmult_le_pos; [lra|apply Rmult_le_pos; lra]).
    apply Rle_trans with (a + b * z + c); [|lra].
    unfold Rmin. destruct (Rle_dec (a + b + c) (a - b + c)); [assert (0 <= (- b) * (1 - z)) by (apply Rmult_le_pos; lra)|assert (0 <= b * (1 + z)) by (apply Rmult_le_pos; lra)]; lra.
Qed.
Lemma lowest_attained : forall a b c, exists z, -1 <= z <= 1 /\ lowest a b c = a * (z * z) + b * z + c.
Proof.
  intros a b c. unfold lowest. cbv zeta. destruct (sgt a 0) eqn:A; cbn [andb].
  - destruct (sge (- b / (2 * a)) (-1)) eqn:L; cbn [andb]; [destruct (sle (- b / (2 * a)) 1) eqn:U|].
    + exists (- b / (2 * a)). apply sleR in L. apply sleR in U. split; [lra|ring].
    + unfold Rmin. destruct (Rle_dec _ _); [exists 1|exists (-1)]; split; lra.
    + unfold Rmin. destruct (Rle_dec _ _); [exists 1|exists (-1)]; split; lra.
  - unfold Rmin. destruct (Rle_dec _ _); [exists 1|exists (-1)]; split; lra.
Qed.
(** the four numbers that shmin works with *)
Definition m2Of (r : sh9 R) : R := ca8 * sqrt (s8 r * s8 r + s4 r * s4 r).
Definition aOf (r : sh9 R) : R := 3 * ca6 * s6 r + m2Of r.
Definition bOf (r : sh9 R) : R := ca2 * s2 r.
Definition cOf (r : sh9 R) : R := ca0 * s0 r - ca6 * s6 r - m2Of r.
Definition dOf (r : sh9 R) : R := ca4 * sqrt (s5 r * s5 r + s7 r * s7 r).
Lemma shmin_unfold : forall n w, let r := rotateSh3Bands w (shFrame w) in let a := aOf r in let b := bOf r in let c := cOf r in let d := dOf r in
  shmin n w = if slt (lowest a b c - / 2 * d) 0 then
      bind (newton n a b c d (- sqrtHalfF)) (fun x =>
      let '(minimum, z) := x in Ok (if sgt (Rabs z) 1 then Rmin (a + b + c) (a - b + c) else minimum, r))
    else Ok (lowest a b c - / 2 * d, r).
Proof.
  intros n w r a b c d. unfold shmin. fold r. cbv zeta. rewrite !stdminR, ?threeR, ?f0R', ?f1R', ?f2R', ?fhalfR', ?nR. reflexivity.
Qed.
Lemma dotlow : forall p q u v t, 0 <= t -> u * u + v * v <= t * t -> - (sqrt (p * p + q * q) * t) <= p * u + q * v.
Proof.
  intros p q u v t T H. assert (P : 0 <= p * p + q * q) by nra. pose proof (sqrt_pos (p * p + q * q)) as S0. pose proof (sqrt_sqrt _ P) as S1.
  set (S := sqrt (p * p + q * q)) in *. clearbody S. set (e := p * u + q * v).
  assert (E : e * e <= S * t * (S * t)).
  { apply Rle_trans with ((p * p + q * q) * (u * u + v * v)); [unfold e; pose proof (Rle_0_sqr (p * v - q * u)) as K; unfold Rsqr in K; lra|].
    replace (S * t * (S * t)) with (S * S * (t * t)) by ring. rewrite S1. apply Rmult_le_compat_l; assumption. }
  assert (ST : 0 <= S * t) by (apply Rmult_le_pos; assumption). set (k := S * t) in *. clearbody k e.
  destruct (Rle_dec (- k) e); [assumption|]. assert (k < - e) by lra. assert (k * k < - e * - e) by (apply Rmult_le_0_lt_compat; lra). lra.
Qed.
Lemma norm_lip : forall p q p' q', sqrt (p * p + q * q) <= sqrt (p' * p' + q' * q') + (Rabs (p - p') + Rabs (q - q')).
Proof.
  intros p q p' q'. assert (P : 0 <= p' * p' + q' * q') by nra. pose proof (sqrt_pos (p' * p' + q' * q')) as S0. pose proof (sqrt_sqrt _ P) as S1.
  set (S := sqrt (p' * p' + q' * q')) in *. clearbody S.
  assert (L : forall x, x * x <= S * S -> Rabs x <= S). { intros x X. apply Rabs_le. split; nra. }
  pose proof (L p' ltac:(nra)) as Lp. pose proof (L q' ltac:(nra)) as Lq.
  assert (SQ : forall x x', x * x <= (Rabs x' + Rabs (x - x')) * (Rabs x' + Rabs (x - x'))).
  { intros x x'. replace (x * x) with (Rabs x * Rabs x) by (unfold Rabs; destruct (Rcase_abs x); ring).
    assert (Rabs x <= Rabs x' + Rabs (x - x')). { replace x with (x' + (x - x')) at 1 by ring. apply Rabs_triang. } pose proof (Rabs_pos x). apply Rmult_le_compat; lra. }
  assert (AA : forall x, Rabs x * Rabs x = x * x) by (intros x; unfold Rabs; destruct (Rcase_abs x); ring).
  pose proof (SQ p p') as Hp. pose proof (SQ q q') as Hq. pose proof (AA p') as Ap. pose proof (AA q') as Aq.
  pose proof (Rabs_pos (p - p')). pose proof (Rabs_pos (q - q')).
  set (u := Rabs (p - p')) in *. set (v := Rabs (q - q')) in *. pose proof (Rabs_pos p'). pose proof (Rabs_pos q'). set (x := Rabs p') in *. set (y := Rabs q') in *. clearbody u v x y.
  rewrite <- (sqrt_square (S + (u + v))) by lra. apply sqrt_le_1_alt.
  assert (0 <= (S - x) * u) by (apply Rmult_le_pos; lra). assert (0 <= (S - y) * v) by (apply Rmult_le_pos; lra).
  assert (0 <= u * v) by (apply Rmult_le_pos; lra). assert (0 <= S * u) by (apply Rmult_le_pos; lra). assert (0 <= S * v) by (apply Rmult_le_pos; lra). lra.
Qed.
Lemma ca_pos : 0 < (ca4 : R) /\ (ca4 : R) < 11 / 10 /\ 0 < (ca6 : R) /\ (ca6 : R) < / 3.
Proof. unfold ca4, ca6. lit. split; [|split; [|split]]; lra. Qed.
Lemma light_low : forall w n, s1 w = 0 -> s3 w = 0 -> unit3 n ->
  aOf w * (z3 n * z3 n) + bOf w * z3 n + cOf w - / 2 * dOf w <= codeLight w n.
Proof.
  intros w [x y z] H1 H3 U. unfold unit3 in U. cbn [x3 y3 z3] in *. destruct ca_neg as (_ & _ & _ & _ & C8). destruct ca_pos as (C4 & _ & _).
  assert (Z : z * z <= 1) by nra.
  pose proof (dotlow (s8 w) (s4 w) (x * x - y * y) (2 * (x * y)) (1 - z * z) ltac:(lra)) as M.
  assert (M' : (x * x - y * y) * (x * x - y * y) + 2 * (x * y) * (2 * (x * y)) <= (1 - z * z) * (1 - z * z)). { replace (1 - z * z) with (x * x + y * y) by lra. apply Req_le. ring. }
  specialize (M M'). clear M'.
  pose proof (dotlow (s5 w) (s7 w) (- (y * z)) (- (x * z)) (/ 2) ltac:(lra)) as D.
  assert (D' : - (y * z) * - (y * z) + - (x * z) * - (x * z) <= / 2 * / 2).
  { replace (- (y * z) * - (y * z) + - (x * z) * - (x * z)) with ((x * x + y * y) * (z * z)) by ring. replace (x * x + y * y) with (1 - z * z) by lra.
    pose proof (Rle_0_sqr (z * z - / 2)) as K. unfold Rsqr in K. lra. }
  specialize (D D'). clear D'.
  unfold aOf, bOf, cOf, dOf, m2Of, codeLight. cbn [x3 y3 z3]. rewrite H1, H3, C8.
  apply (Rmult_le_compat_l (ca4 / 2)) in M; [|lra]. apply (Rmult_le_compat_l ca4) in D; [|lra]. lra.
Qed.
Lemma total_parts : forall w, Rabs (s4 w) + Rabs (s5 w) + Rabs (s7 w) <= total w /\ 0 <= total w.
Proof.
  intros w. unfold total, coefficients. cbn [map fold_right].
  pose proof (Rabs_pos (s0 w)). pose proof (Rabs_pos (s1 w)). pose proof (Rabs_pos (s2 w)). pose proof (Rabs_pos (s3 w)). pose proof (Rabs_pos (s4 w)).
  pose proof (Rabs_pos (s5 w)). pose proof (Rabs_pos (s6 w)). pose proof (Rabs_pos (s7 w)). pose proof (Rabs_pos (s8 w)). lra.
Qed.
(** the rotation of such a light changes the four numbers little *)
Lemma rotated_close : forall w, axial w -> let r := rotateSh3Bands w (shFrame w) in
  Rabs (s6 r - s6 w) <= total w / 25000000 /\ Rabs (m2Of r - m2Of w) <= total w / 10000000 /\ Rabs (dOf r - dOf w) <= total w / 10000000 /\
  s0 r = s0 w /\ s2 r = s2 w.
Proof.
  intros w A r. destruct (axial_rotated w A) as (g & G & E). cbv zeta in E. fold r in E. destruct E as (E0 & E2 & E4 & E5 & E7 & E6 & E8).
  pose proof eps_small as EP. destruct (total_parts w) as [T T0]. destruct ca_pos as (C4 & C4' & C6 & C6'). destruct ca_neg as (_ & _ & _ & _ & C8).
  assert (Q : 0 < 3 / (2 * sqrt3F) < 9 / 10). { rewrite sqrt3F_val. split; lra. }
  pose proof (Rabs_pos (s4 w)) as N4. pose proof (Rabs_pos (s5 w)) as N5. pose proof (Rabs_pos (s7 w)) as N7.
  assert (GA : Rabs g = 1). { assert ((g - 1) * (g + 1) = 0) as K by (ring_simplify; lra). apply Rmult_integral in K. unfold Rabs. destruct K; destruct (Rcase_abs g); lra. }
  pose proof (Rabs_pos eps) as EPp.
  assert (ET : Rabs eps * total w <= total w / 25000000). { apply Rle_trans with (/ 25000000 * total w); [apply Rmult_le_compat_r; lra|lra]. }
  assert (X7 : Rabs (s5 w + s7 w) <= total w) by (eapply Rle_trans; [apply Rabs_triang|lra]).
  assert (X8 : Rabs (s7 w - s5 w) <= total w) by (unfold Rminus; eapply Rle_trans; [apply Rabs_triang|rewrite Rabs_Ropp; lra]).
  assert (EX : forall x, Rabs x <= total w -> Rabs (eps * x) <= total w / 25000000).
  { intros x X. rewrite Rabs_mult. eapply Rle_trans; [apply Rmult_le_compat_l; [exact EPp|exact X]|exact ET]. }
  assert (SC : forall p q g', Rabs g' = 1 -> sqrt ((g' * (1 - eps) * p) * (g' * (1 - eps) * p) + ((1 - eps) * q) * ((1 - eps) * q)) = (1 - eps) * sqrt (p * p + q * q)).
  { intros p q g' G'. assert (g' * g' = 1) as GG by (unfold Rabs in G'; destruct (Rcase_abs g'); nra).
    replace ((g' * (1 - eps) * p) * (g' * (1 - eps) * p) + ((1 - eps) * q) * ((1 - eps) * q)) with ((1 - eps) * (1 - eps) * (p * p + q * q)).
    2:{ transitivity ((1 - eps) * (1 - eps) * (g' * g' * (p * p) + q * q)); [rewrite GG; ring|ring]. }
    apply abs_le in EP. rewrite sqrt_mult_alt by nra. rewrite sqrt_square by lra. reflexivity. }
  split; [|split; [|split; [|split; assumption]]].
  - rewrite E6. replace (s6 w + 3 / (2 * sqrt3F) * eps * (s5 w + s7 w) - s6 w) with (3 / (2 * sqrt3F) * (eps * (s5 w + s7 w))) by ring.
    rewrite Rabs_mult, (Rabs_pos_eq (3 / (2 * sqrt3F))) by lra. pose proof (EX _ X7) as K. pose proof (Rabs_pos (eps * (s5 w + s7 w))).
    apply Rle_trans with (1 * Rabs (eps * (s5 w + s7 w))); [apply Rmult_le_compat_r; lra|lra].
  - unfold m2Of.
    assert (D8 : Rabs (s8 r - s8 w) <= total w / 25000000).
    { rewrite E8. replace (s8 w + / 2 * eps * (s7 w - s5 w) - s8 w) with (/ 2 * (eps * (s7 w - s5 w))) by ring. rewrite Rabs_mult, (Rabs_pos_eq (/ 2)) by lra.
      pose proof (EX _ X8) as K. lra. }
    assert (D4 : Rabs (Rabs (s4 r) - Rabs (s4 w)) <= total w / 25000000).
    { rewrite E4. rewrite !Rabs_mult, GA. apply abs_le in EP. rewrite (Rabs_pos_eq (1 - eps)) by lra. replace (1 * (1 - eps) * Rabs (s4 w) - Rabs (s4 w)) with (eps * - Rabs (s4 w)) by ring.
      apply EX. rewrite Rabs_Ropp, Rabs_Rabsolu. lra. }
    assert (AA : forall x, x * x = Rabs x * Rabs x) by (intros x; unfold Rabs; destruct (Rcase_abs x); ring).
    rewrite (AA (s4 r)), (AA (s4 w)).
    pose proof (norm_lip (s8 r) (Rabs (s4 r)) (s8 w) (Rabs (s4 w))) as L1. pose proof (norm_lip (s8 w) (Rabs (s4 w)) (s8 r) (Rabs (s4 r))) as L2.
    rewrite (Rabs_minus_sym (s8 w)), (Rabs_minus_sym (Rabs (s4 w))) in L2.
    set (p := sqrt (s8 r * s8 r + Rabs (s4 r) * Rabs (s4 r))) in *. set (q := sqrt (s8 w * s8 w + Rabs (s4 w) * Rabs (s4 w))) in *.
    rewrite <- Rmult_minus_distr_l, Rabs_mult, C8, (Rabs_pos_eq (ca4 / 2)) by lra.
    assert (Rabs (p - q) <= total w / 12500000) as K by (apply Rabs_le; lra). pose proof (Rabs_pos (p - q)).
    apply Rle_trans with (1 * Rabs (p - q)); [apply Rmult_le_compat_r; lra|lra].
  - unfold dOf. rewrite E5, E7, SC by exact GA. set (q := sqrt (s5 w * s5 w + s7 w * s7 w)).
    assert (0 <= q <= total w).
    { split; [apply sqrt_pos|]. pose proof (norm_lip (s5 w) (s7 w) 0 0) as L. rewrite !Rminus_0_r in L. replace (0 * 0 + 0 * 0) with 0 in L by ring. rewrite sqrt_0 in L. fold q in L. lra. }
    replace (ca4 * ((1 - eps) * q) - ca4 * q) with (- ca4 * (eps * q)) by ring. rewrite Rabs_mult, Rabs_Ropp, (Rabs_pos_eq ca4) by lra.
    pose proof (EX q ltac:(rewrite Rabs_pos_eq; lra)) as K. pose proof (Rabs_pos (eps * q)).
    apply Rle_trans with (11 / 10 * Rabs (eps * q)); [apply Rmult_le_compat_r; lra|lra].
Qed.
Lemma estimate_low : forall w n, axial w -> unit3 n -> let r := rotateSh3Bands w (shFrame w) in
  lowest (aOf r) (bOf r) (cOf r) - / 2 * dOf r <= light w n + total w / 70000.
Proof.
  intros w n A U r. pose proof (rotated_close w A) as (H6 & HM & HD & H0 & H2). fold r in H6, HM, HD, H0, H2. cbv zeta in *.
  pose proof A as (H1 & H3 & _). pose proof (light_low w n H1 H3 U) as L. pose proof (light_close w n U) as LC. destruct (total_parts w) as [_ T0].
  assert (Z : z3 n * z3 n <= 1) by (unfold unit3 in U; nra). assert (Z' : -1 <= z3 n <= 1) by (split; nra).
  pose proof (lowest_below (aOf r) (bOf r) (cOf r) (z3 n) Z') as B. destruct ca_pos as (C4 & C4' & C6 & C6').
  assert (DD : Rabs (ca6 * (s6 r - s6 w) * (3 * (z3 n * z3 n) - 1)) <= total w / 25000000).
  { rewrite !Rabs_mult, (Rabs_pos_eq ca6) by lra. pose proof (Rabs_pos (s6 r - s6 w)). pose proof (Rabs_pos (3 * (z3 n * z3 n) - 1)).
    assert (Rabs (3 * (z3 n * z3 n) - 1) <= 2) by (apply Rabs_le; split; nra).
    apply Rle_trans with (/ 3 * (total w / 25000000) * 2); [|lra]. apply Rmult_le_compat; [apply Rmult_le_pos; lra|lra| |lra]. apply Rmult_le_compat; lra. }
  assert (DM : Rabs ((m2Of r - m2Of w) * (1 - z3 n * z3 n)) <= total w / 10000000).
  { rewrite Rabs_mult, (Rabs_pos_eq (1 - _)) by lra. apply Rle_trans with (total w / 10000000 * 1); [|lra]. apply Rmult_le_compat; [apply Rabs_pos|lra|lra|nra]. }
  apply abs_le in DD, DM, HD, LC. unfold aOf, bOf, cOf in B |- *. unfold aOf, bOf, cOf in L. rewrite H0, H2 in *. lra.
Qed.
Lemma bound_actual : forall w r w', axial w -> shmin 0 w = Ok (r, w') -> 0 <= r /\ forall n, unit3 n -> r <= light w n + total w / 70000.
Proof.
  intros w r w' A H. rewrite shmin_unfold in H. cbv zeta in H. destruct (slt _ 0) eqn:E; [discriminate|].
  inversion H; subst. split.
  - destruct (Rle_dec 0 (lowest (aOf (rotateSh3Bands w (shFrame w))) (bOf (rotateSh3Bands w (shFrame w))) (cOf (rotateSh3Bands w (shFrame w))) - / 2 * dOf (rotateSh3Bands w (shFrame w)))) as [K|K]; [exact K|].
    apply Rnot_le_lt in K. apply sltR in K. rewrite K in E. discriminate.
  - intros n U. apply estimate_low; assumption.
Qed.

(** ** Light symmetric about the z axis *)
Lemma pow_32 : forall u, 0 < u -> spow u (slit 3 (-1)) = u * sqrt u.
Proof.
  intros u U. change (spow u (slit 3 (-1))) with (powR u (slit 3 (-1))). rewrite pow_pos by exact U. replace (slit 3 (-1) : R) with (1 + / 2) by (lit; lra).
  rewrite Rpower_plus, Rpower_1, Rpower_sqrt by exact U. reflexivity.
Qed.
Lemma newton_step : forall n a b c z, a <> 0 -> z * z < 1 ->
  newton (S n) a b c 0 z = if sle (Rabs (- b / (2 * a))) 1 && sgt (Rabs (z - - b / (2 * a))) (slit 2748779 (-38)) then newton n a b c 0 (- b / (2 * a)) else Ok (a * z * z + b * z + c, - b / (2 * a)).
Proof.
  intros n a b c z A Z. cbn [newton]. rewrite f1R', f2R', threeR.
  change (@sneg R ScalarR) with Ropp. change (@sadd R ScalarR) with Rplus. change (@smul R ScalarR) with Rmult. change (@ssub R ScalarR) with Rminus. change (@sdiv R ScalarR) with Rdiv. change (@ssqrt R ScalarR) with sqrt. change (@sabs R ScalarR) with Rabs.
  assert (U : 0 < 1 - z * z) by lra. rewrite pow_32 by exact U. pose proof (sqrt_lt_R0 _ U) as Q.
  set (u := 1 - z * z) in *. set (q := sqrt u) in *.
  assert (E : (z * z - 1) * (0 - 2 * 0 * z * z + (b + 2 * a * z) * q) / (3 * 0 * z - 2 * 0 * z * z * z - 2 * a * (u * q)) = z - - b / (2 * a)).
  { replace (z * z - 1) with (- u) by (unfold u; ring). clearbody q. clear Z. clearbody u. field. split; [exact A|]. split; lra. }
  rewrite E. replace (z - (z - - b / (2 * a))) with (- b / (2 * a)) by ring. replace (a * z * z + b * z + c + 0 * z * q) with (a * z * z + b * z + c) by ring. reflexivity.
Qed.
Lemma zonal_axial : forall w, zonal w -> axial w.
Proof. intros w (H1 & H3 & _ & _ & _ & _ & H2). split; [|split]; assumption. Qed.
Lemma zonal_numbers : forall w, zonal w -> let r := rotateSh3Bands w (shFrame w) in
  aOf r = 3 * ca6 * s6 w /\ bOf r = ca2 * s2 w /\ cOf r = ca0 * s0 w - ca6 * s6 w /\ dOf r = 0.
Proof.
  intros w Z r. destruct (axial_rotated w (zonal_axial w Z)) as (g & G & E). cbv zeta in E. fold r in E. destruct Z as (_ & _ & H4 & H5 & H7 & H8 & _).
  rewrite H4, H5, H7, H8 in E. destruct E as (E0 & E2 & E4 & E5 & E7 & E6 & E8).
  unfold aOf, bOf, cOf, dOf, m2Of. rewrite E0, E2, E4, E5, E7, E6, E8.
  assert (M : (0 + / 2 * eps * (0 - 0)) * (0 + / 2 * eps * (0 - 0)) + g * (1 - eps) * 0 * (g * (1 - eps) * 0) = 0) by ring.
  assert (D : g * (1 - eps) * 0 * (g * (1 - eps) * 0) + (1 - eps) * 0 * ((1 - eps) * 0) = 0) by ring.
  rewrite M, D, sqrt_0. split; [|split; [|split]]; ring.
Qed.
Lemma zonal_light : forall w n, zonal w -> codeLight w n = 3 * ca6 * s6 w * (z3 n * z3 n) + ca2 * s2 w * z3 n + (ca0 * s0 w - ca6 * s6 w).
Proof. intros w n (H1 & H3 & H4 & H5 & H7 & H8 & _). unfold codeLight. rewrite H1, H3, H4, H5, H7, H8. ring. Qed.
Lemma ratio : 1 / 4 < ca2 / (6 * ca6) /\ ca2 / (6 * ca6) < 13 / 50.
Proof. unfold ca2, ca6. lit. split; lra. Qed.
Lemma start : / 2 < (sqrtHalfF : R) < 3 / 4.
Proof. unfold sqrtHalfF. lit. lra. Qed.
Lemma tolerance : 0 < (slit 2748779 (-38) : R) < / 90000.
Proof. lit. lra. Qed.
Lemma vertex_abs : forall s t, s <> 0 -> Rabs (- (ca2 * t) / (2 * (3 * ca6 * s))) = ca2 / (6 * ca6) * (Rabs t / Rabs s).
Proof.
  intros s t S. destruct ca_pos as (_ & _ & C6 & _). assert (C2 : 0 < (ca2 : R)) by (unfold ca2; lit; lra).
  replace (- (ca2 * t) / (2 * (3 * ca6 * s))) with (- (ca2 / (6 * ca6) * (t / s))) by (field; split; [exact S|lra]).
  assert (D : Rabs (t / s) = Rabs t / Rabs s) by (unfold Rdiv; rewrite Rabs_mult, Rabs_inv; reflexivity).
  rewrite Rabs_Ropp, Rabs_mult, D. rewrite (Rabs_pos_eq (ca2 / (6 * ca6))); [reflexivity|].
  pose proof ratio. lra.
Qed.
Lemma newton_near : forall n a b c, a <> 0 -> Rabs (- b / (2 * a)) < 1 ->
  exists r, newton (S (S n)) a b c 0 (- sqrtHalfF) = Ok (r, - b / (2 * a)) /\ Rabs (r - (a * (- b / (2 * a)) * (- b / (2 * a)) + b * (- b / (2 * a)) + c)) <= Rabs a / 1000000000.
Proof.
  intros n a b c A V. destruct start as [S1 S2]. destruct tolerance as [T1 T2].
  rewrite newton_step by (try exact A; nra). set (v := - b / (2 * a)) in *.
  replace (sle (Rabs v) 1) with true by (symmetry; apply sleR; lra). cbn [andb]. set (z := - sqrtHalfF) in *.
  assert (B : b = - 2 * a * v) by (unfold v; field; exact A).
  destruct (sgt (Rabs (z - v)) (slit 2748779 (-38))) eqn:E.
  - rewrite newton_step; [|exact A|apply Rabs_def2 in V; nra]. fold v. replace (sgt (Rabs (v - v)) (slit 2748779 (-38))) with false.
    2:{ rewrite Rminus_diag_eq by reflexivity. rewrite Rabs_R0. symmetry. unfold sgt. destruct (slt _ 0) eqn:K; [|reflexivity]. apply sltR in K. lra. }
    rewrite Bool.andb_false_r. exists (a * v * v + b * v + c). split; [reflexivity|]. rewrite Rminus_diag_eq by reflexivity. rewrite Rabs_R0. pose proof (Rabs_pos a). lra.
  - exists (a * z * z + b * z + c). split; [reflexivity|].
    replace (a * z * z + b * z + c - (a * v * v + b * v + c)) with (a * ((z - v) * (z - v))) by (rewrite B; ring).
    assert (K : Rabs (z - v) <= / 90000). { destruct (Rle_dec (Rabs (z - v)) (/ 90000)) as [K|K]; [exact K|]. assert (slit 2748779 (-38) < Rabs (z - v)) as K' by lra. apply sltR in K'. unfold sgt in E. congruence. }
    rewrite !Rabs_mult. pose proof (Rabs_pos (z - v)). apply Rle_trans with (Rabs a * (/ 90000 * / 90000)); [|pose proof (Rabs_pos a); lra].
    apply Rmult_le_compat_l; [apply Rabs_pos|]. apply Rmult_le_compat; lra.
Qed.
Lemma zonal_shmin : forall n w, zonal w -> gentle w \/ bowl w -> exists r w', shmin (S (S n)) w = Ok (r, w') /\
  Rabs (r - lowest (3 * ca6 * s6 w) (ca2 * s2 w) (ca0 * s0 w - ca6 * s6 w)) <= total w / 1000000000.
Proof.
  intros n w Z G. rewrite shmin_unfold. cbv zeta. destruct (zonal_numbers w Z) as (-> & -> & -> & ->).
  rewrite Rmult_0_r, Rminus_0_r. set (a := 3 * ca6 * s6 w). set (b := ca2 * s2 w). set (c := ca0 * s0 w - ca6 * s6 w).
  destruct ca_pos as (_ & _ & C6 & C6'). pose proof ratio as [R1 R2]. destruct start as [S1 S2].
  assert (T0 : Rabs (s6 w) <= total w).
  { unfold total, coefficients. cbn [map fold_right]. pose proof (Rabs_pos (s0 w)). pose proof (Rabs_pos (s1 w)). pose proof (Rabs_pos (s2 w)). pose proof (Rabs_pos (s3 w)). pose proof (Rabs_pos (s4 w)).
    pose proof (Rabs_pos (s5 w)). pose proof (Rabs_pos (s7 w)). pose proof (Rabs_pos (s8 w)). lra. }
  pose proof (Rabs_pos (s6 w)) as P6.
  assert (S6 : s6 w <> 0) by (destruct G as [[? ?]|[? ?]]; lra).
  assert (A : a <> 0). { unfold a. intros K. apply Rmult_integral in K. destruct K; lra. }
  destruct (slt (lowest a b c) 0) eqn:E.
  2:{ eexists. eexists. split; [reflexivity|]. rewrite Rminus_diag_eq by reflexivity. rewrite Rabs_R0. lra. }
  pose proof (vertex_abs (s6 w) (s2 w) S6) as V. fold a b in V.
  assert (PA : 0 < Rabs (s6 w)) by (apply Rabs_pos_lt; exact S6).
  destruct G as [[_ G]|[G1 G2]].
  - assert (W : 1 < Rabs (- b / (2 * a))).
    { rewrite V. assert (4 <= Rabs (s2 w) / Rabs (s6 w)). { apply (Rmult_le_reg_r (Rabs (s6 w))); [exact PA|]. unfold Rdiv. rewrite Rmult_assoc, Rinv_l by lra. lra. } nra. }
    rewrite newton_step by (try exact A; nra). replace (sle (Rabs (- b / (2 * a))) 1) with false.
    2:{ symmetry. destruct (sle _ 1) eqn:K; [|reflexivity]. apply sleR in K. lra. }
    cbn [andb bind]. replace (sgt (Rabs (- b / (2 * a))) 1) with true by (symmetry; apply sltR; exact W).
    eexists. eexists. split; [reflexivity|].
    replace (lowest a b c) with (Rmin (a + b + c) (a - b + c)); [rewrite Rminus_diag_eq by reflexivity; rewrite Rabs_R0; lra|].
    unfold lowest. cbv zeta. destruct (sgt a 0 && sge (- b / (2 * a)) (-1) && sle (- b / (2 * a)) 1)%bool eqn:K; [|reflexivity].
    apply andb_prop in K. destruct K as [K K2]. apply andb_prop in K. destruct K as [_ K1]. apply sleR in K1. apply sleR in K2.
    assert (Rabs (- b / (2 * a)) <= 1) by (apply Rabs_le; lra). lra.
  - assert (W : Rabs (- b / (2 * a)) < 1).
    { rewrite V. rewrite (Rabs_pos_eq (s6 w)) by lra. assert (Rabs (s2 w) / s6 w <= 19 / 5). { apply (Rmult_le_reg_r (s6 w)); [exact G1|]. unfold Rdiv at 1. rewrite Rmult_assoc, Rinv_l by lra. lra. }
      assert (0 <= Rabs (s2 w) / s6 w). { unfold Rdiv. apply Rmult_le_pos; [apply Rabs_pos|]. apply Rlt_le, Rinv_0_lt_compat, G1. } nra. }
    destruct (newton_near n a b c A W) as (r & -> & N). cbn [bind]. replace (sgt (Rabs (- b / (2 * a))) 1) with false.
    2:{ symmetry. unfold sgt. destruct (slt 1 _) eqn:K; [|reflexivity]. apply sltR in K. lra. }
    eexists. eexists. split; [reflexivity|].
    assert (A0 : 0 < a) by (unfold a; apply Rmult_lt_0_compat; lra). apply Rabs_def2 in W.
    replace (lowest a b c) with (a * (- b / (2 * a)) * (- b / (2 * a)) + b * (- b / (2 * a)) + c).
    2:{ unfold lowest. cbv zeta. replace (sgt a 0) with true by (symmetry; apply sltR; exact A0).
        replace (sge (- b / (2 * a)) (-1)) with true by (symmetry; apply sleR; lra). replace (sle (- b / (2 * a)) 1) with true by (symmetry; apply sleR; lra). reflexivity. }
    eapply Rle_trans; [exact N|]. rewrite Rabs_pos_eq by lra. rewrite Rabs_pos_eq in T0 by lra. unfold a.
    assert (3 * ca6 * s6 w <= 1 * s6 w) by (apply Rmult_le_compat_r; lra). lra.
Qed.
Lemma zonal_actual : forall n w, zonal w -> gentle w \/ bowl w -> exists r w', shmin (S (S n)) w = Ok (r, w') /\
  (forall d, unit3 d -> r <= light w d + total w / 70000) /\ exists d, unit3 d /\ light w d <= r + total w / 70000.
Proof.
  intros n w Z G. destruct (zonal_shmin n w Z G) as (r & w' & E & C). exists r, w'. split; [exact E|]. apply abs_le in C. destruct (total_parts w) as [_ T]. split.
  - intros d U. pose proof (light_close w d U) as L. apply abs_le in L. rewrite (zonal_light w d Z) in L.
    assert (D : z3 d * z3 d <= 1) by (unfold unit3 in U; nra).
    pose proof (lowest_below (3 * ca6 * s6 w) (ca2 * s2 w) (ca0 * s0 w - ca6 * s6 w) (z3 d) ltac:(split; nra)). lra.
  - destruct (lowest_attained (3 * ca6 * s6 w) (ca2 * s2 w) (ca0 * s0 w - ca6 * s6 w)) as (z & B & V).
    assert (P : 0 <= 1 - z * z) by nra. assert (U : unit3 (V3 (sqrt (1 - z * z)) 0 z)). { unfold unit3. cbn [x3 y3 z3]. rewrite sqrt_sqrt by exact P. ring. }
    exists (V3 (sqrt (1 - z * z)) 0 z). split; [exact U|]. pose proof (light_close w _ U) as L. apply abs_le in L. rewrite (zonal_light w _ Z) in L. cbn [z3] in L. lra.
Qed.

(** ** Two lights that the search gets wrong *)
Lemma side_frame : shFrame sideLight = M3 (V3 0 0 (-1)) (V3 0 1 0) (V3 1 0 0).
Proof.
  unfold sideLight, shFrame, normalizep3, lengthp3, dotp3, scale3, map_3. cbn [x3 y3 z3 s1 s2 s3]. rewrite f1R', f0R'.
  change (@sneg R ScalarR) with Ropp. change (@sadd R ScalarR) with Rplus. change (@smul R ScalarR) with Rmult. change (@sdiv R ScalarR) with Rdiv. change (@ssqrt R ScalarR) with sqrt.
  match goal with |- context [sqrt ?e] => replace e with 1 by ring end. rewrite sqrt_1.
  unfold neg3, map_3, crossp, transposep3, rows3. cbn [x3 y3 z3 b0 b1 b2].
  change (@sneg R ScalarR) with Ropp. change (@sadd R ScalarR) with Rplus. change (@smul R ScalarR) with Rmult. change (@ssub R ScalarR) with Rminus.
  match goal with |- context [sqrt ?e] => replace e with 1 by field end. rewrite sqrt_1.
  f_equal; f_equal; field.
Qed.
Lemma side_rotated : let r := rotateSh3Bands sideLight (shFrame sideLight) in
  s0 r = 1 /\ s2 r = 0 /\ s4 r = 0 /\ s5 r = 0 /\ s6 r = 0 /\ s7 r = 0 /\ s8 r = 0.
Proof.
  rewrite side_frame. unfold sideLight, rotateSh3Bands. rewrite band1_actual. cbn [s0 s1 s2 s3 s4 s5 s6 s7 s8 b0 b1 b2]. unfold inner3. cbn [x3 y3 z3].
  assert (B : forall m, rotateBand2 (V5 0 0 0 0 0 : vec5 R) m = V5 0 0 0 0 0).
  { intros m. unfold rotateBand2, rotateBand2With. cbv zeta. 
    generalize (projectVecToSH2K (b2 m)) (projectVecToSH2K (scale3 (add3 (b0 m) (b1 m)) sqrtHalfF)) (projectVecToSH2K (scale3 (add3 (b0 m) (b2 m)) sqrtHalfF)) (projectVecToSH2K (scale3 (add3 (b1 m) (b2 m)) sqrtHalfF)) (projectVecToSH2K (b0 m)).
    assert (M : forall a b c d e : vec5 R, multiply5 a b c d e (V5 0 0 0 0 0) = V5 0 0 0 0 0).
    { intros a b c d e. unfold multiply5. cbn [u0 u1 u2 u3 u4]. change (@sadd R ScalarR) with Rplus. change (@smul R ScalarR) with Rmult. f_equal; ring. }
    intros. rewrite M. apply M. }
  rewrite B. cbn [u0 u1 u2 u3 u4]. split; [reflexivity|]. split; [ring|]. repeat split; reflexivity.
Qed.
Lemma lowest_flat : forall c, lowest 0 0 c = c.
Proof.
  intros c. unfold lowest. cbv zeta. replace (sgt (0 : R) 0) with false. 2:{ symmetry. unfold sgt. destruct (slt 0 0) eqn:K; [|reflexivity]. apply sltR in K. lra. }
  cbn [andb]. rewrite !Rplus_0_l, Rminus_0_r, Rplus_0_l. unfold Rmin. destruct (Rle_dec c c); reflexivity.
Qed.
Lemma missed : forall n, exists r w', shmin n sideLight = Ok (r, w') /\ / 4 < r /\ unit3 (V3 1 0 0) /\ light sideLight (V3 1 0 0) < - / 5.
Proof.
  intros n. rewrite shmin_unfold. cbv zeta. destruct side_rotated as (E0 & E2 & E4 & E5 & E6 & E7 & E8).
  set (r := rotateSh3Bands sideLight (shFrame sideLight)) in *. clearbody r. unfold aOf, bOf, cOf, dOf, m2Of. rewrite E0, E2, E4, E5, E6, E7, E8.
  replace (0 * 0 + 0 * 0) with 0 by ring. rewrite sqrt_0.
  replace (3 * ca6 * 0 + ca8 * 0) with 0 by ring. replace (ca2 * 0) with 0 by ring. replace (ca0 * 1 - ca6 * 0 - ca8 * 0) with (ca0 : R) by ring. replace (/ 2 * (ca4 * 0)) with 0 by ring. rewrite lowest_flat.
  assert (C : / 4 < (ca0 : R)) by (unfold ca0; lit; lra).
  replace (slt (ca0 - 0) 0) with false. 2:{ symmetry. destruct (slt _ 0) eqn:K; [|reflexivity]. apply sltR in K. lra. }
  assert (U : unit3 (V3 1 0 0)) by (unfold unit3; cbn [x3 y3 z3]; ring).
  exists (ca0 - 0), r. split; [reflexivity|]. split; [lra|]. split; [exact U|].
  pose proof (light_close sideLight _ U) as L. apply abs_le in L. unfold codeLight, sideLight, total, coefficients in L. cbn [s0 s1 s2 s3 s4 s5 s6 s7 s8 x3 y3 z3 map fold_right] in L.
  fold sideLight in L. rewrite Rabs_R0, Rabs_R1 in L. assert (D : (ca0 : R) - ca2 < - 202 / 1000) by (unfold ca0, ca2; lit; lra). lra.
Qed.
Lemma concave : forall n, exists r w', shmin (S (S n)) domeLight = Ok (r, w') /\ / 2 < r /\ unit3 (V3 0 0 (-1)) /\ light domeLight (V3 0 0 (-1)) < - / 2.
Proof.
  intros n. assert (Z : zonal domeLight) by (unfold zonal, domeLight; cbn [s1 s2 s3 s4 s5 s7 s8]; repeat split; lra).
  rewrite shmin_unfold. cbv zeta. destruct (zonal_numbers domeLight Z) as (-> & -> & -> & ->). unfold domeLight at 1 2 3 4 5 6 7 8 9 10 11 12 13 14 15 16. cbn [s0 s2 s6].
  set (a := 3 * ca6 * -1). set (b := ca2 * / 2). set (c := ca0 * 1 - ca6 * -1).
  assert (BA : -95 / 100 < a < -94 / 100) by (unfold a, ca6; lit; lra). assert (BB : 24 / 100 < b < 25 / 100) by (unfold b, ca2; lit; lra). assert (BC : 59 / 100 < c < 6 / 10) by (unfold c, ca0, ca6; lit; lra).
  assert (A : a <> 0) by lra.
  assert (W : 0 < - b / (2 * a) < 1 / 7).
  { replace (- b / (2 * a)) with (b / (2 * - a)) by (field; lra). split; [unfold Rdiv; apply Rmult_lt_0_compat; [lra|apply Rinv_0_lt_compat; lra]|].
    apply (Rmult_lt_reg_r (2 * - a)); [lra|]. unfold Rdiv. rewrite Rmult_assoc, Rinv_l by lra. lra. }
  assert (LO : lowest a b c < 0). { pose proof (lowest_below a b c (-1) ltac:(lra)). lra. }
  apply sltR in LO. rewrite Rmult_0_r, Rminus_0_r, LO.
  assert (WA : Rabs (- b / (2 * a)) < 1) by (rewrite Rabs_pos_eq; lra).
  destruct (newton_near n a b c A WA) as (r & -> & N). cbn [bind]. replace (sgt (Rabs (- b / (2 * a))) 1) with false.
  2:{ symmetry. unfold sgt. destruct (slt 1 _) eqn:K; [|reflexivity]. apply sltR in K. lra. }
  eexists. eexists. split; [reflexivity|]. split.
  - apply abs_le in N. rewrite Rabs_left in N by lra. set (v := - b / (2 * a)) in *. assert (B : b = - 2 * a * v) by (unfold v; field; exact A).
    replace (a * v * v + b * v + c) with (- a * (v * v) + c) in N by (rewrite B; ring). nra.
  - assert (U : unit3 (V3 0 0 (-1))) by (unfold unit3; cbn [x3 y3 z3]; ring). split; [exact U|].
    pose proof (light_close domeLight _ U) as L. apply abs_le in L. rewrite (zonal_light domeLight _ Z) in L. unfold total, coefficients, domeLight in L. cbn [s0 s1 s2 s3 s4 s5 s6 s7 s8 x3 y3 z3 map fold_right] in L.
    fold domeLight in L. fold a b c in L. rewrite Rabs_R0, Rabs_R1, (Rabs_pos_eq (/ 2)), (Rabs_left (-1)) in L by lra. lra.
Qed.
(** a light for which the estimate is enough *)
Lemma bound_case : exists r w', axial (SH 10 0 1 0 0 1 0 0 0) /\ shmin 0 (SH 10 0 1 0 0 1 0 0 0 : sh9 R) = Ok (r, w').
Proof.
  assert (A : axial (SH 10 0 1 0 0 1 0 0 0)) by (unfold axial; cbn [s1 s2 s3]; repeat split; lra).
  pose proof (rotated_close _ A) as (H6 & HM & HD & H0 & H2). cbv zeta in *.
  rewrite shmin_unfold. cbv zeta. set (r := rotateSh3Bands _ _) in *. clearbody r.
  assert (L : 0 < lowest (aOf r) (bOf r) (cOf r) - / 2 * dOf r).
  { destruct (lowest_attained (aOf r) (bOf r) (cOf r)) as (z & B & ->). apply abs_le in H6, HM, HD.
    unfold aOf, bOf, cOf. rewrite H0, H2. set (m := m2Of r) in *. set (d := dOf r) in *. set (q := s6 r) in *. clearbody m d q.
    unfold m2Of, dOf, total, coefficients in *. cbn [s0 s1 s2 s3 s4 s5 s6 s7 s8 map fold_right] in *.
    replace (0 * 0 + 0 * 0) with 0 in * by ring. replace (1 * 1 + 0 * 0) with 1 in * by ring. rewrite sqrt_0, sqrt_1, !Rabs_R0, !Rabs_R1, (Rabs_pos_eq 10) in * by lra.
    assert (C0 : 28 / 100 < (ca0 : R)) by (unfold ca0; lit; lra). assert (C2 : 0 < (ca2 : R) < / 2) by (unfold ca2; lit; lra). destruct ca_pos as (C4 & C4' & C6 & C6').
    assert (Z : 0 <= z * z <= 1) by nra.
    assert (PR : forall x y e k, - e <= x <= e -> - k <= y <= k -> - (e * k) <= x * y <= e * k).
    { intros x y e k X Y. apply abs_le. rewrite Rabs_mult. apply Rmult_le_compat; [apply Rabs_pos|apply Rabs_pos|apply Rabs_le; lra|apply Rabs_le; lra]. }
    pose proof (PR m (1 - z * z) (/ 500000) 1 ltac:(lra) ltac:(lra)) as M0.
    assert (B6 : -1 <= (ca6 : R) <= 1) by lra. assert (B2 : - / 2 <= (ca2 : R) <= / 2) by lra.
    pose proof (PR _ q 1 (/ 500000) B6 ltac:(lra)) as Q0.
    assert (Q2 : - / 500000 <= ca6 * q <= / 500000) by lra. pose proof (PR _ (3 * (z * z) - 1) (/ 500000) 2 Q2 ltac:(lra)) as Q1.
    pose proof (PR _ z (/ 2) 1 B2 ltac:(lra)) as Z2. lra. }
  replace (slt (lowest (aOf r) (bOf r) (cOf r) - / 2 * dOf r) 0) with false.
  2:{ symmetry. destruct (slt _ 0) eqn:K; [|reflexivity]. apply sltR in K. lra. }
  eexists. eexists. split; [exact A|reflexivity].
Qed.
