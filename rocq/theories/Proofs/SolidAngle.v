(** Texel solid angles: positive, and 4 pi in total. *)
From Coq Require Import ZArith Reals Bool List Lia Lra Psatz.
From Coquelicot Require Import Coquelicot.
From Verif.Model Require Import Outcome Scalar Vec Simd Trig Numeric Ibl.
From Verif.Spec Require Import IblSpec SphereSpec.
From Verif.Proofs Require Import RealLits Frustum IblProofs.
Local Open Scope R_scope.

Lemma areaR : forall x y, sphereQuadrantArea x y = atan (x * y / sqrt (x * x + y * y + 1)).
Proof.
  intros x y. unfold sphereQuadrantArea, lengthp3, dotp3. rewrite f1R. cbn [x3 y3 z3 sadd smul ssqrt ScalarR tatan2 TrigR].
  unfold Ratan2. replace (x * x + y * y + 1 * 1) with (x * x + y * y + 1) by ring.
  destruct (Rlt_dec 0 (sqrt (x * x + y * y + 1))) as [_|N]; [reflexivity|]. exfalso. apply N, sqrt_lt_R0. nra.
Qed.
Definition slope (y x : R) : R := y / ((1 + x * x) * sqrt (x * x + y * y + 1)).
Lemma area_derive : forall x y, is_derive (fun x => sphereQuadrantArea x y) x (slope y x).
Proof.
  intros x y. apply is_derive_ext with (fun x => atan (x * y / sqrt (x * x + y * y + 1))).
  { intros t. symmetry. apply areaR. }
  assert (Q : 0 < x * x + y * y + 1) by nra.
  pose proof (sqrt_lt_R0 _ Q) as L.
  evar_last.
  - apply (is_derive_comp atan (fun x => x * y / sqrt (x * x + y * y + 1))).
    + apply is_derive_Reals. apply derivable_pt_lim_atan.
    + auto_derive; [split; [exact Q|split; [lra|trivial]]|reflexivity].
  - unfold slope. set (s := sqrt (x * x + y * y + 1)) in *.
    assert (E : s * s = x * x + y * y + 1) by (apply sqrt_sqrt; lra).
    cbn [scal plus mult AbsRing.sort]. unfold scal, mult; cbn.
    unfold Rsqr.
    replace (1 * y * / s + x * y * (- ((1 * x + x * 1) * / (2 * s)) * / (s * s))) with (y * (s * s - x * x) / (s * s * s)) by (field; lra).
    replace (1 + x * y / s * (x * y / s * 1)) with ((s * s + x * x * (y * y)) / (s * s)) by (field; lra).
    rewrite E. replace (x * x + y * y + 1 + x * x * (y * y)) with ((1 + x * x) * (1 + y * y)) by ring.
    replace (x * x + y * y + 1 - x * x) with (1 + y * y) by ring. rewrite <- E.
    field. repeat split; nra.
Qed.

(** y / sqrt (c + y^2) increases with y *)
Lemma ratio_mono : forall c y y', 0 < c -> y < y' -> y / sqrt (c + y * y) < y' / sqrt (c + y' * y').
Proof.
  intros c y y' Hc H.
  assert (P : forall t, 0 < sqrt (c + t * t)) by (intros t; apply sqrt_lt_R0; nra).
  pose proof (P y) as Py. pose proof (P y') as Py'.
  set (a := sqrt (c + y * y)) in *. set (b := sqrt (c + y' * y')) in *.
  assert (A : a * a = c + y * y) by (apply sqrt_sqrt; nra).
  assert (B : b * b = c + y' * y') by (apply sqrt_sqrt; nra).
  assert (G : y * b < y' * a).
  { destruct (Rle_dec y 0) as [Ny|Ny]; destruct (Rle_dec y' 0) as [Ny'|Ny'].
    - (* both nonpositive: squares *)
      assert (K : (- y') * a < (- y) * b); [|lra].
      apply Rsqr_incrst_0; [unfold Rsqr|nra|nra].
      replace (- y' * a * (- y' * a)) with (y' * y' * (a * a)) by ring.
      replace (- y * b * (- y * b)) with (y * y * (b * b)) by ring. rewrite A, B.
      assert (y' * y' < y * y) by nra. nra.
    - assert (y * b <= 0) by nra. assert (0 < y' * a) by nra. lra.
    - lra.
    - apply Rsqr_incrst_0; [unfold Rsqr|nra|nra].
      replace (y * b * (y * b)) with (y * y * (b * b)) by ring.
      replace (y' * a * (y' * a)) with (y' * y' * (a * a)) by ring. rewrite A, B.
      assert (y * y < y' * y') by nra. nra. }
  apply Rmult_lt_reg_r with (a * b); [nra|].
  replace (y / a * (a * b)) with (y * b) by (field; lra). replace (y' / b * (a * b)) with (y' * a) by (field; lra). exact G.
Qed.
Lemma slope_mono : forall x y y', y < y' -> slope y x < slope y' x.
Proof.
  intros x y y' H. unfold slope.
  pose proof (ratio_mono (1 + x * x) y y' ltac:(nra) H) as R.
  replace (x * x + y * y + 1) with (1 + x * x + y * y) by ring. replace (x * x + y' * y' + 1) with (1 + x * x + y' * y') by ring.
  assert (P : forall t, 0 < sqrt (1 + x * x + t * t)) by (intros t; apply sqrt_lt_R0; nra).
  pose proof (P y). pose proof (P y').
  replace (y / ((1 + x * x) * sqrt (1 + x * x + y * y))) with (/ (1 + x * x) * (y / sqrt (1 + x * x + y * y))) by (field; split; nra).
  replace (y' / ((1 + x * x) * sqrt (1 + x * x + y' * y'))) with (/ (1 + x * x) * (y' / sqrt (1 + x * x + y' * y'))) by (field; split; nra).
  apply Rmult_lt_compat_l; [apply Rinv_0_lt_compat; nra|exact R].
Qed.
Lemma rectangle_positive : forall x0 x1 y0 y1, x0 < x1 -> y0 < y1 ->
  0 < sphereQuadrantArea x0 y0 - sphereQuadrantArea x0 y1 - sphereQuadrantArea x1 y0 + sphereQuadrantArea x1 y1.
Proof.
  intros x0 x1 y0 y1 Hx Hy.
  destruct (MVT_gen (fun x => sphereQuadrantArea x y1 - sphereQuadrantArea x y0) x0 x1 (fun x => slope y1 x - slope y0 x)) as (c & _ & E).
  - intros x _. apply (is_derive_minus (fun x => sphereQuadrantArea x y1) (fun x => sphereQuadrantArea x y0)); apply area_derive.
  - intros x _. apply continuity_pt_filterlim. apply (ex_derive_continuous (fun x => sphereQuadrantArea x y1 - sphereQuadrantArea x y0)).
    exists (slope y1 x - slope y0 x).
    apply (is_derive_minus (fun x => sphereQuadrantArea x y1) (fun x => sphereQuadrantArea x y0)); apply area_derive.
  - cbv beta in E. pose proof (slope_mono c y0 y1 Hy). nra.
Qed.

(** ** Texels *)
Definition edge (n c : Z) : R := 1 - 2 * (IZR c / IZR n).
Lemma texelR : forall n cx cy, (0 < n)%Z ->
  calcSolidAngle (coordsToST cx cy (1 / IZR n)) (1 / IZR n) =
  sphereQuadrantArea (edge n (cx + 1)) (edge n (cy + 1)) - sphereQuadrantArea (edge n (cx + 1)) (edge n cy)
  - sphereQuadrantArea (edge n cx) (edge n (cy + 1)) + sphereQuadrantArea (edge n cx) (edge n cy).
Proof.
  intros n cx cy Hn. unfold calcSolidAngle, coordsToST. rewrite !stR by exact Hn. cbn [x2 y2 sadd ssub ScalarR].
  assert (0 < IZR n) by (apply IZR_lt; lia).
  assert (A : forall c, 1 - 2 * centre n c - 1 / IZR n = edge n (c + 1)).
  { intros c. unfold centre, edge. rewrite plus_IZR. field. lra. }
  assert (B : forall c, 1 - 2 * centre n c + 1 / IZR n = edge n c).
  { intros c. unfold centre, edge. field. lra. }
  rewrite !A, !B. reflexivity.
Qed.
Lemma edge_step : forall n c, (0 < n)%Z -> edge n (c + 1) < edge n c.
Proof.
  intros n c Hn. unfold edge. rewrite plus_IZR. assert (0 < / IZR n) by (apply Rinv_0_lt_compat, IZR_lt; lia). unfold Rdiv. nra.
Qed.
Lemma texel_positive : forall n cx cy, (0 < n)%Z -> 0 < calcSolidAngle (coordsToST cx cy (1 / IZR n)) (1 / IZR n).
Proof. intros n cx cy Hn. rewrite texelR by exact Hn. apply rectangle_positive; apply edge_step, Hn. Qed.

Lemma sumN_ext : forall n f g, (forall i, (i < n)%nat -> f i = g i) -> sumN n f = sumN n g.
Proof. induction n as [|n IH]; intros f g H; cbn; [reflexivity|]. rewrite (IH f g); [rewrite H; [reflexivity|lia]|intros; apply H; lia]. Qed.
Lemma telescope : forall n (h : nat -> R), sumN n (fun i => h i - h (S i)) = h O - h n.
Proof. induction n as [|n IH]; intros h; cbn; [lra|]. rewrite IH. lra. Qed.
Lemma face_sum : forall n (A : R -> R -> R) (e : nat -> R),
  sumN n (fun i => sumN n (fun j => A (e (S i)) (e (S j)) - A (e (S i)) (e j) - A (e i) (e (S j)) + A (e i) (e j)))
  = A (e n) (e n) - A (e n) (e O) - A (e O) (e n) + A (e O) (e O).
Proof.
  intros n A e.
  rewrite (sumN_ext n _ (fun i => (A (e i) (e O) - A (e i) (e n)) - (A (e (S i)) (e O) - A (e (S i)) (e n)))).
  - rewrite (telescope n (fun i => A (e i) (e O) - A (e i) (e n))). lra.
  - intros i _. rewrite (sumN_ext n _ (fun j => (A (e i) (e j) - A (e (S i)) (e j)) - (A (e i) (e (S j)) - A (e (S i)) (e (S j))))).
    + rewrite (telescope n (fun j => A (e i) (e j) - A (e (S i)) (e j))). lra.
    + intros j _. lra.
Qed.
Lemma corner : sphereQuadrantArea 1 1 = PI / 6 /\ sphereQuadrantArea 1 (-1) = - (PI / 6) /\
  sphereQuadrantArea (-1) 1 = - (PI / 6) /\ sphereQuadrantArea (-1) (-1) = PI / 6.
Proof.
  assert (E : atan (1 / sqrt 3) = PI / 6).
  { rewrite <- tan_PI6. apply atan_tan. pose proof PI_RGT_0. lra. }
  rewrite !areaR.
  replace (1 * 1 + 1 * 1 + 1) with 3 by ring. replace (1 * 1 + -1 * -1 + 1) with 3 by ring.
  replace (-1 * -1 + 1 * 1 + 1) with 3 by ring. replace (-1 * -1 + -1 * -1 + 1) with 3 by ring.
  assert (0 < sqrt 3) by (apply sqrt_lt_R0; lra).
  replace (1 * 1 / sqrt 3) with (1 / sqrt 3) by (field; lra). replace (-1 * -1 / sqrt 3) with (1 / sqrt 3) by (field; lra).
  replace (1 * -1 / sqrt 3) with (- (1 / sqrt 3)) by (field; lra). replace (-1 * 1 / sqrt 3) with (- (1 / sqrt 3)) by (field; lra).
  rewrite !atan_opp, E. auto.
Qed.
Lemma face_total : forall n : nat, (0 < n)%nat -> let N := Z.of_nat n in
  sumN n (fun i => sumN n (fun j => calcSolidAngle (coordsToST (Z.of_nat i) (Z.of_nat j) (1 / IZR N)) (1 / IZR N))) = 2 * PI / 3.
Proof.
  intros n Hn N.
  assert (HN : (0 < N)%Z) by (unfold N; lia).
  rewrite (sumN_ext n _ (fun i => sumN n (fun j =>
    sphereQuadrantArea (edge N (Z.of_nat (S i))) (edge N (Z.of_nat (S j))) - sphereQuadrantArea (edge N (Z.of_nat (S i))) (edge N (Z.of_nat j))
    - sphereQuadrantArea (edge N (Z.of_nat i)) (edge N (Z.of_nat (S j))) + sphereQuadrantArea (edge N (Z.of_nat i)) (edge N (Z.of_nat j))))).
  - rewrite (face_sum n sphereQuadrantArea (fun i => edge N (Z.of_nat i))). fold N.
    assert (0 < IZR N) by (apply IZR_lt; lia).
    replace (edge N (Z.of_nat 0)) with 1 by (unfold edge; cbn [Z.of_nat]; field; lra).
    replace (edge N N) with (-1) by (unfold edge; field; lra).
    destruct corner as (-> & -> & -> & ->). lra.
  - intros i _. apply sumN_ext. intros j _. rewrite texelR by exact HN. rewrite <- !Nat2Z.inj_succ || idtac.
    replace (Z.of_nat i + 1)%Z with (Z.of_nat (S i)) by lia. replace (Z.of_nat j + 1)%Z with (Z.of_nat (S j)) by lia. reflexivity.
Qed.
Lemma sphere_total : forall n : nat, (0 < n)%nat -> let N := Z.of_nat n in
  sumN 6 (fun face => sumN n (fun i => sumN n (fun j =>
    calcSolidAngle (coordsToST (Z.of_nat i) (Z.of_nat j) (1 / IZR N)) (1 / IZR N)))) = 4 * PI.
Proof. intros n Hn N. cbn [sumN]. unfold N. rewrite face_total by exact Hn. lra. Qed.

(** ** The value is the solid angle *)
Lemma slope_derive : forall x y, is_derive (fun y => slope y x) y (planeDensity x y).
Proof.
  intros x y. unfold slope, planeDensity. assert (Q : 0 < x * x + y * y + 1) by nra.
  pose proof (sqrt_lt_R0 _ Q) as L. assert (N : 0 < 1 + x * x) by nra.
  evar_last.
  - auto_derive; [|reflexivity]. repeat split; [exact Q|]. apply Rgt_not_eq. apply Rmult_lt_0_compat; [exact N|exact L].
  - cbn zeta. set (s := sqrt (x * x + y * y + 1)) in *.
    assert (E : s * s = x * x + y * y + 1) by (apply sqrt_sqrt; lra).
    cbn.
    replace (1 * / ((1 + x * x) * s) + y * (- ((1 + x * x) * ((1 * y + y * 1) * / (2 * s))) * / ((1 + x * x) * s * ((1 + x * x) * s))))
      with ((s * s - y * y) / ((1 + x * x) * (s * (s * s)))) by (field; lra).
    rewrite E at 1. replace (x * x + y * y + 1 - y * y) with (1 + x * x) by ring. field. lra.
Qed.
Lemma density_cont : forall x y, continuous (planeDensity x) y.
Proof.
  intros x y. apply (ex_derive_continuous (planeDensity x)). unfold planeDensity. assert (Q : 0 < x * x + y * y + 1) by nra.
  pose proof (sqrt_lt_R0 _ Q) as L. auto_derive. repeat split; try exact Q; apply Rgt_not_eq; try exact L. apply Rmult_lt_0_compat; exact L.
Qed.
Lemma slope_cont : forall x y, continuous (slope y) x.
Proof.
  intros x y. apply (ex_derive_continuous (slope y)). unfold slope. assert (Q : 0 < x * x + y * y + 1) by nra.
  pose proof (sqrt_lt_R0 _ Q) as L. assert (N : 0 < 1 + x * x) by nra. auto_derive. repeat split; [exact Q|]. apply Rgt_not_eq. apply Rmult_lt_0_compat; [exact N|exact L].
Qed.
Lemma solid_angle_rect : forall x0 x1 y0 y1, hasSolidAngle x0 x1 y0 y1
  (sphereQuadrantArea x1 y1 - sphereQuadrantArea x1 y0 - sphereQuadrantArea x0 y1 + sphereQuadrantArea x0 y0).
Proof.
  intros x0 x1 y0 y1. exists (fun x => slope y1 x - slope y0 x). split.
  - intros x. apply (is_RInt_derive (fun y => slope y x) (planeDensity x)); [intros y _; apply slope_derive|intros y _; apply density_cont].
  - evar_last.
    + apply (is_RInt_minus (slope y1) (slope y0)).
      * apply (is_RInt_derive (fun x => sphereQuadrantArea x y1) (slope y1)); [intros x _; apply area_derive|intros x _; apply slope_cont].
      * apply (is_RInt_derive (fun x => sphereQuadrantArea x y0) (slope y0)); [intros x _; apply area_derive|intros x _; apply slope_cont].
    + unfold minus, plus, opp. cbn. ring.
Qed.
Lemma texel_solid_angle : forall st inv, hasSolidAngle (x2 st - inv) (x2 st + inv) (y2 st - inv) (y2 st + inv) (calcSolidAngle st inv).
Proof.
  intros [x y] inv. unfold calcSolidAngle. cbn [x2 y2 sadd ssub ScalarR].
  replace (_ + sphereQuadrantArea (x + inv) (y + inv)) with
    (sphereQuadrantArea (x + inv) (y + inv) - sphereQuadrantArea (x + inv) (y - inv) - sphereQuadrantArea (x - inv) (y + inv) + sphereQuadrantArea (x - inv) (y - inv)) by ring.
  apply solid_angle_rect.
Qed.
