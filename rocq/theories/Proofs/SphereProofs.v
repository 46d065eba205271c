(** C31: spheres in exact arithmetic. *)
From Coq Require Import ZArith Bool List Reals Lra Psatz.
From Verif.Model Require Import Scalar Vec Simd Aabb Geometry.
From Verif.Spec Require Import GeomSpec EuclidSpec.
From Verif.Proofs Require Import OrdScalar AabbOrder Frustum RealLits RayProofs Euclid.
Local Open Scope R_scope.

Lemma sq_dist : forall a b, distS a b * distS a b = sq a b.
Proof. intros. rewrite distS_sq. apply sqrt_sqrt, sq_nonneg. Qed.
Lemma dist_nonneg : forall a b, 0 <= distS a b.
Proof. intros. rewrite distS_sq. apply sqrt_pos. Qed.
Lemma dist_sym : forall a b, distS a b = distS b a.
Proof. intros. rewrite !distS_sq. f_equal. unfold sq. ring. Qed.
Lemma dist_lt : forall a b r, 0 <= r -> (distS a b < r <-> sq a b < r * r).
Proof.
  intros a b r Hr. rewrite <- sq_dist. pose proof (dist_nonneg a b). split; intros H'; nra.
Qed.
Lemma dist_le : forall a b r, 0 <= r -> (distS a b <= r <-> sq a b <= r * r).
Proof.
  intros a b r Hr. rewrite <- sq_dist. pose proof (dist_nonneg a b). split; intros H'; nra.
Qed.
Lemma dist_triangle : forall a q b, distS a b <= distS a q + distS q b.
Proof.
  intros a q b. set (u := distS a q). set (v := distS q b).
  assert (Hu : 0 <= u) by apply dist_nonneg. assert (Hv : 0 <= v) by apply dist_nonneg.
  apply dist_le; [lra|].
  set (ax := vx a - vx q). set (ay := vy a - vy q). set (az := vz a - vz q).
  set (bx := vx q - vx b). set (by_ := vy q - vy b). set (bz := vz q - vz b).
  assert (Eu : u * u = ax * ax + ay * ay + az * az) by (unfold u; rewrite sq_dist; reflexivity).
  assert (Ev : v * v = bx * bx + by_ * by_ + bz * bz) by (unfold v; rewrite sq_dist; reflexivity).
  pose proof (cauchy3 ax ay az bx by_ bz) as C. rewrite <- Eu, <- Ev in C.
  assert (D : ax * bx + ay * by_ + az * bz <= u * v).
  { destruct (Rle_lt_dec (ax * bx + ay * by_ + az * bz) (u * v)) as [H|H]; [exact H|exfalso].
    unfold Rsqr in C. assert (0 <= u * v) by (apply Rmult_le_pos; assumption). nra. }
  replace (sq a b) with (u * u + 2 * (ax * bx + ay * by_ + az * bz) + v * v); [nra|].
  rewrite Eu, Ev. unfold sq, ax, ay, az, bx, by_, bz. ring.
Qed.

Lemma lengthSq3_sub : forall p (a b : vec4 R), lengthSq3 p (vsub a b) = sq a b.
Proof. intros. rewrite lengthSq3R. reflexivity. Qed.
Theorem isInsideSphere_R : forall p s q, 0 <= vw s -> (isInsideSphere p s q = true <-> distS s q < vw s).
Proof. intros p s q H. unfold isInsideSphere. rewrite lengthSq3_sub, sltR, dist_lt by exact H. reflexivity. Qed.
Theorem isIntersectedSpheres_R : forall p a b, 0 <= vw a -> 0 <= vw b ->
  (isIntersectedSpheres p a b = true <-> exists q, inBall a q /\ inBall b q).
Proof.
  intros p a b Ha Hb. unfold isIntersectedSpheres. rewrite lengthSq3_sub, sleR.
  change (vw a + vw b)%sc with (vw a + vw b). change (?x * ?x)%sc with (x * x). cbn [smul ScalarR].
  rewrite <- dist_le by lra. split.
  - intros H. destruct (Rlt_dec 0 (vw a + vw b)) as [L|L].
    + set (k := vw a / (vw a + vw b)).
      assert (K : 0 <= k <= 1).
      { unfold k. split; [apply Rmult_le_pos; [exact Ha|apply Rlt_le, Rinv_0_lt_compat, L]|].
        apply Rmult_le_reg_r with (vw a + vw b); [exact L|]. unfold Rdiv. rewrite Rmult_assoc, Rinv_l by lra. lra. }
      assert (K1 : k * (vw a + vw b) = vw a) by (unfold k; field; lra).
      set (q := V4 (vx a + k * (vx b - vx a)) (vy a + k * (vy b - vy a)) (vz a + k * (vz b - vz a)) 0).
      assert (Qa : sq a q = (k * distS a b) * (k * distS a b)).
      { replace (k * distS a b * (k * distS a b)) with (k * k * (distS a b * distS a b)) by ring. rewrite sq_dist. unfold sq, q. cbn [vx vy vz]. ring. }
      assert (Qb : sq b q = ((1 - k) * distS a b) * ((1 - k) * distS a b)).
      { replace ((1 - k) * distS a b * ((1 - k) * distS a b)) with ((1 - k) * (1 - k) * (distS a b * distS a b)) by ring. rewrite sq_dist. unfold sq, q. cbn [vx vy vz]. ring. }
      exists q. pose proof (dist_nonneg a b). unfold inBall. split; apply dist_le; try assumption.
      * rewrite Qa. assert (k * distS a b <= vw a) by nra. assert (0 <= k * distS a b) by nra. nra.
      * rewrite Qb. assert ((1 - k) * distS a b <= vw b) by nra. assert (0 <= (1 - k) * distS a b) by nra. nra.
    + exists a. assert (vw a = 0) by lra. assert (vw b = 0) by lra. unfold inBall. split.
      * apply dist_le; [exact Ha|]. unfold sq. nra.
      * rewrite dist_sym. lra.
  - intros (q & H1 & H2). unfold inBall in *. pose proof (dist_triangle a q b). rewrite (dist_sym q b) in H. lra.
Qed.
Theorem isIntersectedSphereBox_R : forall p s b, 0 <= vw s -> nonEmpty b ->
  (isIntersectedSphereBox p s b = true <-> exists q, inBox b q /\ distS s q < vw s).
Proof.
  intros p s b Hs Hb. unfold isIntersectedSphereBox. rewrite lengthSq3_sub, sltR.
  assert (Hv : validBox b) by (destruct Hb as (? & ? & ?); unfold validBox, in3; cbn; lra).
  destruct (closestPointBox_correct p b s) as (Hin & Hmin & _); [repeat split|repeat split|exact Hv|].
  split.
  - intros H. exists (closestPointBox p b s). split; [exact Hin|]. apply dist_lt; assumption.
  - intros (q & Hq & Hd). apply dist_lt in Hd; [|exact Hs].
    assert (Hm : sq s (closestPointBox p b s) <= sq s q) by (apply (Hmin q Hq)).
    cbn [smul ScalarR]. lra.
Qed.
Theorem closestPointSphere_R : forall p s x, 0 <= vw s -> nonzeroS (minusS x s) ->
  isNearest (onSphere s) x (closestPointSphere p s x).
Proof.
  intros p s x Hr Hn. apply nonzero_dot in Hn. set (d := minusS x s) in *.
  set (L := sqrt (dotS d d)). assert (HL : 0 < L) by (apply sqrt_lt_R0; exact Hn).
  assert (LL : L * L = dotS d d) by (apply sqrt_sqrt; lra).
  assert (Q : let q := closestPointSphere p s x in
    vx q = vx s + vx d / L * vw s /\ vy q = vy s + vy d / L * vw s /\ vz q = vz s + vz d / L * vw s).
  { unfold closestPointSphere, vadd, vscale, vmul, map2_4. cbn [dup4]. cbn [vx vy vz]. cbn [sadd smul ScalarR].
    destruct (normalize3R p (vsub x s)) as (E1 & E2 & E3). cbn [vx vy vz] in E1, E2, E3.
    rewrite E1, E2, E3. repeat split. }
  destruct Q as (Q1 & Q2 & Q3). set (q := closestPointSphere p s x) in *.
  assert (Ds : distS s x = L). { unfold L. rewrite dist_sym, distS_sq. reflexivity. }
  assert (Hq : onSphere s q).
  { unfold onSphere. apply Rle_antisym; [apply dist_le; [exact Hr|]|].
    - right. unfold sq. rewrite Q1, Q2, Q3. replace (_ + _) with (dotS d d / (L * L) * (vw s * vw s)) by (unfold dotS; field; lra).
      rewrite LL. field. lra.
    - destruct (Rle_lt_dec (vw s) (distS s q)) as [H|H]; [exact H|exfalso].
      apply dist_lt in H; [|exact Hr]. revert H. unfold sq. rewrite Q1, Q2, Q3.
      replace (_ + _) with (dotS d d / (L * L) * (vw s * vw s)) by (unfold dotS; field; lra).
      rewrite LL. replace (dotS d d / dotS d d) with 1 by (field; lra). lra. }
  split; [exact Hq|]. intros r Hrr. unfold onSphere in *.
  pose proof (dist_triangle s x r) as T1. pose proof (dist_triangle s r x) as T2. rewrite (dist_sym r x) in T2.
  rewrite Hrr, Ds in T1, T2.
  apply Rle_trans with (Rabs (L - vw s)); [|unfold Rabs; destruct Rcase_abs; lra].
  apply dist_le; [apply Rabs_pos|]. rewrite <- Rabs_mult, Rabs_right by (apply Rle_ge, sq_pos).
  right. unfold sq. rewrite Q1, Q2, Q3.
  replace (vx x - (vx s + vx d / L * vw s)) with (vx d * ((L - vw s) / L)) by (unfold d, minusS; cbn [vx vy vz]; field; lra).
  replace (vy x - (vy s + vy d / L * vw s)) with (vy d * ((L - vw s) / L)) by (unfold d, minusS; cbn [vx vy vz]; field; lra).
  replace (vz x - (vz s + vz d / L * vw s)) with (vz d * ((L - vw s) / L)) by (unfold d, minusS; cbn [vx vy vz]; field; lra).
  replace (_ + _) with (dotS d d * (((L - vw s) / L) * ((L - vw s) / L))) by (unfold dotS; ring).
  rewrite <- LL. field. lra.
Qed.
