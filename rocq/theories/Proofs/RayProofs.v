(** The ray test with an ordinary ray, and the parallel flags. *)
From Coq Require Import ZArith Bool List Reals Lra.
From Flocq Require Import Core.Core IEEE754.Binary IEEE754.Bits.
From Verif.Model Require Import Scalar Vec Simd Aabb.
From Verif.Spec Require Import GeomSpec BvhGeomSpec RaySpec.
From Verif.Proofs Require Import OrdScalar F32Round Frustum RealLits AabbMore.
Local Open Scope R_scope.

Lemma parEpsR : (slit 1547425 (-87) : R) = parallelEps.
Proof.
  unfold parallelEps. cbn [slit ScalarR]. unfold Rlit, powerRZ.
  change (Pos.to_nat 87) with 87%nat. reflexivity.
Qed.

Lemma normalize3R : forall p (v : vec4 R), let L := sqrt (vx v * vx v + vy v * vy v + vz v * vz v) in
  eq3 (normalize3 p v) (V4 (vx v / L) (vy v / L) (vz v / L) 0).
Proof.
  intros p v L. unfold eq3, normalize3.
  destruct p; rewrite ?dot3R; unfold vdiv, map2_4, ofFloat3, of3, normalizep3, scale3, map_3, lengthp3, dotp3, xyz;
    cbn [vx vy vz vw dup4 x3 y3 z3 sdiv smul sadd ssqrt ScalarR]; rewrite ?f1R; fold L;
    repeat split; unfold Rdiv; ring.
Qed.

Lemma inBox_eq3 : forall (b : aabb R) q q', eq3 q q' -> inBox b q -> inBox b q'.
Proof. intros b q q' (E1 & E2 & E3). unfold inBox, in3. rewrite E1, E2, E3. auto. Qed.
Lemma eq3_sym : forall q q', eq3 q q' -> eq3 q' q.
Proof. intros q q' (E1 & E2 & E3). repeat split; auto. Qed.

(** the distances reported are true distances divided by the length of 1/d *)
Theorem raycast2_actual : forall p b r, nonEmpty b ->
  let d := rdir r in
  parallelEps * Rabs (vx d) < 1 -> parallelEps * Rabs (vy d) < 1 -> parallelEps * Rabs (vz d) < 1 ->
  vx d <> 0 -> vy d <> 0 -> vz d <> 0 ->
  let L := sqrt (/ vx d * / vx d + / vy d * / vy d + / vz d * / vz d) in
  let tt := raycast2 p b r in
  0 < L /\
  (forall t, Rmax 0 (x2 tt) <= t <= y2 tt -> inBox b (pointAt (rorigin r) d (t * L))) /\
  (forall t, 0 <= t <= maxFinite -> inBox b (pointAt (rorigin r) d (t * L)) -> Rmax 0 (x2 tt) <= t <= y2 tt).
Proof.
  intros p b r Hb d P1 P2 P3 D1 D2 D3 L tt.
  assert (Ls : forall x, x <> 0 -> 0 < / x * / x).
  { intros x Hx. assert (/ x <> 0) by (apply Rinv_neq_0_compat; exact Hx). nra. }
  assert (HL : 0 < L).
  { apply sqrt_lt_R0. pose proof (Ls _ D1). pose proof (Ls _ D2). pose proof (Ls _ D3). lra. }
  split; [exact HL|].
  set (dL := V4 (vx d * L) (vy d * L) (vz d * L) 0).
  assert (Hpt : forall t, eq3 (pointAt (rorigin r) dL t) (pointAt (rorigin r) d (t * L))).
  { intros t. unfold eq3, pointAt, dL. cbn [vx vy vz]. repeat split; ring. }
  assert (Hflag : forall x, x <> 0 -> parallelEps * Rabs x < 1 -> maskOf (sle (sabs (f1 / x)%sc) (slit 1547425 (-87))) = 0%Z).
  { intros x Hx Hp. rewrite parEpsR, f1R. cbn [sabs sdiv ScalarR].
    destruct (sle (Rabs (1 / x)) parallelEps) eqn:E; [|reflexivity]. exfalso. apply sleR in E.
    assert (Ha : 0 < Rabs x) by (apply Rabs_pos_lt; exact Hx).
    unfold Rdiv in E. rewrite Rmult_1_l, Rabs_inv in E.
    apply (Rmult_le_compat_r (Rabs x)) in E; [|lra]. rewrite Rinv_l in E by lra. lra. }
  assert (HI : invertedRay (setDirection p r (vdiv (dup4 f1) d) true) dL).
  { unfold setDirection, invertedRay. cbn [rdir rparallel].
    destruct (normalize3R p (vdiv (dup4 f1) d)) as (E1 & E2 & E3). rewrite E1, E2, E3. clear E1 E2 E3.
    unfold parallelOf, vle, vabs, vdiv, map2_4, map_4, dL. cbn [vx vy vz vw dup4].
    rewrite !Hflag by assumption. rewrite f1R. cbn [sdiv ScalarR].
    replace (sqrt _) with L; [|unfold L; f_equal; unfold Rdiv; ring].
    repeat split; right; (split; [reflexivity|]); (split; [apply Rmult_integral_contrapositive_currified; lra|]);
      field; split; lra. }
  pose proof (raycast2I_exact p b _ _ Hb HI) as (A & B & _). fold d in A, B.
  change (raycast2I p b (setDirection p r (vdiv (dup4 f1) d) true)) with tt in A, B.
  change (rorigin (setDirection p r (vdiv (dup4 f1) d) true)) with (rorigin r) in A, B.
  split.
  - intros t Ht. eapply inBox_eq3; [apply Hpt|]. apply A, Ht.
  - intros t Ht Hin. apply B; [exact Ht|]. eapply inBox_eq3; [apply eq3_sym, Hpt|]. exact Hin.
Qed.

(** C32: what the constructor leaves *)
Theorem newRay_parallel : forall p (o d : vec4 f32) nrm, rparallel (newRay p o d nrm) = V4 0%Z 0%Z 0%Z 0%Z.
Proof. reflexivity. Qed.
