(** C24 - C31: planes, triangles, segments, rays and spheres in exact arithmetic. *)
From Coq Require Import ZArith Bool List Reals Lra Psatz.
From Flocq Require Import Core.Core.
From Verif.Model Require Import Scalar Vec Simd Aabb Matrix Geometry.
From Verif.Spec Require Import GeomSpec BvhGeomSpec EuclidSpec MatSpec.
From Verif.Proofs Require Import OrdScalar AabbOrder Frustum RealLits AabbMore RayProofs Euclid MatrixProofs.
Import ListNotations.
Local Open Scope R_scope.

(** ** C24 *)
Definition mulVS (m : mat4 R) (q : vec4 R) : vec4 R := mulv4 m (withW q 1).
Lemma behind8_iff : forall {F} {S : Scalar F} p (planes : list (vec4 F)) vs, length vs = 8%nat ->
  (behind8 p planes vs = true <->
   exists pl, In pl planes /\ Forall (fun v => slt (planeDistance p pl v) f0 = true) vs).
Proof.
  intros F S p planes vs H.
  destruct vs as [|v0 [|v1 [|v2 [|v3 [|v4 [|v5 [|v6 [|v7 [|]]]]]]]]]; try discriminate H.
  unfold behind8. rewrite anyPlane_iff.
  split; intros (pl & Hi & H'); exists pl; (split; [exact Hi|]); apply (allBehind_iff p pl v0 v1 v2 v3 v4 v5 v6 v7); exact H'.
Qed.
(** pull a plane back through the matrix: the equation is again linear *)
Definition pullback (m : mat4 R) (pl : vec4 R) : vec4 R :=
  let n0 := vx pl in let n1 := vy pl in let n2 := vz pl in
  V4 (n0 * vx (c0 m) + n1 * vy (c0 m) + n2 * vz (c0 m)) (n0 * vx (c1 m) + n1 * vy (c1 m) + n2 * vz (c1 m))
     (n0 * vx (c2 m) + n1 * vy (c2 m) + n2 * vz (c2 m)) (n0 * vx (c3 m) + n1 * vy (c3 m) + n2 * vz (c3 m) + vw pl).
Lemma pullback_side : forall m pl q, vw q = 1 -> planeSide pl (mulv4 m q) = planeSide (pullback m pl) q.
Proof. intros m pl q H. dm. cbn in H. subst. unfold planeSide, pullback. mcbn. ring. Qed.
Lemma withW_side : forall pl q w, planeSide pl (withW q w) = planeSide pl q.
Proof. reflexivity. Qed.
Theorem isBehindFrustumModel_R : forall p planes b m, nonEmpty b ->
  (isBehindFrustumModel p planes b m = true <->
   exists pl, In pl planes /\ forall q, inBox b q -> planeSide pl (mulv4 m (withW q 1)) < 0).
Proof.
  intros p planes b m Hb. unfold isBehindFrustumModel. rewrite behind8_iff by reflexivity.
  split; intros (pl & Hi & H); exists pl; (split; [exact Hi|]).
  - intros q Hq. rewrite pullback_side by reflexivity. rewrite withW_side.
    destruct (corner_above (pullback m pl) b q Hq) as (v & Hv & Hle).
    assert (Hw : vw v = 1) by (destruct (corners_form b v Hv) as (? & ? & ? & ->); apply f1R).
    rewrite Forall_forall in H. specialize (H (mulV p m v) (in_map _ _ _ Hv)).
    rewrite planeDistanceR, sltR0, mulVR, pullback_side in H by exact Hw. lra.
  - apply Forall_forall. intros v Hv. apply in_map_iff in Hv. destruct Hv as (c & <- & Hc).
    rewrite planeDistanceR, sltR0, mulVR.
    assert (Hw : vw c = 1) by (destruct (corners_form b c Hc) as (? & ? & ? & ->); apply f1R).
    specialize (H c (corners_inside b c Hb Hc)).
    rewrite pullback_side in H by reflexivity. rewrite withW_side in H.
    rewrite pullback_side by exact Hw. exact H.
Qed.
(** with an affine matrix the tested points are the transformed box: w stays 1 *)
Lemma affine_w : forall (m : mat4 R) q, vw (c0 m) = 0 -> vw (c1 m) = 0 -> vw (c2 m) = 0 -> vw (c3 m) = 1 ->
  vw (mulv4 m (withW q 1)) = 1.
Proof. intros m q H0 H1 H2 H3. dm. cbn in H0, H1, H2, H3. subst. cbv [withW]. mcbn. ring. Qed.

(** ** C25 *)
Definition clip p (m : mat4 R) (q : vec4 R) : vec4 R := mulV p m (withW q 1).
Theorem extractFrustumPlanes_R : forall p p' (m : mat4 R) q,
  let c := mulV p' m (withW q 1) in
  (Forall (fun pl => 0 <= planeSide pl q) (extractFrustumPlanes p m) <->
   - vw c <= vx c <= vw c /\ - vw c <= vy c <= vw c /\ 0 <= vz c <= vw c).
Proof.
  intros p p' m q c. unfold c. rewrite mulVR. clear c.
  assert (T : transpose4x4 p m = transposep4 m) by (destruct m as [[] [] [] []]; destruct p; reflexivity).
  unfold extractFrustumPlanes. rewrite T. clear T.
  assert (E : forall a b c d e f : vec4 R, Forall (fun pl => 0 <= planeSide pl q) [a; b; c; d; e; f] <->
    (0 <= planeSide a q /\ 0 <= planeSide b q /\ 0 <= planeSide c q /\ 0 <= planeSide d q /\ 0 <= planeSide e q /\ 0 <= planeSide f q)).
  { intros. split; [intros H; repeat match goal with H : Forall _ (_ :: _) |- _ => inversion H; clear H; subst end; tauto|].
    intros (? & ? & ? & ? & ? & ?). repeat (apply Forall_cons; [assumption|]). apply Forall_nil. }
  rewrite E. clear E. dm. unfold planeSide. cbv [newPlane withW]. mcbn. lra.
Qed.

(** ** C26 *)
Lemma normalizePlaneR : forall p pl, normalizePlane p pl =
  let L := sqrt (dotS pl pl) in V4 (vx pl / L) (vy pl / L) (vz pl / L) (vw pl / L).
Proof. intros p pl. unfold normalizePlane. rewrite length3R. reflexivity. Qed.
Theorem normalizePlane_side : forall p pl, nonzeroS pl ->
  let L := sqrt (dotS pl pl) in
  0 < L /\ dotS (normalizePlane p pl) (normalizePlane p pl) = 1 /\
  (forall q, planeSide (normalizePlane p pl) q = planeSide pl q / L) /\
  (forall q, 0 <= planeSide (normalizePlane p pl) q <-> 0 <= planeSide pl q) /\
  (forall q, onPlane (normalizePlane p pl) q <-> onPlane pl q).
Proof.
  intros p pl H L. apply nonzero_dot in H. assert (HL : 0 < L) by (apply sqrt_lt_R0; exact H).
  assert (LL : L * L = dotS pl pl) by (apply sqrt_sqrt; lra).
  assert (ES : forall q, planeSide (normalizePlane p pl) q = planeSide pl q / L).
  { intros q. rewrite normalizePlaneR. unfold planeSide. cbn [vx vy vz vw]. fold L. field. lra. }
  assert (Hsgn : forall x, 0 <= x / L <-> 0 <= x).
  { intros x. split; intros Hx.
    - replace x with (x / L * L) by (field; lra). apply Rmult_le_pos; lra.
    - apply Rmult_le_pos; [exact Hx|]. apply Rlt_le, Rinv_0_lt_compat, HL. }
  repeat split.
  - exact HL.
  - rewrite normalizePlaneR. fold L. unfold dotS. cbn [vx vy vz].
    replace (_ + _) with ((vx pl * vx pl + vy pl * vy pl + vz pl * vz pl) / (L * L)) by (field; lra).
    fold (dotS pl pl). rewrite LL. field. lra.
  - exact ES.
  - rewrite ES. apply Hsgn.
  - rewrite ES. apply Hsgn.
  - intros Hq. assert (E := ES q). unfold onPlane, planeSide, dotS in *. rewrite Hq in E.
    assert (0 = (vx pl * vx q + vy pl * vy q + vz pl * vz q + vw pl)) by (apply Rmult_eq_reg_r with (/ L); [unfold Rdiv in E; lra|apply Rinv_neq_0_compat; lra]). lra.
  - intros Hq. assert (E := ES q). unfold onPlane, planeSide, dotS in *. rewrite E, Hq. field. lra.
Qed.
Lemma closestPointPlaneR : forall p pl x, eq3 (closestPointPlane p pl x)
  (V4 (vx x - vx pl * planeSide pl x) (vy x - vy pl * planeSide pl x) (vz x - vz pl * planeSide pl x) 0).
Proof. intros p pl x. unfold closestPointPlane. rewrite planeDistanceR. repeat split. Qed.
Lemma eq3_sq : forall x q q', eq3 q q' -> sq x q = sq x q'.
Proof. intros x q q' (E1 & E2 & E3). unfold sq. rewrite E1, E2, E3. reflexivity. Qed.
Theorem closestPointPlane_nearest : forall p pl x, dotS pl pl = 1 ->
  isNearest (onPlane pl) x (closestPointPlane p pl x) /\
  distS x (closestPointPlane p pl x) = Rabs (planeDistance p pl x).
Proof.
  intros p pl x H1. rewrite planeDistanceR.
  destruct (closestPointPlaneR p pl x) as (E1 & E2 & E3). cbn [vx vy vz] in *.
  set (q := closestPointPlane p pl x) in *. set (d := planeSide pl x) in *.
  assert (Sq : sq x q = d * d).
  { unfold sq. rewrite E1, E2, E3. unfold dotS in H1.
    replace (_ + _) with ((vx pl * vx pl + vy pl * vy pl + vz pl * vz pl) * (d * d)) by ring. rewrite H1. ring. }
  split.
  - apply nearest_sq.
    + unfold onPlane, dotS. rewrite E1, E2, E3. unfold dotS in H1.
      replace (_ + _) with (d - d * (vx pl * vx pl + vy pl * vy pl + vz pl * vz pl)) by (unfold d, planeSide; ring).
      rewrite H1. ring.
    + intros r Hr. rewrite Sq. unfold onPlane, dotS in *.
      assert (D : d = vx pl * (vx x - vx r) + vy pl * (vy x - vy r) + vz pl * (vz x - vz r)) by (unfold d, planeSide; lra).
      rewrite D. change (?a * ?a <= _) with (a² <= sq x r). eapply Rle_trans; [apply cauchy3|]. rewrite H1. unfold sq. lra.
  - rewrite distS_sq, Sq. fold (Rsqr d). apply sqrt_Rsqr_abs.
Qed.

(** ** C30 *)
Lemma segmentParamR : forall p a b x, segmentParam p a b x = dotS (minusS x a) (minusS b a) / dotS (minusS b a) (minusS b a).
Proof. intros. unfold segmentParam. rewrite !dot3R. reflexivity. Qed.
Lemma stdclampR : forall x a b : R, a <= b -> stdclamp x a b = Rmax a (Rmin x b).
Proof.
  intros x a b H. unfold stdclamp. destruct (slt x a) eqn:E1.
  - apply sltR in E1. unfold Rmax, Rmin. repeat destruct Rle_dec; lra.
  - apply sltR_false in E1. destruct (slt b x) eqn:E2.
    + apply sltR in E2. unfold Rmax, Rmin. repeat destruct Rle_dec; lra.
    + apply sltR_false in E2. unfold Rmax, Rmin. repeat destruct Rle_dec; lra.
Qed.
(** the nearest point of a line a + t d restricted to lo <= t (<= 1): quadratic in t *)
Lemma quad_min : forall D B t s, 0 < D -> (t - B / D) * (t - B / D) <= (s - B / D) * (s - B / D) ->
  D * t * t - 2 * B * t <= D * s * s - 2 * B * s.
Proof.
  intros D B t s HD H.
  assert (E : forall u, D * u * u - 2 * B * u = D * ((u - B / D) * (u - B / D)) - B * B / D) by (intros; field; lra).
  rewrite !E. nra.
Qed.
Lemma sq_line : forall a d x q t, vx q = vx a + t * vx d -> vy q = vy a + t * vy d -> vz q = vz a + t * vz d ->
  sq x q = dotS d d * t * t - 2 * dotS (minusS x a) d * t + sq x a.
Proof. intros a d x q t E1 E2 E3. unfold sq, dotS, minusS. rewrite E1, E2, E3. cbn [vx vy vz]. ring. Qed.
Theorem closestPointSegment_nearest : forall p a b x, nonzeroS (minusS b a) ->
  isNearest (onSegment a b) x (closestPointSegment p a b x).
Proof.
  intros p a b x H. apply nonzero_dot in H.
  set (d := minusS b a) in *. set (B := dotS (minusS x a) d).
  set (t := stdclamp (segmentParam p a b x) f0 f1).
  assert (Et : t = Rmax 0 (Rmin (B / dotS d d) 1)).
  { unfold t. rewrite segmentParamR, f0R, f1R, stdclampR by lra. reflexivity. }
  assert (T : 0 <= t <= 1) by (rewrite Et; unfold Rmax, Rmin; repeat destruct Rle_dec; lra).
  assert (Q : let q := closestPointSegment p a b x in
    vx q = vx a + t * vx d /\ vy q = vy a + t * vy d /\ vz q = vz a + t * vz d).
  { unfold closestPointSegment. fold t. unfold vfma, vsub, map2_4. cbn [vx vy vz dup4 vw]. rewrite !simdfmaR.
    cbn [ssub ScalarR]. unfold d, minusS. cbn [vx vy vz]. repeat split; ring. }
  destruct Q as (Q1 & Q2 & Q3).
  apply nearest_sq.
  - exists t. split; [exact T|]. unfold d, minusS in Q1, Q2, Q3. cbn [vx vy vz] in *. auto.
  - intros r (s & Hs & R1 & R2 & R3).
    rewrite (sq_line a d x _ t Q1 Q2 Q3), (sq_line a d x r s).
    2,3,4: unfold d, minusS; cbn [vx vy vz]; assumption.
    fold B. apply Rplus_le_compat_r. apply quad_min; [exact H|].
    generalize dependent (B / dotS d d). intros c Et.
    assert (C : (c <= 0 /\ t = 0) \/ (1 <= c /\ t = 1) \/ t = c) by (rewrite Et; unfold Rmax, Rmin; repeat destruct Rle_dec; lra).
    clear - C Hs. destruct C as [(C & ->)|[(C & ->)| ->]]; [nra|nra|pose proof (sq_pos (s - c)); replace (c - c) with 0 by ring; lra].
Qed.
(** ** closest point of a ray *)
Theorem closestPointRay_nearest : forall p (r : ray R) x, nonzeroS (rdir r) ->
  isNearest (onRay (rorigin r) (rdir r)) x (closestPointRay p r x).
Proof.
  intros p r x H. apply nonzero_dot in H.
  set (a := rorigin r) in *. set (d := rdir r) in *. set (B := dotS (minusS x a) d).
  assert (Q : exists t, t = Rmax (B / dotS d d) 0 /\ let q := closestPointRay p r x in
    vx q = vx a + t * vx d /\ vy q = vy a + t * vy d /\ vz q = vz a + t * vz d).
  { eexists. split; [reflexivity|]. unfold closestPointRay. fold a d. rewrite stdmaxR, f0R, !dot3R.
    assert (EV : forall i : vec4 R -> R, i = vx \/ i = vy \/ i = vz -> i (vsub (vadd a d) a) = i d).
    { intros i [->|[->| ->]]; unfold vsub, vadd, map2_4; cbn [vx vy vz]; cbn; ring. }
    rewrite !EV by auto.
    unfold vfma. cbn [vx vy vz dup4]. rewrite !simdfmaR.
    unfold B, dotS, minusS, vsub, map2_4. cbn [vx vy vz]. cbn [sdiv ssub ScalarR]. repeat split; ring. }
  destruct Q as (t & Et & Q1 & Q2 & Q3).
  assert (T : 0 <= t) by (rewrite Et; apply Rmax_r).
  apply nearest_sq.
  - exists t. auto.
  - intros r' (s & Hs & R1 & R2 & R3).
    rewrite (sq_line a d x _ t Q1 Q2 Q3), (sq_line a d x r' s R1 R2 R3).
    fold B. apply Rplus_le_compat_r. apply quad_min; [exact H|].
    generalize dependent (B / dotS d d). intros c Et.
    assert (C : (c <= 0 /\ t = 0) \/ t = c) by (rewrite Et; unfold Rmax; destruct Rle_dec; lra).
    clear - C Hs. destruct C as [(C & ->)| ->]; [nra|pose proof (sq_pos (s - c)); replace (c - c) with 0 by ring; lra].
Qed.
