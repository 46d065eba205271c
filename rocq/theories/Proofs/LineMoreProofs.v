(** C131: the parameter reported with the closest point of a line. *)
From Coq Require Import ZArith Bool List Reals Lra Psatz.
From Verif.Model Require Import Scalar Vec Simd Aabb Geometry LineMore.
From Verif.Spec Require Import GeomSpec EuclidSpec ClosestErrSpec.
From Verif.Proofs Require Import OrdScalar AabbOrder Frustum RealLits RayProofs Euclid GeometryProofs SphereProofs.
Local Open Scope R_scope.

Lemma overload_split : forall {F} {SF : Scalar F} p (a b x : vec4 F),
  closestPointSegmentT p a b x = (closestPointSegment p a b x, segmentParam p a b x).
Proof. reflexivity. Qed.

Lemma sq_param : forall a b t q, atParam a b t q -> sq a q = t * t * sq a b.
Proof. intros a b t q (E1 & E2 & E3). unfold sq. rewrite E1, E2, E3. ring. Qed.
Lemma dist_param : forall a b t q, atParam a b t q -> distS a q = Rabs t * distS a b.
Proof.
  intros a b t q H. rewrite !distS_sq, (sq_param a b t q H).
  rewrite sqrt_mult; [|apply sq_pos|apply sq_nonneg]. f_equal. fold (Rsqr t). apply sqrt_Rsqr_abs.
Qed.
Theorem reported_param : forall p a b x q t, nonzeroS (minusS b a) -> closestPointSegmentT p a b x = (q, t) ->
  isNearest (onSegment a b) x q /\
  (forall f, atParam a b t f -> isNearest (onLine a b) x f /\ distS a f = Rabs t * distS a b) /\
  atParam a b (Rmax 0 (Rmin t 1)) q /\
  (0 <= t <= 1 -> isNearest (onLine a b) x q /\ distS a q = t * distS a b) /\
  (t <= 0 -> eq3 q a) /\ (1 <= t -> eq3 q b).
Proof.
  intros p a b x q t H E. rewrite overload_split in E. pose proof (f_equal fst E) as Eq. pose proof (f_equal snd E) as Et. cbn [fst snd] in Eq, Et. clear E.
  pose proof (closestPointSegment_nearest p a b x H) as N. rewrite Eq in N.
  assert (Q : atParam a b (Rmax 0 (Rmin t 1)) q).
  { rewrite <- Eq. unfold closestPointSegment. rewrite Et, f0R, f1R, stdclampR by lra.
    unfold atParam, vfma, vsub, map2_4, dup4. cbn [vx vy vz]. rewrite !simdfmaR. cbn [ssub ScalarR]. repeat split; ring. }
  assert (L : forall f, atParam a b t f -> isNearest (onLine a b) x f).
  { intros f Hf. apply nearest_sq; [exists t; exact Hf|]. intros r (s & Hr).
    rewrite segmentParamR in Et. apply nonzero_dot in H. set (d := minusS b a) in *.
    destruct Hf as (F1 & F2 & F3). destruct Hr as (R1 & R2 & R3).
    rewrite (sq_line a d x f t), (sq_line a d x r s) by (unfold d, minusS; cbn [vx vy vz]; assumption).
    apply Rplus_le_compat_r. apply quad_min; [exact H|]. rewrite Et. replace (t - t) with 0 by ring. pose proof (sq_pos (s - t)). lra. }
  split; [exact N|]. split; [|split; [exact Q|split; [|split]]].
  - intros f Hf. split; [apply L, Hf|apply dist_param, Hf].
  - intros Ht. assert (C : Rmax 0 (Rmin t 1) = t) by (unfold Rmax, Rmin; repeat destruct Rle_dec; lra). rewrite C in Q.
    split; [apply L, Q|]. rewrite (dist_param _ _ _ _ Q), Rabs_pos_eq; [reflexivity|lra].
  - intros Ht. assert (C : Rmax 0 (Rmin t 1) = 0) by (unfold Rmax, Rmin; repeat destruct Rle_dec; lra). rewrite C in Q.
    destruct Q as (Q1 & Q2 & Q3). repeat split; lra.
  - intros Ht. assert (C : Rmax 0 (Rmin t 1) = 1) by (unfold Rmax, Rmin; repeat destruct Rle_dec; lra). rewrite C in Q.
    destruct Q as (Q1 & Q2 & Q3). repeat split; lra.
Qed.
(** it is not a distance: neither from the point nor from the start, and it can be negative *)
Theorem param_not_distance : forall p, exists (a b x x' : vec4 R) q q' t t', nonzeroS (minusS b a) /\
  closestPointSegmentT p a b x = (q, t) /\ t <> distS x q /\ t <> distS a q /\
  closestPointSegmentT p a b x' = (q', t') /\ t' < 0.
Proof.
  intros p. set (a := V4 0 0 0 0 : vec4 R). set (b := V4 2 0 0 0 : vec4 R). set (x := V4 1 1 0 0 : vec4 R). set (x' := V4 (-2) 3 0 0 : vec4 R).
  assert (NZ : nonzeroS (minusS b a)) by (unfold nonzeroS, minusS, b, a; cbn [vx vy vz]; lra).
  assert (T : segmentParam p a b x = / 2).
  { rewrite segmentParamR. unfold dotS, minusS, a, b, x. cbn [vx vy vz]. field. }
  assert (T' : segmentParam p a b x' = - (1)).
  { rewrite segmentParamR. unfold dotS, minusS, a, b, x'. cbn [vx vy vz]. field. }
  exists a, b, x, x', (closestPointSegment p a b x), (closestPointSegment p a b x'), (/ 2), (- (1)).
  split; [exact NZ|]. split; [rewrite <- T; apply overload_split|].
  destruct (reported_param p a b x _ _ NZ (overload_split p a b x)) as (_ & _ & Q & _). rewrite T in Q.
  replace (Rmax 0 (Rmin (/ 2) 1)) with (/ 2) in Q by (unfold Rmax, Rmin; repeat destruct Rle_dec; lra).
  set (q := closestPointSegment p a b x) in *. clearbody q.
  destruct Q as (Q1 & Q2 & Q3). unfold a, b in Q1, Q2, Q3. cbn [vx vy vz] in Q1, Q2, Q3.
  assert (D1 : distS x q = 1).
  { rewrite distS_sq. unfold sq, x. cbn [vx vy vz]. rewrite Q1, Q2, Q3. replace (_ + _) with 1 by field. apply sqrt_1. }
  assert (D2 : distS a q = 1).
  { rewrite distS_sq. unfold sq, a. cbn [vx vy vz]. rewrite Q1, Q2, Q3. replace (_ + _) with 1 by field. apply sqrt_1. }
  split; [rewrite D1; lra|]. split; [rewrite D2; lra|]. split; [rewrite <- T'; apply overload_split|lra].
Qed.
