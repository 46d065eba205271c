(** Operators of shapes in exact arithmetic, and equality operators. *)
From Coq Require Import ZArith Bool List Reals Lra Lia Psatz.
From Flocq Require Import Core.Core IEEE754.BinarySingleNaN IEEE754.Binary IEEE754.Bits.
From Verif.Model Require Import Outcome Scalar Vec Simd Aabb Matrix Geometry IntVec Shapes.
From Verif.Spec Require Import GeomSpec EuclidSpec MatSpec IntSpec ShapeSpec.
From Verif.Proofs Require Import OrdScalar Frustum RealLits RayProofs Euclid GeometryProofs CameraProofs IntArith IntProofs IntOrder AabbWitness.
Import ListNotations.
Local Open Scope R_scope.

Ltac lanesR := unfold vadd, vsub, vmul, vdiv, map2_4, plusS, timesS, minusS, eq3 in *; cbn [vx vy vz vw sadd ssub smul sdiv ScalarR] in *.

Lemma div_nonneg : forall a b, 0 <= a -> 0 < b -> 0 <= a / b.
Proof. intros a b A B. apply Rmult_le_pos; [exact A|]. left. apply Rinv_0_lt_compat, B. Qed.

(** ** Lines *)
Lemma segment_add : forall a b v, sameSet (onSegment (vadd a v) (vadd b v)) (imageOf (onSegment a b) (fun q => plusS q v)).
Proof.
  intros a b v q. split.
  - intros (t & T & E). exists (minusS q v). lanesR. split; [exists t; lanesR; repeat split; lra|repeat split; lra].
  - intros (q0 & (t & T & E) & F). exists t. lanesR. repeat split; lra.
Qed.
Lemma segment_sub : forall a b v, sameSet (onSegment (vsub a v) (vsub b v)) (imageOf (onSegment a b) (fun q => minusS q v)).
Proof.
  intros a b v q. split.
  - intros (t & T & E). exists (plusS q v). lanesR. split; [exists t; lanesR; repeat split; lra|repeat split; lra].
  - intros (q0 & (t & T & E) & F). exists t. lanesR. repeat split; lra.
Qed.
Lemma segment_mul : forall a b v, sameSet (onSegment (vmul a v) (vmul b v)) (imageOf (onSegment a b) (fun q => timesS q v)).
Proof.
  intros a b v q. split.
  - intros (t & T & E1 & E2 & E3).
    exists (V4 (vx a + t * (vx b - vx a)) (vy a + t * (vy b - vy a)) (vz a + t * (vz b - vz a)) 0).
    split; [exists t; cbn [vx vy vz]; auto|]. lanesR. rewrite E1, E2, E3. repeat split; ring.
  - intros (q0 & (t & T & E1 & E2 & E3) & F1 & F2 & F3). exists t. lanesR. rewrite F1, F2, F3, E1, E2, E3. repeat split; lra || ring.
Qed.
Lemma div_cancel : forall x y, y <> 0 -> x / y * y = x.
Proof. intros. field. assumption. Qed.
Lemma segment_div : forall a b v, allNonzero v ->
  sameSet (imageOf (onSegment (vdiv a v) (vdiv b v)) (fun q => timesS q v)) (onSegment a b).
Proof.
  intros a b v (N1 & N2 & N3) q. split.
  - intros (q0 & (t & T & E1 & E2 & E3) & F1 & F2 & F3). exists t. lanesR. rewrite F1, F2, F3, E1, E2, E3.
    repeat split; lra || (field; assumption).
  - intros (t & T & E1 & E2 & E3). exists (V4 (vx q / vx v) (vy q / vy v) (vz q / vz v) 0). lanesR. split.
    + exists t. lanesR. rewrite E1, E2, E3. repeat split; lra || (field; assumption).
    + repeat split; field; assumption.
Qed.
Lemma lines_move : forall l (v : vec4 R),
  sameSet (onSegment (lstart (lineAdd l v)) (lend (lineAdd l v))) (imageOf (onSegment (lstart l) (lend l)) (fun q => plusS q v)) /\
  sameSet (onSegment (lstart (lineSub l v)) (lend (lineSub l v))) (imageOf (onSegment (lstart l) (lend l)) (fun q => minusS q v)) /\
  sameSet (onSegment (lstart (lineMul l v)) (lend (lineMul l v))) (imageOf (onSegment (lstart l) (lend l)) (fun q => timesS q v)) /\
  (allNonzero v -> sameSet (imageOf (onSegment (lstart (lineDiv l v)) (lend (lineDiv l v))) (fun q => timesS q v)) (onSegment (lstart l) (lend l))).
Proof.
  intros l v. split; [apply segment_add|]. split; [apply segment_sub|]. split; [apply segment_mul|apply segment_div].
Qed.
Lemma line_direction : forall p (l : line R),
  eq3 (lineDirection p l false) (minusS (lend l) (lstart l)) /\
  (nonzeroS (minusS (lend l) (lstart l)) ->
    let d := lineDirection p l true in dotS d d = 1 /\
    forall q, onSegment (lstart l) (lend l) q <->
      exists t, 0 <= t <= distS (lstart l) (lend l) /\ eq3 q (V4 (vx (lstart l) + t * vx d) (vy (lstart l) + t * vy d) (vz (lstart l) + t * vz d) 0)).
Proof.
  intros p l. split; [repeat split|]. intros N d.
  assert (N' : nonzeroS (vsub (lend l) (lstart l))) by exact N.
  destruct (normalize3_unit p (vsub (lend l) (lstart l)) N') as (U & L & E). unfold lineDirection in d. fold d in U, E.
  split; [exact U|].
  assert (K : sqrt (dotS (vsub (lend l) (lstart l)) (vsub (lend l) (lstart l))) = distS (lstart l) (lend l)).
  { unfold distS, dotS, vsub, map2_4. cbn [vx vy vz vw ssub ScalarR]. f_equal. unfold Rsqr. ring. }
  rewrite K in L, E. set (D := distS (lstart l) (lend l)) in *.
  unfold eq3, RotSpec.scaleQ, vsub, map2_4 in E. cbn [vx vy vz vw ssub ScalarR] in E. destruct E as (E1 & E2 & E3).
  intros q. split.
  - intros (t & T & Q1 & Q2 & Q3). exists (t * D). split; [nra|]. unfold eq3. cbn [vx vy vz]. rewrite Q1, Q2, Q3, E1, E2, E3. repeat split; ring.
  - intros (t & T & Q1 & Q2 & Q3). cbn [vx vy vz] in *. exists (t / D). split.
    + split; [apply div_nonneg; lra|]. apply (Rmult_le_reg_r D); [lra|]. unfold Rdiv. rewrite Rmult_assoc, Rinv_l by lra. lra.
    + rewrite Q1, Q2, Q3, E1, E2, E3. repeat split; field; lra.
Qed.

(** ** Triangles *)
Lemma triangles_move : forall (t : triangle R) v,
  sameSet (inTriangle (triAdd t v)) (imageOf (inTriangle t) (fun q => plusS q v)) /\
  sameSet (inTriangle (triSub t v)) (imageOf (inTriangle t) (fun q => minusS q v)) /\
  sameSet (inTriangle (triMul t v)) (imageOf (inTriangle t) (fun q => timesS q v)) /\
  (allNonzero v -> sameSet (imageOf (inTriangle (triDiv t v)) (fun q => timesS q v)) (inTriangle t)).
Proof.
  intros t v. unfold sameSet, imageOf, inTriangle, combination, triAdd, triSub, triMul, triDiv. cbn [t0 t1 t2].
  split; [|split; [|split]].
  - intros q. split.
    + intros (a & b & c & A & B & C & E & Q). exists (minusS q v). lanesR. split.
      * exists a, b, c. assert (a = 1 - b - c) by lra. subst a. repeat split; lra.
      * repeat split; lra.
    + intros (q0 & (a & b & c & A & B & C & E & Q) & F). exists a, b, c. lanesR. assert (a = 1 - b - c) by lra. subst a. repeat split; lra.
  - intros q. split.
    + intros (a & b & c & A & B & C & E & Q). exists (plusS q v). lanesR. split.
      * exists a, b, c. assert (a = 1 - b - c) by lra. subst a. repeat split; lra.
      * repeat split; lra.
    + intros (q0 & (a & b & c & A & B & C & E & Q) & F). exists a, b, c. lanesR. assert (a = 1 - b - c) by lra. subst a. repeat split; lra.
  - intros q. split.
    + intros (a & b & c & A & B & C & E & Q1 & Q2 & Q3).
      exists (V4 (a * vx (t0 t) + b * vx (t1 t) + c * vx (t2 t)) (a * vy (t0 t) + b * vy (t1 t) + c * vy (t2 t))
                 (a * vz (t0 t) + b * vz (t1 t) + c * vz (t2 t)) 0). lanesR. split.
      * exists a, b, c. repeat split; assumption || reflexivity.
      * rewrite Q1, Q2, Q3. repeat split; ring.
    + intros (q0 & (a & b & c & A & B & C & E & Q1 & Q2 & Q3) & F1 & F2 & F3). exists a, b, c. lanesR.
      rewrite F1, F2, F3, Q1, Q2, Q3. repeat split; try assumption; ring.
  - intros (N1 & N2 & N3) q. split.
    + intros (q0 & (a & b & c & A & B & C & E & Q1 & Q2 & Q3) & F1 & F2 & F3). exists a, b, c. lanesR.
      rewrite F1, F2, F3, Q1, Q2, Q3. repeat split; try assumption; field; assumption.
    + intros (a & b & c & A & B & C & E & Q1 & Q2 & Q3).
      exists (V4 (vx q / vx v) (vy q / vy v) (vz q / vz v) 0). lanesR. split.
      * exists a, b, c. rewrite Q1, Q2, Q3. repeat split; try assumption; field; assumption.
      * repeat split; field; assumption.
Qed.

(** ** Rays *)
Lemma ray_direction : forall o d d' k, 0 < k -> eq3 d (V4 (k * vx d') (k * vy d') (k * vz d') 0) ->
  sameSet (onRay o d) (onRay o d').
Proof.
  intros o d d' k K (E1 & E2 & E3) q. cbn [vx vy vz] in *. split.
  - intros (t & T & Q1 & Q2 & Q3). exists (t * k). rewrite Q1, Q2, Q3, E1, E2, E3. repeat split; nra || ring.
  - intros (t & T & Q1 & Q2 & Q3). exists (t / k). rewrite Q1, Q2, Q3, E1, E2, E3.
    split; [apply div_nonneg; lra|]. repeat split; field; lra.
Qed.
Lemma ray_normal : forall p o d, nonzeroS d -> sameSet (onRay o d) (onRay o (normalize3 p d)).
Proof.
  intros p o d N. destruct (normalize3_unit p d N) as (_ & L & E). eapply ray_direction; [exact L|exact E].
Qed.
Lemma sameSet_sym : forall P Q, sameSet P Q -> sameSet Q P.
Proof. intros P Q H q. symmetry. apply H. Qed.
Lemma sameSet_trans : forall P Q R, sameSet P Q -> sameSet Q R -> sameSet P R.
Proof. intros P Q R H K q. rewrite (H q). apply K. Qed.
Lemma imageOf_same : forall P Q f, sameSet P Q -> sameSet (imageOf P f) (imageOf Q f).
Proof. intros P Q f H q. unfold imageOf. split; intros (q0 & A & B); exists q0; (split; [apply H, A|exact B]). Qed.
Lemma onRay_mul : forall o d v, sameSet (onRay (vmul o v) (vmul d v)) (imageOf (onRay o d) (fun q => timesS q v)).
Proof.
  intros o d v q. split.
  - intros (t & T & E1 & E2 & E3). exists (V4 (vx o + t * vx d) (vy o + t * vy d) (vz o + t * vz d) 0).
    split; [exists t; auto|]. lanesR. rewrite E1, E2, E3. repeat split; ring.
  - intros (q0 & (t & T & E1 & E2 & E3) & F1 & F2 & F3). exists t. lanesR. rewrite F1, F2, F3, E1, E2, E3. repeat split; lra || ring.
Qed.
Lemma onRay_div : forall o d v, allNonzero v -> sameSet (imageOf (onRay (vdiv o v) (vdiv d v)) (fun q => timesS q v)) (onRay o d).
Proof.
  intros o d v (N1 & N2 & N3) q. split.
  - intros (q0 & (t & T & E1 & E2 & E3) & F1 & F2 & F3). exists t. lanesR. rewrite F1, F2, F3, E1, E2, E3.
    repeat split; lra || (field; assumption).
  - intros (t & T & E1 & E2 & E3). exists (V4 (vx q / vx v) (vy q / vy v) (vz q / vz v) 0). lanesR. split.
    + exists t. lanesR. rewrite E1, E2, E3. repeat split; lra || (field; assumption).
    + repeat split; field; assumption.
Qed.
Lemma rays_scale : forall p (r : ray R) v,
  (nonzeroS (vmul (rdir r) v) -> sameSet (rayPoints (rayMul p r v)) (imageOf (rayPoints r) (fun q => timesS q v))) /\
  sameSet (rayPoints (rayMulAssign r v)) (imageOf (rayPoints r) (fun q => timesS q v)) /\
  (allNonzero v -> nonzeroS (rdir r) -> sameSet (imageOf (rayPoints (rayDiv p r v)) (fun q => timesS q v)) (rayPoints r)) /\
  (allNonzero v -> sameSet (imageOf (rayPoints (rayDivAssign r v)) (fun q => timesS q v)) (rayPoints r)).
Proof.
  intros p r v. unfold rayPoints, rayMul, rayDiv, rayMulAssign, rayDivAssign, newRay. cbn [rorigin rdir].
  split; [|split; [|split]].
  - intros N. eapply sameSet_trans; [apply sameSet_sym, ray_normal, N|]. apply onRay_mul.
  - apply onRay_mul.
  - intros A N. eapply sameSet_trans; [|apply onRay_div, A]. apply imageOf_same, sameSet_sym, ray_normal.
    intros (E1 & E2 & E3). apply N. destruct A as (A1 & A2 & A3). lanesR.
    repeat split; [apply (f_equal (fun x => x * vx v)) in E1; rewrite div_cancel in E1 by assumption
                  |apply (f_equal (fun x => x * vy v)) in E2; rewrite div_cancel in E2 by assumption
                  |apply (f_equal (fun x => x * vz v)) in E3; rewrite div_cancel in E3 by assumption]; lra.
  - apply onRay_div.
Qed.
Lemma ray_renormalize : forall p (r : ray R), nonzeroS (rdir r) ->
  dotS (rdir (rayNormalize p r)) (rdir (rayNormalize p r)) = 1 /\ sameSet (rayPoints (rayNormalize p r)) (rayPoints r).
Proof.
  intros p r N. pose proof (proj1 (nonzero_dot (rdir r)) N) as P.
  unfold rayPoints, rayNormalize, vdivn. cbn [rdir rorigin]. rewrite length3R.
  assert (L : 0 < sqrt (dotS (rdir r) (rdir r))) by (apply sqrt_lt_R0; lra).
  assert (S : sqrt (dotS (rdir r) (rdir r)) * sqrt (dotS (rdir r) (rdir r)) = dotS (rdir r) (rdir r)) by (apply sqrt_def; lra).
  set (l := sqrt (dotS (rdir r) (rdir r))) in *. split.
  - unfold dotS at 1. unfold vdiv, map2_4, dup4. cbn [vx vy vz vw sdiv ScalarR].
    transitivity (dotS (rdir r) (rdir r) / (l * l)); [unfold dotS; field; lra|]. rewrite S. field. lra.
  - apply sameSet_sym, (ray_direction _ _ _ l L). unfold eq3, vdiv, map2_4, dup4. cbn [vx vy vz vw sdiv ScalarR].
    repeat split; field; lra.
Qed.
(** moving by [w]: the direction is moved too *)
Lemma ray_moved : forall p o d w, nonzeroS d -> nonzeroS (vadd d w) ->
  (sameSet (onRay (vadd o w) (normalize3 p (vadd d w))) (imageOf (onRay o d) (fun q => plusS q w)) <->
   exists k, 0 < k /\ eq3 (vadd d w) (V4 (k * vx d) (k * vy d) (k * vz d) 0)).
Proof.
  intros p o d w N N'. pose proof (ray_normal p (vadd o w) _ N') as Z.
  assert (M : sameSet (onRay (vadd o w) d) (imageOf (onRay o d) (fun q => plusS q w))).
  { intros q. split.
    - intros (t & T & E). exists (minusS q w). lanesR. split; [exists t; lanesR; repeat split; lra|repeat split; lra].
    - intros (q0 & (t & T & E) & F). exists t. lanesR. repeat split; lra. }
  split.
  - intros H.
    assert (K : onRay (vadd o w) (vadd d w) (plusS (plusS o d) w)).
    { apply Z, H. exists (plusS o d). split; [|repeat split]. exists 1. unfold plusS. cbn [vx vy vz]. repeat split; lra. }
    destruct K as (t & T & E1 & E2 & E3). lanesR.
    assert (T0 : t <> 0).
    { intros ->. apply N. repeat split; lra. }
    exists (/ t). split; [apply Rinv_0_lt_compat; lra|].
    assert (D1 : vx d = t * (vx d + vx w)) by lra. assert (D2 : vy d = t * (vy d + vy w)) by lra. assert (D3 : vz d = t * (vz d + vz w)) by lra.
    repeat split; [rewrite D1 at 2|rewrite D2 at 2|rewrite D3 at 2]; field; exact T0.
  - intros (k & K & E). eapply sameSet_trans; [apply sameSet_sym; exact Z|]. eapply sameSet_trans; [|exact M].
    apply (ray_direction _ _ _ k K E).
Qed.
Lemma ray_add_actual : forall p (r : ray R) v, nonzeroS (rdir r) -> nonzeroS (vadd (rdir r) v) ->
  (sameSet (rayPoints (rayAdd p r v)) (imageOf (rayPoints r) (fun q => plusS q v)) <->
   exists k, 0 < k /\ eq3 (vadd (rdir r) v) (V4 (k * vx (rdir r)) (k * vy (rdir r)) (k * vz (rdir r)) 0)).
Proof. intros p r v. apply ray_moved. Qed.
Lemma ray_add_refuted : exists (r : ray R) v, nonzeroS (rdir r) /\ nonzeroS (vadd (rdir r) v) /\
  forall p, ~ sameSet (rayPoints (rayAdd p r v)) (imageOf (rayPoints r) (fun q => plusS q v)) /\
            ~ sameSet (rayPoints (rayAddAssign r v)) (imageOf (rayPoints r) (fun q => plusS q v)).
Proof.
  set (r := mkRay (V4 1 0 0 0) (dup4 0%Z) (V4 0 0 0 0) : ray R). exists r, (V4 0 1 0 0).
  assert (N : nonzeroS (rdir r)) by (unfold nonzeroS, r; cbn; lra).
  assert (N' : nonzeroS (vadd (rdir r) (V4 0 1 0 0))) by (unfold nonzeroS, r, vadd, map2_4; cbn; lra).
  split; [exact N|]. split; [exact N'|]. intros p.
  assert (A : ~ sameSet (rayPoints (rayAdd p r (V4 0 1 0 0))) (imageOf (rayPoints r) (fun q => plusS q (V4 0 1 0 0)))).
  { rewrite ray_add_actual by assumption. intros (k & K & E1 & E2 & _). unfold r, vadd, map2_4 in *. cbn in *. lra. }
  split; [exact A|]. intros H. apply A. eapply sameSet_trans; [|exact H].
  unfold rayPoints, rayAdd, newRay, rayAddAssign. cbn [rdir rorigin]. apply sameSet_sym, ray_normal, N'.
Qed.
Lemma ray_sub_refuted : exists (r : ray R) v, nonzeroS (rdir r) /\ nonzeroS (vsub (rdir r) v) /\
  forall p, ~ sameSet (rayPoints (raySub p r v)) (imageOf (rayPoints r) (fun q => minusS q v)) /\
            ~ sameSet (rayPoints (raySubAssign r v)) (imageOf (rayPoints r) (fun q => minusS q v)).
Proof.
  set (r := mkRay (V4 1 0 0 0) (dup4 0%Z) (V4 0 0 0 0) : ray R). exists r, (V4 0 1 0 0).
  assert (N : nonzeroS (rdir r)) by (unfold nonzeroS, r; cbn; lra).
  assert (N' : nonzeroS (vsub (rdir r) (V4 0 1 0 0))) by (unfold nonzeroS, r, vsub, map2_4; cbn; lra).
  split; [exact N|]. split; [exact N'|]. intros p.
  assert (B : ~ sameSet (rayPoints (raySubAssign r (V4 0 1 0 0))) (imageOf (rayPoints r) (fun q => minusS q (V4 0 1 0 0)))).
  { intros H. destruct (proj2 (H (V4 1 (-1) 0 0))) as (t & T & E1 & E2 & _).
    - exists (V4 1 0 0 0). split; [exists 1; unfold r; cbn; repeat split; lra|]. unfold minusS, eq3. cbn. repeat split; lra.
    - unfold r, raySubAssign, vsub, map2_4 in *. cbn in *. lra. }
  split; [|exact B]. intros H. apply B. eapply sameSet_trans; [|exact H].
  unfold rayPoints, raySub, newRay, raySubAssign. cbn [rdir rorigin]. apply ray_normal, N'.
Qed.
