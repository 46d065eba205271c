(** C27 - C29: the plane of a triangle, barycentric coordinates and the closest point of a
    triangle in exact arithmetic. *)
From Coq Require Import ZArith Bool List Reals Lra Psatz.
From Verif.Model Require Import Scalar Vec Simd Aabb Geometry.
From Verif.Spec Require Import GeomSpec BvhGeomSpec EuclidSpec.
From Verif.Proofs Require Import OrdScalar AabbOrder Frustum RealLits RayProofs Euclid GeometryProofs.
Local Open Scope R_scope.

(** ** Barycentric coordinates *)
Lemma dot_eq3 : forall a b c, eq3 a b -> dotS a c = dotS b c.
Proof. intros a b c (E1 & E2 & E3). unfold dotS. rewrite E1, E2, E3. reflexivity. Qed.
Lemma eq3_sym : forall a b, eq3 a b -> eq3 b a.
Proof. intros a b (? & ? & ?). repeat split; auto. Qed.
Lemma lagrange : forall a b, dotS (crossS a b) (crossS a b) = dotS a a * dotS b b - dotS a b * dotS a b.
Proof. intros. unfold dotS, crossS. cbn [vx vy vz]. ring. Qed.
(** coordinates of a vector of the plane spanned by a and b *)
Lemma plane_coords : forall a b v, dotS (crossS a b) v = 0 -> 0 < dotS (crossS a b) (crossS a b) ->
  exists x y, vx v = x * vx a + y * vx b /\ vy v = x * vy a + y * vy b /\ vz v = x * vz a + y * vz b.
Proof.
  intros a b v H0 HN. set (N := crossS a b) in *. set (NN := dotS N N) in *.
  exists (dotS (crossS v b) N / NN), (dotS (crossS a v) N / NN).
  assert (I : forall c : vec4 R -> R, c = vx \/ c = vy \/ c = vz ->
    NN * c v = dotS (crossS v b) N * c a + dotS (crossS a v) N * c b + dotS N v * c N).
  { intros c [->|[->| ->]]; unfold NN, N, dotS, crossS; cbn [vx vy vz]; ring. }
  rewrite H0 in I.
  repeat split.
  - specialize (I vx (or_introl eq_refl)). apply (Rmult_eq_reg_l NN); [|lra]. rewrite I. field. lra.
  - specialize (I vy (or_intror (or_introl eq_refl))). apply (Rmult_eq_reg_l NN); [|lra]. rewrite I. field. lra.
  - specialize (I vz (or_intror (or_intror eq_refl))). apply (Rmult_eq_reg_l NN); [|lra]. rewrite I. field. lra.
Qed.
Lemma bary_exists : forall t q, nonzeroS (normalS t) -> inPlaneOf t q ->
  exists u v w, u + v + w = 1 /\ combination t u v w q.
Proof.
  intros t q HN Hq. apply nonzero_dot in HN.
  destruct (plane_coords _ _ _ Hq HN) as (v & w & E1 & E2 & E3). unfold minusS in E1, E2, E3. cbn [vx vy vz] in *.
  exists (1 - v - w), v, w. split; [ring|]. unfold combination. lra.
Qed.
Lemma combination_plane : forall t u v w q, u + v + w = 1 -> combination t u v w q -> inPlaneOf t q.
Proof.
  intros t u v w q H (E1 & E2 & E3). assert (u = 1 - v - w) by lra. subst u.
  unfold inPlaneOf, normalS, dotS, crossS, minusS. cbn [vx vy vz]. rewrite E1, E2, E3. ring.
Qed.
Lemma calcBarycentricR : forall p t q u v w, nonzeroS (normalS t) -> u + v + w = 1 -> combination t u v w q ->
  calcBarycentric p t q = V4 u v w 0.
Proof.
  intros p t q u v w HN HS (E1 & E2 & E3). apply nonzero_dot in HN. unfold normalS in HN. rewrite lagrange in HN.
  unfold calcBarycentric. rewrite !dot3R, f0R, f1R.
  set (a := minusS (t1 t) (t0 t)) in *. set (b := minusS (t2 t) (t0 t)) in *.
  change (vsub (t1 t) (t0 t)) with (V4 (vx a) (vy a) (vz a) (vw (t1 t) - vw (t0 t))).
  change (vsub (t2 t) (t0 t)) with (V4 (vx b) (vy b) (vz b) (vw (t2 t) - vw (t0 t))).
  cbn [vx vy vz]. fold (dotS a a) (dotS b b) (dotS a b).
  assert (D0 : vx (vsub q (t0 t)) * vx a + vy (vsub q (t0 t)) * vy a + vz (vsub q (t0 t)) * vz a = v * dotS a a + w * dotS a b).
  { unfold vsub, map2_4, a, b, dotS, minusS. cbn [vx vy vz ssub ScalarR]. rewrite E1, E2, E3. assert (u = 1 - v - w) by lra. subst u. ring. }
  assert (D1 : vx (vsub q (t0 t)) * vx b + vy (vsub q (t0 t)) * vy b + vz (vsub q (t0 t)) * vz b = v * dotS a b + w * dotS b b).
  { unfold vsub, map2_4, a, b, dotS, minusS. cbn [vx vy vz ssub ScalarR]. rewrite E1, E2, E3. assert (u = 1 - v - w) by lra. subst u. ring. }
  rewrite D0, D1. cbn [sdiv ssub smul ScalarR].
  assert (Ev : (dotS b b * (v * dotS a a + w * dotS a b) - dotS a b * (v * dotS a b + w * dotS b b)) *
    (1 / (dotS a a * dotS b b - dotS a b * dotS a b)) = v) by (field; lra).
  assert (Ew : (dotS a a * (v * dotS a b + w * dotS b b) - dotS a b * (v * dotS a a + w * dotS a b)) *
    (1 / (dotS a a * dotS b b - dotS a b * dotS a b)) = w) by (field; lra).
  rewrite Ev, Ew. f_equal. lra.
Qed.
(** the coordinates are unique *)
Lemma bary_unique : forall t q u v w u' v' w', nonzeroS (normalS t) ->
  u + v + w = 1 -> combination t u v w q -> u' + v' + w' = 1 -> combination t u' v' w' q -> u = u' /\ v = v' /\ w = w'.
Proof.
  intros t q u v w u' v' w' HN H1 H2 H3 H4.
  pose proof (calcBarycentricR GEN t q u v w HN H1 H2) as A. pose proof (calcBarycentricR GEN t q u' v' w' HN H3 H4) as B.
  rewrite A in B. injection B. auto.
Qed.
Theorem calcBarycentric_R : forall p t q, nonzeroS (normalS t) -> inPlaneOf t q ->
  let c := calcBarycentric p t q in
  vx c + vy c + vz c = 1 /\ combination t (vx c) (vy c) (vz c) q /\ vw c = 0 /\
  ((0 <= vx c /\ 0 <= vy c /\ 0 <= vz c) <-> inTriangle t q).
Proof.
  intros p t q HN Hq c. destruct (bary_exists t q HN Hq) as (u & v & w & HS & HC).
  unfold c. rewrite (calcBarycentricR p t q u v w HN HS HC). cbn [vx vy vz vw].
  split; [exact HS|]. split; [exact HC|]. split; [reflexivity|]. split.
  - intros (? & ? & ?). exists u, v, w. auto.
  - intros (u' & v' & w' & ? & ? & ? & HS' & HC').
    destruct (bary_unique t q u v w u' v' w' HN HS HC HS' HC') as (-> & -> & ->). auto.
Qed.

(** ** isInside *)
Lemma cross_scaled : forall p t q u v w, u + v + w = 1 -> combination t u v w q ->
  let N := normalS t in
  eq3 (cross3 p (vsub (t1 t) q) (vsub (t2 t) q)) (V4 (u * vx N) (u * vy N) (u * vz N) 0) /\
  eq3 (cross3 p (vsub (t2 t) q) (vsub (t0 t) q)) (V4 (v * vx N) (v * vy N) (v * vz N) 0) /\
  eq3 (cross3 p (vsub (t0 t) q) (vsub (t1 t) q)) (V4 (w * vx N) (w * vy N) (w * vz N) 0).
Proof.
  intros p t q u v w HS (E1 & E2 & E3) N.
  assert (HC : forall a b c, eq3 (crossS a b) c -> eq3 (cross3 p a b) c).
  { intros a b c (A1 & A2 & A3). destruct (cross3R p a b) as (B1 & B2 & B3). repeat split; congruence. }
  assert (u = 1 - v - w) by lra. subst u.
  repeat split; cbn [vx vy vz];
    first [rewrite (proj1 (cross3R p _ _)) | rewrite (proj1 (proj2 (cross3R p _ _))) | rewrite (proj2 (proj2 (cross3R p _ _)))];
    unfold N, normalS, crossS, minusS, vsub, map2_4; cbn [vx vy vz ssub ScalarR]; rewrite ?E1, ?E2, ?E3; ring.
Qed.
Lemma isInsideTriangleR : forall p t q u v w, nonzeroS (normalS t) -> u + v + w = 1 -> combination t u v w q ->
  (isInsideTriangle p t q = true <-> 0 <= u * v /\ 0 <= u * w).
Proof.
  intros p t q u v w HN HS HC. apply nonzero_dot in HN.
  destruct (cross_scaled p t q u v w HS HC) as ((U1 & U2 & U3) & (V1 & V2 & V3) & (W1 & W2 & W3)).
  unfold isInsideTriangle. rewrite !dot3R, f0R. rewrite U1, U2, U3, V1, V2, V3, W1, W2, W3. cbn [vx vy vz].
  set (N := normalS t) in *.
  replace (u * vx N * (v * vx N) + u * vy N * (v * vy N) + u * vz N * (v * vz N)) with (u * v * dotS N N) by (unfold dotS; ring).
  replace (u * vx N * (w * vx N) + u * vy N * (w * vy N) + u * vz N * (w * vz N)) with (u * w * dotS N N) by (unfold dotS; ring).
  assert (HH : forall x, slt (x * dotS N N) 0 = true <-> x < 0).
  { intros x. rewrite sltR. split; intros; nra. }
  destruct (slt (u * v * dotS N N) 0) eqn:A; [rewrite HH in A; cbn; split; [discriminate|lra]|].
  apply sltR_false in A. destruct (slt (u * w * dotS N N) 0) eqn:B; [rewrite HH in B; cbn; split; [discriminate|lra]|].
  apply sltR_false in B. cbn. split; [intros _|reflexivity]. split; nra.
Qed.
Theorem isInsideTriangle_R : forall p t q, nonzeroS (normalS t) -> inPlaneOf t q ->
  (isInsideTriangle p t q = true <-> inTriangle t q \/ onLine (t1 t) (t2 t) q).
Proof.
  intros p t q HN Hq. destruct (bary_exists t q HN Hq) as (u & v & w & HS & HC).
  rewrite (isInsideTriangleR p t q u v w HN HS HC). split.
  - intros (A & B). destruct (Rtotal_order u 0) as [L|[E|G]].
    + exfalso. assert (v <= 0) by nra. assert (w <= 0) by nra. lra.
    + right. subst u. exists w. destruct HC as (E1 & E2 & E3). assert (v = 1 - w) by lra. subst v.
      rewrite E1, E2, E3. repeat split; ring.
    + left. exists u, v, w. split; [lra|]. split; [nra|]. split; [nra|]. auto.
  - intros [(u' & v' & w' & ? & ? & ? & HS' & HC')|(s & E1 & E2 & E3)].
    + destruct (bary_unique t q u v w u' v' w' HN HS HC HS' HC') as (-> & -> & ->). split; nra.
    + destruct (bary_unique t q u v w 0 (1 - s) s HN HS HC) as (-> & -> & ->); [ring| |lra].
      unfold combination. rewrite E1, E2, E3. repeat split; ring.
Qed.

(** ** The plane of a triangle *)
Lemma planeOfTriangleR : forall p t, nonzeroS (normalS t) ->
  let N := normalS t in let L := sqrt (dotS N N) in
  planeOfTriangle p t = withW (planeOfTriangle p t) (dotS N (t0 t) / L) /\
  eq3 (planeOfTriangle p t) (V4 (vx N / L) (vy N / L) (vz N / L) 0) /\ 0 < L /\ L * L = dotS N N.
Proof.
  intros p t HN N L. apply nonzero_dot in HN. fold N in HN. assert (HL : 0 < L) by (apply sqrt_lt_R0; exact HN).
  assert (LL : L * L = dotS N N) by (apply sqrt_sqrt; lra).
  set (c := cross3 p (vsub (t1 t) (t0 t)) (vsub (t2 t) (t0 t))).
  assert (Ec : eq3 c N) by apply cross3R.
  assert (Ed : dotS c c = dotS N N) by (destruct Ec as (A & B & C); unfold dotS; rewrite A, B, C; reflexivity).
  unfold planeOfTriangle. fold c. unfold sgt. rewrite f0R, length3R, Ed. fold L.
  rewrite (proj2 (sltR 0 L) HL).
  destruct (normalize3R p c) as (M1 & M2 & M3). cbn [vx vy vz] in M1, M2, M3.
  destruct Ec as (A & B & C). unfold dotS in Ed. rewrite Ed in M1, M2, M3. fold (dotS N N) in M1, M2, M3. fold L in M1, M2, M3.
  rewrite A in M1. rewrite B in M2. rewrite C in M3.
  split.
  - unfold withW. cbn [vx vy vz]. f_equal. rewrite dot3R. rewrite M1, M2, M3. unfold dotS. field. lra.
  - split; [|auto]. unfold withW, eq3. cbn [vx vy vz]. rewrite M1, M2, M3. auto.
Qed.
Theorem planeOfTriangle_R : forall p t q, nonzeroS (normalS t) -> q = t0 t \/ q = t1 t \/ q = t2 t ->
  planeSide (planeOfTriangle p t) q = 2 * (dotS (normalS t) (t0 t) / sqrt (dotS (normalS t) (normalS t))).
Proof.
  intros p t q HN Hq. destruct (planeOfTriangleR p t HN) as (E & (E1 & E2 & E3) & HL & LL).
  set (N := normalS t) in *. set (L := sqrt (dotS N N)) in *.
  unfold planeSide. rewrite E. unfold withW. cbn [vx vy vz vw]. cbn [vx vy vz] in E1, E2, E3. rewrite E1, E2, E3.
  assert (HI : dotS N q = dotS N (t0 t)).
  { assert (dotS N (minusS q (t0 t)) = 0); [|unfold dotS, minusS in *; cbn [vx vy vz] in *; lra].
    destruct Hq as [->|[->| ->]]; unfold N, normalS, dotS, crossS, minusS; cbn [vx vy vz]; ring. }
  unfold dotS in *. apply (Rmult_eq_reg_r L); [|lra]. field_simplify; lra.
Qed.

(** ** The closest point of a triangle *)
Lemma pythagoras : forall n x q r, dotS n (minusS r q) = 0 ->
  (exists d, vx x = vx q + d * vx n /\ vy x = vy q + d * vy n /\ vz x = vz q + d * vz n) -> sq x r = sq x q + sq q r.
Proof.
  intros n x q r H (d & E1 & E2 & E3). unfold dotS, minusS in H. cbn [vx vy vz] in H. unfold sq. rewrite E1, E2, E3.
  replace (_ + _) with ((vx q + d * vx n - vx q) * (vx q + d * vx n - vx q) + (vy q + d * vy n - vy q) * (vy q + d * vy n - vy q) +
   (vz q + d * vz n - vz q) * (vz q + d * vz n - vz q) +
   ((vx q - vx r) * (vx q - vx r) + (vy q - vy r) * (vy q - vy r) + (vz q - vz r) * (vz q - vz r))
   - 2 * d * (vx n * (vx r - vx q) + vy n * (vy r - vy q) + vz n * (vz r - vz q))) by ring.
  rewrite H. ring.
Qed.
(** a segment from outside the triangle to a point of it crosses an edge *)
Definition onEdges (t : triangle R) (q : vec4 R) : Prop :=
  onSegment (t0 t) (t1 t) q \/ onSegment (t1 t) (t2 t) q \/ onSegment (t2 t) (t0 t) q.
Lemma edge_of_zero : forall t u v w q, 0 <= u -> 0 <= v -> 0 <= w -> u + v + w = 1 -> combination t u v w q ->
  u = 0 \/ v = 0 \/ w = 0 -> onEdges t q.
Proof.
  intros t u v w q Hu Hv Hw HS (E1 & E2 & E3) [->|[->| ->]].
  - right. left. exists w. assert (v = 1 - w) by lra. subst v. rewrite E1, E2, E3. repeat split; try lra; ring.
  - right. right. exists u. assert (w = 1 - u) by lra. subst w. rewrite E1, E2, E3. repeat split; try lra; ring.
  - left. exists v. assert (u = 1 - v) by lra. subst u. rewrite E1, E2, E3. repeat split; try lra; ring.
Qed.
Lemma edges_in_triangle : forall t q, onEdges t q -> inTriangle t q.
Proof.
  intros t q [(s & Hs & E1 & E2 & E3)|[(s & Hs & E1 & E2 & E3)|(s & Hs & E1 & E2 & E3)]].
  - exists (1 - s), s, 0. unfold combination. repeat split; lra.
  - exists 0, (1 - s), s. unfold combination. repeat split; lra.
  - exists s, 0, (1 - s). unfold combination. repeat split; lra.
Qed.
Lemma crossing : forall t q r, nonzeroS (normalS t) -> inPlaneOf t q -> ~ inTriangle t q -> inTriangle t r ->
  exists e, onEdges t e /\ sq q e <= sq q r.
Proof.
  intros t q r HN Hq Ho (u' & v' & w' & Hu' & Hv' & Hw' & HS' & C1 & C2 & C3).
  destruct (bary_exists t q HN Hq) as (u & v & w & HS & D1 & D2 & D3).
  assert (Pick : exists s, 0 <= s <= 1 /\ 0 <= u + s * (u' - u) /\ 0 <= v + s * (v' - v) /\ 0 <= w + s * (w' - w) /\
    (u + s * (u' - u) = 0 \/ v + s * (v' - v) = 0 \/ w + s * (w' - w) = 0)).
  { assert (Step : forall x x', 0 <= x' -> exists s, 0 <= s <= 1 /\ (forall s', s <= s' <= 1 -> 0 <= x + s' * (x' - x)) /\
      (x < 0 -> x + s * (x' - x) = 0) /\ (0 <= x -> s = 0)).
    { intros x x' Hx'. destruct (Rlt_dec x 0) as [L|L].
      - exists (- x / (x' - x)). assert (0 < x' - x) by lra.
        assert (Es : - x / (x' - x) * (x' - x) = - x) by (field; lra).
        assert (0 <= - x / (x' - x)) by (apply Rmult_le_pos; [lra|apply Rlt_le, Rinv_0_lt_compat; lra]).
        split; [split; [lra|nra]|]. split; [|split; lra].
        intros s' Hs'. nra.
      - exists 0. split; [lra|]. split; [|split; intros; lra]. intros s' Hs'. nra. }
    destruct (Step u u' Hu') as (s1 & A1 & A2 & A3 & A4). destruct (Step v v' Hv') as (s2 & B1 & B2 & B3 & B4).
    destruct (Step w w' Hw') as (s3 & G1 & G2 & G3 & G4).
    assert (Hneg : u < 0 \/ v < 0 \/ w < 0).
    { destruct (Rlt_dec u 0); [auto|]. destruct (Rlt_dec v 0); [auto|]. destruct (Rlt_dec w 0); [auto|].
      exfalso. apply Ho. exists u, v, w. unfold combination. repeat split; lra. }
    assert (M : (s2 <= s1 /\ s3 <= s1) \/ (s1 <= s2 /\ s3 <= s2) \/ (s1 <= s3 /\ s2 <= s3)) by lra.
    assert (Zero : forall x x' s, 0 <= s <= 1 -> 0 <= x -> s = 0 -> x + s * (x' - x) = x) by (intros; subst; ring).
    (* the largest parameter belongs to a negative coordinate *)
    destruct M as [(M1 & M2)|[(M1 & M2)|(M1 & M2)]].
    - destruct (Rlt_dec u 0) as [L|L].
      + exists s1. split; [lra|]. split; [apply A2; lra|]. split; [apply B2; lra|]. split; [apply G2; lra|auto].
      + assert (s1 = 0) by (apply A4; lra).
        destruct Hneg as [N|[N|N]]; [lra| |].
        * exists s2. split; [lra|]. split; [apply A2; lra|]. split; [apply B2; lra|]. split; [apply G2; lra|auto].
        * exists s3. split; [lra|]. split; [apply A2; lra|]. split; [apply B2; lra|]. split; [apply G2; lra|auto].
    - destruct (Rlt_dec v 0) as [L|L].
      + exists s2. split; [lra|]. split; [apply A2; lra|]. split; [apply B2; lra|]. split; [apply G2; lra|auto].
      + assert (s2 = 0) by (apply B4; lra).
        destruct Hneg as [N|[N|N]]; [|lra|].
        * exists s1. split; [lra|]. split; [apply A2; lra|]. split; [apply B2; lra|]. split; [apply G2; lra|auto].
        * exists s3. split; [lra|]. split; [apply A2; lra|]. split; [apply B2; lra|]. split; [apply G2; lra|auto].
    - destruct (Rlt_dec w 0) as [L|L].
      + exists s3. split; [lra|]. split; [apply A2; lra|]. split; [apply B2; lra|]. split; [apply G2; lra|auto].
      + assert (s3 = 0) by (apply G4; lra).
        destruct Hneg as [N|[N|N]]; [| |lra].
        * exists s1. split; [lra|]. split; [apply A2; lra|]. split; [apply B2; lra|]. split; [apply G2; lra|auto].
        * exists s2. split; [lra|]. split; [apply A2; lra|]. split; [apply B2; lra|]. split; [apply G2; lra|auto]. }
  destruct Pick as (s & Hs & P1 & P2 & P3 & P4).
  set (e := V4 (vx q + s * (vx r - vx q)) (vy q + s * (vy r - vy q)) (vz q + s * (vz r - vz q)) 0).
  exists e. split.
  - apply (edge_of_zero t (u + s * (u' - u)) (v + s * (v' - v)) (w + s * (w' - w))); auto.
    + replace (_ + _) with ((u + v + w) + s * ((u' + v' + w') - (u + v + w))) by ring. rewrite HS, HS'. ring.
    + unfold combination, e. cbn [vx vy vz]. rewrite C1, C2, C3, D1, D2, D3. repeat split; ring.
  - replace (sq q e) with (s * s * sq q r) by (unfold sq, e; cbn [vx vy vz]; ring).
    pose proof (sq_nonneg q r). assert (s * s <= 1) by nra. nra.
Qed.
Lemma distinct_corners : forall t, nonzeroS (normalS t) ->
  nonzeroS (minusS (t1 t) (t0 t)) /\ nonzeroS (minusS (t2 t) (t1 t)) /\ nonzeroS (minusS (t0 t) (t2 t)).
Proof.
  intros t HN. unfold nonzeroS, normalS, crossS, minusS in *. cbn [vx vy vz] in *.
  repeat split; intros (E1 & E2 & E3); apply HN.
  - rewrite E1, E2, E3. repeat split; ring.
  - replace (vx (t2 t)) with (vx (t1 t)) by lra. replace (vy (t2 t)) with (vy (t1 t)) by lra. replace (vz (t2 t)) with (vz (t1 t)) by lra.
    repeat split; ring.
  - replace (vx (t2 t)) with (vx (t0 t)) by lra. replace (vy (t2 t)) with (vy (t0 t)) by lra. replace (vz (t2 t)) with (vz (t0 t)) by lra.
    repeat split; ring.
Qed.
Lemma vmin3R : forall p (v : vec4 R), vmin3 p v = Rmin (Rmin (vx v) (vy v)) (vz v).
Proof.
  intros p [x y z w]. unfold vmin3, vmin, map2_4, swYUZU, swZUUU. cbn [vx vy vz vw]. rewrite !simdminR.
  unfold Rmin; repeat destruct Rle_dec; lra.
Qed.
Lemma vmax3R : forall p (v : vec4 R), vmax3 p v = Rmax (Rmax (vx v) (vy v)) (vz v).
Proof.
  intros p [x y z w]. unfold vmax3, vmax, map2_4, swYUZU, swZUUU. cbn [vx vy vz vw]. rewrite !simdmaxR.
  unfold Rmax; repeat destruct Rle_dec; lra.
Qed.
Theorem closestPointTriangle_R : forall p t x, nonzeroS (normalS t) -> dotS (normalS t) (t0 t) = 0 ->
  (forall q, isNearest (inPlaneOf t) x q -> onLine (t1 t) (t2 t) q -> onSegment (t1 t) (t2 t) q) ->
  isNearest (inTriangle t) x (closestPointTriangle p t x).
Proof.
  intros p t x HN H0 Hside. destruct (planeOfTriangleR p t HN) as (E & (E1 & E2 & E3) & HL & LL).
  set (N := normalS t) in *. set (L := sqrt (dotS N N)) in *. cbn [vx vy vz] in E1, E2, E3.
  set (pl := planeOfTriangle p t) in *.
  assert (Hw : vw pl = 0). { rewrite E. unfold withW. cbn [vw]. rewrite H0. unfold Rdiv. ring. }
  assert (U : dotS pl pl = 1).
  { unfold dotS. rewrite E1, E2, E3. replace (_ + _) with (dotS N N / (L * L)) by (unfold dotS; field; lra). rewrite LL. field. rewrite <- LL. nra. }
  assert (HP : forall q, onPlane pl q <-> inPlaneOf t q).
  { intros q. unfold onPlane, inPlaneOf. fold N. rewrite Hw.
    replace (dotS pl q + 0) with (dotS N (minusS q (t0 t)) / L).
    - split; intros HH.
      + replace (dotS N (minusS q (t0 t))) with (dotS N (minusS q (t0 t)) / L * L) by (field; lra). rewrite HH. ring.
      + rewrite HH. field. lra.
    - unfold dotS, minusS in *. cbn [vx vy vz]. rewrite E1, E2, E3. field_simplify; [|lra|lra]. f_equal. lra. }
  destruct (closestPointPlane_nearest p pl x U) as (Hnear & _).
  assert (Hfoot : isNearest (inPlaneOf t) x (closestPointPlane p pl x)).
  { destruct Hnear as (A & B). split; [apply HP, A|]. intros r Hr. apply B, HP, Hr. }
  destruct (closestPointPlaneR p pl x) as (F1 & F2 & F3). cbn [vx vy vz] in F1, F2, F3.
  unfold closestPointTriangle. fold pl. set (q := closestPointPlane p pl x) in *.
  assert (Hq : inPlaneOf t q) by apply Hfoot.
  assert (Pyth : forall r, inPlaneOf t r -> sq x r = sq x q + sq q r).
  { intros r Hr. apply (pythagoras pl).
    - apply HP in Hr. apply HP in Hq. unfold onPlane, dotS, minusS in *. cbn [vx vy vz]. lra.
    - exists (planeSide pl x). rewrite F1, F2, F3. repeat split; ring. }
  assert (HT : forall r, inTriangle t r -> inPlaneOf t r).
  { intros r (u & v & w & _ & _ & _ & HS & HC). exact (combination_plane t u v w r HS HC). }
  destruct (isInsideTriangle p t q) eqn:EI.
  - apply (isInsideTriangle_R p t q HN Hq) in EI.
    assert (Hin : inTriangle t q).
    { destruct EI as [EI|EI]; [exact EI|]. apply edges_in_triangle. right. left. exact (Hside q Hfoot EI). }
    apply nearest_sq; [exact Hin|]. intros r Hr. rewrite (Pyth r (HT r Hr)). pose proof (sq_nonneg q r). lra.
  - assert (Hout : ~ inTriangle t q).
    { intros Hin. assert (isInsideTriangle p t q = true) by (apply isInsideTriangle_R; auto). congruence. }
    destruct (distinct_corners t HN) as (K0 & K1 & K2).
    pose proof (closestPointSegment_nearest p (t0 t) (t1 t) q K0) as S0.
    pose proof (closestPointSegment_nearest p (t1 t) (t2 t) q K1) as S1.
    pose proof (closestPointSegment_nearest p (t2 t) (t0 t) q K2) as S2.
    set (e0 := closestPointSegment p (t0 t) (t1 t) q) in *. set (e1 := closestPointSegment p (t1 t) (t2 t) q) in *.
    set (e2 := closestPointSegment p (t2 t) (t0 t) q) in *.
    assert (LS : forall a b : vec4 R, lengthSq3 p (vsub a b) = sq a b) by (intros; rewrite lengthSq3R; reflexivity).
    assert (Best : forall e, onEdges t e -> sq q e <= sq q e0 -> sq q e <= sq q e1 -> sq q e <= sq q e2 -> isNearest (inTriangle t) x e).
    { intros e He B0 B1 B2. apply nearest_sq; [apply edges_in_triangle, He|]. intros r Hr.
      rewrite (Pyth e (HT e (edges_in_triangle t e He))), (Pyth r (HT r Hr)).
      destruct (crossing t q r HN Hq Hout Hr) as (f & Hf & Hle).
      assert (sq q e <= sq q f); [|lra].
      destruct Hf as [Hf|[Hf|Hf]].
      - pose proof (nearest_sq_inv _ _ _ S0 f Hf). lra.
      - pose proof (nearest_sq_inv _ _ _ S1 f Hf). lra.
      - pose proof (nearest_sq_inv _ _ _ S2 f Hf). lra. }
    cbv zeta. rewrite vmin3R, !LS. unfold of3. cbn [vx vy vz].
    set (m := Rmin (Rmin (sq q e0) (sq q e1)) (sq q e2)).
    assert (Hm : m <= sq q e0 /\ m <= sq q e1 /\ m <= sq q e2 /\ (m = sq q e0 \/ m = sq q e1 \/ m = sq q e2)).
    { unfold m, Rmin. repeat destruct Rle_dec; lra. }
    destruct (seq m (sq q e0)) eqn:Z0.
    + apply seqR in Z0. apply Best; [left; apply S0|lra|lra|lra].
    + destruct (seq m (sq q e1)) eqn:Z1.
      * apply seqR in Z1. apply Best; [right; left; apply S1|lra|lra|lra].
      * assert (m = sq q e2).
        { destruct Hm as (_ & _ & _ & [Hm|[Hm|Hm]]); [apply seqR in Hm; congruence|apply seqR in Hm; congruence|exact Hm]. }
        apply Best; [right; right; apply S2|lra|lra|lra].
Qed.
