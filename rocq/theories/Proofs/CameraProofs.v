(** View and projection matrices over the reals. *)
From Coq Require Import ZArith Bool Reals Lra Lia.
From Flocq Require Import Core.Core.
From Verif.Model Require Import Scalar Vec Simd Matrix Trig Quaternion Transform.
From Verif.Spec Require Import GeomSpec MatSpec EuclidSpec RotSpec ProjSpec.
From Verif.Proofs Require Import OrdScalar Frustum RealLits RayProofs Euclid MatrixProofs QuatProofs QuatTrig GeometryProofs TriangleProofs TransformProofs.
Local Open Scope R_scope.

(** *** C47 *)
Lemma normalize3_unit : forall p (v : vec4 R), nonzeroS v -> dotS (normalize3 p v) (normalize3 p v) = 1 /\
  0 < sqrt (dotS v v) /\ eq3 v (scaleQ (sqrt (dotS v v)) (normalize3 p v)).
Proof.
  intros p v H. destruct (normalize3R p v) as (E1 & E2 & E3). pose proof (proj1 (nonzero_dot v) H) as P.
  change (vx v * vx v + vy v * vy v + vz v * vz v) with (dotS v v) in *. cbn [vx vy vz] in E1, E2, E3.
  assert (L : 0 < sqrt (dotS v v)) by (apply sqrt_lt_R0; lra).
  assert (S : sqrt (dotS v v) * sqrt (dotS v v) = dotS v v) by (apply sqrt_def; lra).
  split; [|split; [exact L|]].
  - unfold dotS at 1. rewrite E1, E2, E3. set (l := sqrt (dotS v v)) in *.
    transitivity (dotS v v / (l * l)); [unfold dotS; field; lra|]. rewrite S. field. lra.
  - unfold eq3, scaleQ. cbn [vx vy vz]. rewrite E1, E2, E3. repeat split; field; lra.
Qed.
(** right-handed frame built from a forward direction and an up hint *)
Lemma frame : forall p (f up : vec4 R), dotS f f = 1 -> nonzeroS (crossS up f) ->
  let s := normalize3 p (cross3 p up f) in let u := cross3 p f s in
  dotS s s = 1 /\ dotS u u = 1 /\ dotS s f = 0 /\ dotS u f = 0 /\ dotS s u = 0 /\
  eq3 (crossS s u) f /\ dotS s up = 0 /\ 0 < dotS u up.
Proof.
  intros p f up Hf Hn s u.
  pose proof (cross3R p up f) as Er.
  assert (Hn' : nonzeroS (cross3 p up f)).
  { destruct Er as (A & B & C). unfold nonzeroS in *. rewrite A, B, C. exact Hn. }
  destruct (normalize3_unit p _ Hn') as (S1 & L & E). fold s in S1, E. set (l := sqrt (dotS (cross3 p up f) (cross3 p up f))) in *. clearbody l.
  pose proof (cross3R p f s) as Eu. fold u in Eu. clearbody s u. clear Hn'.
  destruct Er as (R1 & R2 & R3), E as (E1 & E2 & E3), Eu as (U1 & U2 & U3).
  rewrite R1 in E1. rewrite R2 in E2. rewrite R3 in E3. clear R1 R2 R3.
  destruct f as [f1 f2 f3 f4], up as [p1 p2 p3 p4], s as [s1 s2 s3 s4], u as [u1 u2 u3 u4].
  unfold dotS, crossS, scaleQ, eq3, nonzeroS in *. cbn [vx vy vz vw] in *. subst u1 u2 u3.
  assert (D1 : l * (s1 * f1 + s2 * f2 + s3 * f3) = 0).
  { transitivity (l * s1 * f1 + l * s2 * f2 + l * s3 * f3); [ring|]. rewrite <- E1, <- E2, <- E3. ring. }
  assert (D : s1 * f1 + s2 * f2 + s3 * f3 = 0) by (apply Rmult_integral in D1; destruct D1; lra).
  assert (D2 : l * (s1 * p1 + s2 * p2 + s3 * p3) = 0).
  { transitivity (l * s1 * p1 + l * s2 * p2 + l * s3 * p3); [ring|]. rewrite <- E1, <- E2, <- E3. ring. }
  assert (D3 : s1 * p1 + s2 * p2 + s3 * p3 = 0) by (apply Rmult_integral in D2; destruct D2; lra).
  assert (LG : forall a b c d e g, (a * a + b * b + c * c) * (d * d + e * e + g * g) - (a * d + b * e + c * g) * (a * d + b * e + c * g) =
    (b * g - c * e) * (b * g - c * e) + (c * d - a * g) * (c * d - a * g) + (a * e - b * d) * (a * e - b * d)) by (intros; ring).
  split; [exact S1|]. split.
  { rewrite <- LG, Hf, S1. replace (f1 * s1 + f2 * s2 + f3 * s3) with (s1 * f1 + s2 * f2 + s3 * f3) by ring. rewrite D. ring. }
  split; [exact D|]. split; [ring|]. split; [ring|]. split.
  { split; [|split].
    - transitivity (f1 * (s1 * s1 + s2 * s2 + s3 * s3) - s1 * (s1 * f1 + s2 * f2 + s3 * f3)); [ring|rewrite S1, D; ring].
    - transitivity (f2 * (s1 * s1 + s2 * s2 + s3 * s3) - s2 * (s1 * f1 + s2 * f2 + s3 * f3)); [ring|rewrite S1, D; ring].
    - transitivity (f3 * (s1 * s1 + s2 * s2 + s3 * s3) - s3 * (s1 * f1 + s2 * f2 + s3 * f3)); [ring|rewrite S1, D; ring]. }
  split; [exact D3|].
  (* (f x s).up = s.(up x f) = l *)
  replace ((f2 * s3 - f3 * s2) * p1 + (f3 * s1 - f1 * s3) * p2 + (f1 * s2 - f2 * s1) * p3) with l; [exact L|].
  transitivity (l * (s1 * s1 + s2 * s2 + s3 * s3)); [rewrite S1; ring|].
  transitivity (s1 * (l * s1) + s2 * (l * s2) + s3 * (l * s3)); [ring|]. rewrite <- E1, <- E2, <- E3. ring.
Qed.
Lemma general_frame : forall p from to up, general from to up ->
  let f := normalize3 p (vsub to from) in
  dotS f f = 1 /\ nonzeroS (crossS up f) /\ 0 < distS to from /\ eq3 (minusS to from) (scaleQ (distS to from) f).
Proof.
  intros p from to up H f.
  assert (E : eq3 (vsub to from) (minusS to from)) by (repeat split).
  assert (Hn : nonzeroS (vsub to from)).
  { intros (A & B & C). apply H. unfold vsub, map2_4, crossS, minusS in *. cbn [vx vy vz ssub ScalarR] in *. rewrite A, B, C. repeat split; ring. }
  destruct (normalize3_unit p _ Hn) as (U & L & S). fold f in U, S.
  assert (D : sqrt (dotS (vsub to from) (vsub to from)) = distS to from) by reflexivity.
  rewrite D in L, S. split; [exact U|]. split; [|split; [exact L|]].
  - intros (A & B & C). apply H. destruct S as (S1 & S2 & S3). destruct E as (E1 & E2 & E3). rewrite E1 in S1. rewrite E2 in S2. rewrite E3 in S3.
    unfold crossS. unfold crossS in A, B, C. cbn [vx vy vz] in A, B, C. unfold scaleQ in *. cbn [vx vy vz vw] in S1, S2, S3.
    cbn [vx vy vz vw]. rewrite S1, S2, S3. set (l := distS to from) in *. repeat split.
    + transitivity (l * (vy up * vz f - vz up * vy f)); [ring|rewrite A; ring].
    + transitivity (l * (vz up * vx f - vx up * vz f)); [ring|rewrite B; ring].
    + transitivity (l * (vx up * vy f - vy up * vx f)); [ring|rewrite C; ring].
  - exact S.
Qed.
Lemma lookAt_rows : forall p (from to up : vec4 R), let f := normalize3 p (vsub to from) in
  let s := normalize3 p (cross3 p up f) in let u := cross3 p f s in
  lookAt p from to up = M4 (V4 (vx s) (vx u) (vx f) 0) (V4 (vy s) (vy u) (vy f) 0) (V4 (vz s) (vz u) (vz f) 0)
    (V4 (- dotS s from) (- dotS u from) (- dotS f from) 1).
Proof.
  intros p from to up f s u. unfold lookAt. fold f. fold s. fold u. cbv zeta. rewrite transpose4x4R, !dot3R, f0R, f1R. reflexivity.
Qed.
Theorem lookAt_correct : forall p (from to up : vec4 R), general from to up -> let m := lookAt p from to up in
  mulV p m (withW from f1) = V4 0 0 0 1 /\
  mulV p m (withW to f1) = V4 0 0 (distS to from) 1 /\
  isOrthogonal 3 (ent4 m) /\ det 3 (ent4 m) = 1 /\ vw (c0 m) = 0 /\ vw (c1 m) = 0 /\ vw (c2 m) = 0 /\ vw (c3 m) = 1 /\
  vx (mulV p m (withW up f0)) = 0 /\ 0 < vy (mulV p m (withW up f0)).
Proof.
  intros p from to up H m. destruct (general_frame p from to up H) as (F1 & F2 & F3 & F4).
  unfold m. rewrite lookAt_rows. cbv zeta. destruct (frame p _ up F1 F2) as (S1 & S2 & S3 & S4 & S5 & S6 & S7 & S8).
  set (f := normalize3 p (vsub to from)) in *. set (s := normalize3 p (cross3 p up f)) in *. set (u := cross3 p f s) in *.
  set (l := distS to from) in *. clearbody f s u l. rewrite !mulVR. clear H F2 m.
  destruct f as [f1 f2 f3 f4], up as [p1 p2 p3 p4], s as [s1 s2 s3 s4], u as [u1 u2 u3 u4], from as [o1 o2 o3 o4], to as [t1 t2 t3 t4].
  unfold dotS, crossS, scaleQ, eq3, minusS in *. cbn [vx vy vz vw] in *.
  destruct F4 as (G1 & G2 & G3). destruct S6 as (C1 & C2 & C3).
  assert (T1 : t1 = o1 + l * f1) by lra. assert (T2 : t2 = o2 + l * f2) by lra. assert (T3 : t3 = o3 + l * f3) by lra. subst t1 t2 t3.
  split; [|split; [|split; [|split]]].
  - qcbn. f_equal; ring.
  - qcbn. f_equal; try ring.
    + transitivity (l * (s1 * f1 + s2 * f2 + s3 * f3)); [ring|rewrite S3; ring].
    + transitivity (l * (u1 * f1 + u2 * f2 + u3 * f3)); [ring|rewrite S4; ring].
    + transitivity (l * (f1 * f1 + f2 * f2 + f3 * f3)); [ring|rewrite F1; ring].
  - (* rows orthonormal implies columns orthonormal: express through the cross products *)
    assert (K : forall x y z : R, True) by auto. clear K.
    (* u = f x s, f = s x u, s = u x f *)
    assert (U1 : u2 * f3 - u3 * f2 = s1 /\ u3 * f1 - u1 * f3 = s2 /\ u1 * f2 - u2 * f1 = s3).
    { rewrite <- C1, <- C2, <- C3. repeat split.
      - transitivity (s1 * (u1 * u1 + u2 * u2 + u3 * u3) - u1 * (s1 * u1 + s2 * u2 + s3 * u3)); [ring|rewrite S2, S5; ring].
      - transitivity (s2 * (u1 * u1 + u2 * u2 + u3 * u3) - u2 * (s1 * u1 + s2 * u2 + s3 * u3)); [ring|rewrite S2, S5; ring].
      - transitivity (s3 * (u1 * u1 + u2 * u2 + u3 * u3) - u3 * (s1 * u1 + s2 * u2 + s3 * u3)); [ring|rewrite S2, S5; ring]. }
    assert (V1 : f2 * s3 - f3 * s2 = u1 /\ f3 * s1 - f1 * s3 = u2 /\ f1 * s2 - f2 * s1 = u3).
    { rewrite <- C1, <- C2, <- C3. repeat split.
      - transitivity (u1 * (s1 * s1 + s2 * s2 + s3 * s3) - s1 * (s1 * u1 + s2 * u2 + s3 * u3)); [ring|rewrite S1, S5; ring].
      - transitivity (u2 * (s1 * s1 + s2 * s2 + s3 * s3) - s2 * (s1 * u1 + s2 * u2 + s3 * u3)); [ring|rewrite S1, S5; ring].
      - transitivity (u3 * (s1 * s1 + s2 * s2 + s3 * s3) - s3 * (s1 * u1 + s2 * u2 + s3 * u3)); [ring|rewrite S1, S5; ring]. }
    destruct U1 as (U1 & U2 & U3), V1 as (V1 & V2 & V3).
    assert (DT : s1 * (u2 * f3 - u3 * f2) + s2 * (u3 * f1 - u1 * f3) + s3 * (u1 * f2 - u2 * f1) = 1) by (rewrite U1, U2, U3; exact S1).
    assert (K1 : forall x y z, s1 * x + u1 * y + f1 * z = (u2 * f3 - u3 * f2) * x + (f2 * s3 - f3 * s2) * y + (s2 * u3 - s3 * u2) * z) by (intros; rewrite U1, V1, C1; ring).
    assert (K2 : forall x y z, s2 * x + u2 * y + f2 * z = (u3 * f1 - u1 * f3) * x + (f3 * s1 - f1 * s3) * y + (s3 * u1 - s1 * u3) * z) by (intros; rewrite U2, V2, C2; ring).
    assert (K3 : forall x y z, s3 * x + u3 * y + f3 * z = (u1 * f2 - u2 * f1) * x + (f1 * s2 - f2 * s1) * y + (s1 * u2 - s2 * u1) * z) by (intros; rewrite U3, V3, C3; ring).
    intros i j Hi Hj. idx; unfold delta; cbn [Nat.eqb]; qcbn; rewrite Rplus_0_l; first [rewrite K1; lra | rewrite K2; lra | rewrite K3; lra].
  - cbv [det minor Nat.ltb Nat.leb pow]. qcbn.
    transitivity (f1 * (s2 * u3 - s3 * u2) + f2 * (s3 * u1 - s1 * u3) + f3 * (s1 * u2 - s2 * u1)); [ring|]. rewrite C1, C2, C3. exact F1.
  - qcbn. repeat split; try ring.
    + transitivity (s1 * p1 + s2 * p2 + s3 * p3); [ring|exact S7].
    + replace (u1 * p1 + u2 * p2 + u3 * p3 + - (u1 * o1 + u2 * o2 + u3 * o3) * 0) with (u1 * p1 + u2 * p2 + u3 * p3) by ring. exact S8.
Qed.
(** the rotation-only variants put the same frame in the columns *)
Theorem rotateFront_correct : forall p (front up : vec4 R), dotS front front = 1 -> nonzeroS (crossS up front) ->
  let m := rotateFront p front up in isOrthogonal 3 (ent4 m) /\ det 3 (ent4 m) = 1 /\
  eq3 (mulV p m (V4 0 0 1 0)) front /\ dotS (mulV p m (V4 1 0 0 0)) up = 0 /\ 0 < dotS (mulV p m (V4 0 1 0 0)) up.
Proof.
  intros p f up Hf Hn m. destruct (frame p f up Hf Hn) as (S1 & S2 & S3 & S4 & S5 & S6 & S7 & S8).
  unfold m, rotateFront. rewrite !mulVR. cbv zeta. set (s := normalize3 p (cross3 p up f)) in *. set (u := cross3 p f s) in *. clearbody s u.
  destruct f as [f1 f2 f3 f4], up as [p1 p2 p3 p4], s as [s1 s2 s3 s4], u as [u1 u2 u3 u4].
  unfold dotS, crossS, eq3 in *. cbn [vx vy vz vw] in *. destruct S6 as (C1 & C2 & C3). split; [|split; [|split; [|split]]].
  - intros i j Hi Hj. idx; unfold delta; cbn [Nat.eqb]; qcbn; lra.
  - cbv [det minor Nat.ltb Nat.leb pow]. qcbn.
    transitivity (f1 * (s2 * u3 - s3 * u2) + f2 * (s3 * u1 - s1 * u3) + f3 * (s1 * u2 - s2 * u1)); [ring|]. rewrite C1, C2, C3. exact Hf.
  - qcbn. repeat split; ring.
  - qcbn. lra.
  - qcbn. replace ((s1 * 0 + u1 * 1 + f1 * 0 + 0 * 0) * p1 + (s2 * 0 + u2 * 1 + f2 * 0 + 0 * 0) * p2 + (s3 * 0 + u3 * 1 + f3 * 0 + 0 * 0) * p3)
      with (u1 * p1 + u2 * p2 + u3 * p3) by ring. exact S8.
Qed.
Theorem rotateLook_correct : forall p (from to up : vec4 R), general from to up ->
  let m := rotateLook p from to up in isOrthogonal 3 (ent4 m) /\ det 3 (ent4 m) = 1 /\
  eq3 (scaleQ (distS to from) (mulV p m (V4 0 0 1 0))) (minusS to from) /\
  dotS (mulV p m (V4 1 0 0 0)) up = 0 /\ 0 < dotS (mulV p m (V4 0 1 0 0)) up.
Proof.
  intros p from to up H m. destruct (general_frame p from to up H) as (F1 & F2 & F3 & F4).
  destruct (rotateFront_correct p _ up F1 F2) as (A & B & C & D & E). unfold m, rotateLook.
  split; [exact A|]. split; [exact B|]. split; [|split; assumption].
  destruct C as (C1 & C2 & C3), F4 as (G1 & G2 & G3). unfold eq3, scaleQ in *. cbn [vx vy vz vw] in *. rewrite C1, C2, C3, G1, G2, G3. auto.
Qed.

(** *** C48 *)
Lemma crossPar : forall p (r : vec4 R) k, eq3 (cross3 p r (vscale r k)) (V4 0 0 0 0).
Proof.
  intros p r k. destruct (cross3R p r (vscale r k)) as (A & B & C). unfold eq3. rewrite A, B, C. unfold crossS, vscale, vmul, map2_4, dup4.
  cbn [vx vy vz vw smul ScalarR]. repeat split; ring.
Qed.
(** the second column is always zero, so the matrix given to extractQuat is never a rotation *)
Theorem lookAtQuat_actual : forall p (d up : vec4 R), exists r w, lookAtQuat p d up = extractQuat (M4 r (V4 0 0 0 w) d d).
Proof.
  intros p d up. unfold lookAtQuat. cbv zeta. set (k := (f1 / _)%sc). set (r := vscale (cross3 p up d) k).
  destruct (crossPar p (cross3 p up d) k) as (A & B & C). fold r in A, B, C. cbn [vx vy vz] in A, B, C.
  exists r, (vw (cross3 p (cross3 p up d) r)). f_equal. f_equal. destruct (cross3 p (cross3 p up d) r) as [x y z w]. cbn [vx vy vz vw] in *. subst. reflexivity.
Qed.
Lemma epsSmall : (slit 2748779 (-38) : R) <= 1.
Proof.
  cbn [slit ScalarR]. unfold Rlit, powerRZ. change (Pos.to_nat 38) with 38%nat. rewrite pow_IZR.
  change (2 ^ Z.of_nat 38)%Z with 274877906944%Z. lra.
Qed.
Theorem lookAtQuat_refuted : forall p, exists d up : vec4 R, dotS d d = 1 /\ nonzeroS (crossS up d) /\
  eq3 (lookAtQuat p d up) (V4 0 0 0 0) /\ vw (lookAtQuat p d up) = sqrt 3 / 2 /\ ~ unitQ (lookAtQuat p d up).
Proof.
  intro p. exists (V4 0 0 1 0), (V4 0 1 0 0).
  assert (E : eq3 (cross3 p (V4 0 1 0 0) (V4 0 0 1 0)) (V4 1 0 0 0)).
  { eapply eq3_trans; [apply cross3R|]. unfold crossS, eq3. cbn [vx vy vz vw]. repeat split; ring. }
  destruct E as (E1 & E2 & E3). cbn [vx vy vz] in E1, E2, E3.
  assert (V : lookAtQuat p (V4 0 0 1 0) (V4 0 1 0 0) = V4 0 0 0 (sqrt 3 / 2)).
  { unfold lookAtQuat. cbv zeta. rewrite dot3R, E1, E2, E3, stdmaxR.
    replace (1 * 1 + 0 * 0 + 0 * 0) with 1 by ring. rewrite (Rmax_right _ _ epsSmall).
    set (r := cross3 p (V4 0 1 0 0) (V4 0 0 1 0)) in *. cbn [ssqrt ScalarR]. rewrite sqrt_1, f1R.
    change ((1 / 1)%sc) with (1 / 1). destruct (crossPar p r (1 / 1)) as (G1 & G2 & G3). cbn [vx vy vz] in G1, G2, G3.
    unfold extractQuat, biggest. cbv zeta. cbn [c0 c1 c2]. rewrite G1, G2, G3. unfold vscale, vmul, map2_4, dup4. cbn [vx vy vz vw]. rewrite E1, E2, E3.
    cbn [smul sadd ssub ScalarR snd]. rewrite quarterR, fhalfR, f1R. unfold sgt.
    assert (L : forall a b : R, b <= a -> slt a b = false) by (intros; apply sltR_false; assumption).
    cbn [snd fst]. rewrite (L (1 * (1 / 1) + 0 + 1) (1 * (1 / 1) - 0 - 1)) by lra. cbn [snd fst].
    rewrite (L (1 * (1 / 1) + 0 + 1) (0 - 1 * (1 / 1) - 1)) by lra. cbn [snd fst].
    rewrite (L (1 * (1 / 1) + 0 + 1) (1 - 1 * (1 / 1) - 0)) by lra. cbn [snd fst Z.eqb].
    cbn [ssqrt sdiv smul sadd ssub ScalarR].
    replace (1 * (1 / 1) + 0 + 1 + 1) with 3 by field. f_equal; try (unfold Rdiv; ring). }
  rewrite V. unfold unitQ, norm2, eq3, nonzeroS, dotS, crossS. cbn [vx vy vz vw]. repeat split; try lra.
  intro H. assert (S : sqrt 3 * sqrt 3 = 3) by (apply sqrt_def; lra). nra.
Qed.
