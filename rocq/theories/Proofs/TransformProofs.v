(** Transformation matrices over the reals. *)
From Coq Require Import ZArith Bool Reals Lra Lia.
From Flocq Require Import Core.Core.
From Verif.Model Require Import Scalar Vec Simd Matrix Trig Quaternion Transform.
From Verif.Spec Require Import GeomSpec MatSpec EuclidSpec RotSpec ProjSpec.
From Verif.Proofs Require Import OrdScalar Frustum RealLits RayProofs Euclid MatrixProofs QuatProofs QuatTrig GeometryProofs TriangleProofs.
Local Open Scope R_scope.

(** *** C40 *)
Lemma multiply3x3vR : forall p (m : mat4 R) t, eq3 (multiply3x3v p m t)
  (V4 (vx (c0 m) * vx t + vx (c1 m) * vy t + vx (c2 m) * vz t) (vy (c0 m) * vx t + vy (c1 m) * vy t + vy (c2 m) * vz t)
      (vz (c0 m) * vx t + vz (c1 m) * vy t + vz (c2 m) * vz t) 0).
Proof.
  intros p m t. pose proof (multiply3x3v_block p m t) as B. destruct (multiply3x3v p m t) as [r1 r2 r3 r4]. revert B. dm. qcbn.
  intro B. injection B as B1 B2 B3. split; [|split]; lra.
Qed.
Lemma m4_ext : forall a b c d a' b' c' d' : vec4 R, M4 a b c d = M4 a' b' c' d' <-> a = a' /\ b = b' /\ c = c' /\ d = d'.
Proof. intros. split; [intro H; injection H; auto | intros (-> & -> & -> & ->); reflexivity]. Qed.
Lemma v4_ext : forall a b c d a' b' c' d' : R, V4 a b c d = V4 a' b' c' d' <-> a = a' /\ b = b' /\ c = c' /\ d = d'.
Proof. intros. split; [intro H; injection H; auto | intros (-> & -> & -> & ->); reflexivity]. Qed.
Theorem translateBy_iff : forall p (m : mat4 R) t,
  translateBy p m t = mulM p m (translate t) <-> vw (c0 m) * vx t + vw (c1 m) * vy t + vw (c2 m) * vz t = 0.
Proof.
  intros p m t. rewrite mulMR. unfold translateBy. destruct (multiply3x3vR p m t) as (E1 & E2 & E3).
  unfold withW, vadd, map2_4. cbn [vx vy vz vw]. rewrite E1, E2, E3. clear. dm. qcbn. rewrite !m4_ext, !v4_ext. split.
  - intros (_ & _ & _ & _ & _ & _ & H). lra.
  - intro H. repeat split; lra.
Qed.
Theorem translateOf_iff : forall p (m : mat4 R) t,
  translateOf t m = mulM p (translate t) m <->
  vx t = 0 /\ vy t = 0 /\ vz t = 0 \/ vw (c0 m) = 0 /\ vw (c1 m) = 0 /\ vw (c2 m) = 0 /\ vw (c3 m) = 1.
Proof.
  intros p m t. rewrite mulMR. destruct m as [[a1 a2 a3 a4] [b1 b2 b3 b4] [c1 c2 c3 c4] [d1 d2 d3 d4]], t as [x y z w].
  qcbn. rewrite !m4_ext, !v4_ext. split.
  - intros ((A1 & A2 & A3 & _) & (B1 & B2 & B3 & _) & (C1 & C2 & C3 & _) & (D1 & D2 & D3 & _)).
    assert (K : forall u t : R, u * t = 0 -> t = 0 \/ u = 0) by (intros u t H; apply Rmult_integral in H; tauto).
    destruct (Req_dec x 0) as [X|X]; [destruct (Req_dec y 0) as [Y|Y]; [destruct (Req_dec z 0) as [Z|Z]|]|].
    + left. tauto.
    + right. repeat split.
      * destruct (K a4 z); lra. * destruct (K b4 z); lra. * destruct (K c4 z); lra. * destruct (K (d4 - 1) z); lra.
    + right. repeat split.
      * destruct (K a4 y); lra. * destruct (K b4 y); lra. * destruct (K c4 y); lra. * destruct (K (d4 - 1) y); lra.
    + right. repeat split.
      * destruct (K a4 x); lra. * destruct (K b4 x); lra. * destruct (K c4 x); lra. * destruct (K (d4 - 1) x); lra.
  - intros [(-> & -> & ->) | (-> & -> & -> & ->)]; repeat split; ring.
Qed.
Theorem scaleBy_correct : forall p (m : mat4 R) s, scaleBy m s = mulM p m (scale s).
Proof. intros p m s. rewrite mulMR. dm. qcbn. msplit; ring. Qed.
Theorem scaleOf_correct : forall p (m : mat4 R) s, scaleOf p s m = mulM p (scale s) m.
Proof. intros p m s. unfold scaleOf. rewrite mulMR, !mulVR. reflexivity. Qed.

(** *** C39 *)
Lemma normalize4R : forall p (q : vec4 R), normalize4 p q = scaleQ (/ sqrt (norm2 q)) q.
Proof.
  intros p q. unfold normalize4, normalizep4, scalep4, map_4, lengthp4, dotp4.
  destruct p; rewrite ?dot4R; unfold scaleQ, vdiv, map2_4, dup4; cbn [vx vy vz vw sdiv smul sadd ssqrt ScalarR]; rewrite ?f1R; fold (norm2 q);
    unfold Rdiv; f_equal; try ring; fold (inner4 q q); change (inner4 q q) with (norm2 q); ring.
Qed.
Lemma normalize4_unit : forall p (q : vec4 R), q <> V4 0 0 0 0 -> unitQ (normalize4 p q).
Proof.
  intros p q H. pose proof (norm2_nonzero q H) as Hn. pose proof (norm2_pos q) as Hp. rewrite normalize4R.
  assert (S : sqrt (norm2 q) * sqrt (norm2 q) = norm2 q) by (apply sqrt_def; exact Hp).
  assert (sqrt (norm2 q) <> 0) by (intro E; rewrite E in S; lra).
  unfold unitQ. transitivity (/ sqrt (norm2 q) * / sqrt (norm2 q) * norm2 q).
  { unfold norm2 at 1. unfold scaleQ. cbn [vx vy vz vw]. unfold norm2. ring. }
  rewrite <- S at 3. field. assumption.
Qed.
Lemma allEqR : forall a b : vec4 R, allEq a b = true <-> a = b.
Proof. intros [] []. unfold allEq. cbv [Vec.vx Vec.vy Vec.vz Vec.vw]. rewrite !andb_true_iff, !seqR, v4_ext. tauto. Qed.
Lemma calcModel_slow : forall p pos (q s : vec4 R),
  calcModel p pos q s = mulM p (mulM p (translate pos) (rotate (qnormalize p q))) (scale s).
Proof.
  intros p pos q s. unfold calcModel. destruct (allEq s (dup4 f1)) eqn:E; [|reflexivity].
  apply allEqR in E. subst s. rewrite !mulMR. destruct (qnormalize p q). destruct pos. qcbn. msplit; ring.
Qed.
Theorem calcModel_point : forall p (pos q s v : vec4 R), q <> V4 0 0 0 0 ->
  mulV p (calcModel p pos q s) (withW v f1) = placed pos (scaleQ (/ sqrt (norm2 q)) q) s v.
Proof.
  intros p pos q s v H. rewrite calcModel_slow. pose proof (normalize4_unit p q H) as U. unfold qnormalize. rewrite normalize4R in *. set (n := scaleQ _ q) in *.
  unfold placed. cbv zeta. rewrite turnedP, <- rotP_unit by assumption.
  rewrite mulVR, !mulMR. unfold rotP. clearbody n. clear. dm. qcbn. f_equal; ring.
Qed.

(** *** C49 *)
Lemma transpose4x4R : forall p (m : mat4 R), transpose4x4 p m = transposep4 m.
Proof. intros p m. dm. destruct p; reflexivity. Qed.
Theorem inverseTransRot_value : forall p (m : mat4 R), let t := c3 m in
  inverseTransRot p m = M4 (V4 (vx (c0 m)) (vx (c1 m)) (vx (c2 m)) (vx t)) (V4 (vy (c0 m)) (vy (c1 m)) (vy (c2 m)) (vy t))
    (V4 (vz (c0 m)) (vz (c1 m)) (vz (c2 m)) (vz t)) (V4 (- dotS (c0 m) t) (- dotS (c1 m) t) (- dotS (c2 m) t) (vw (c3 m))).
Proof.
  intros p m t. unfold inverseTransRot. rewrite transpose4x4R. unfold setTranslation, getTranslation. cbv zeta.
  destruct (multiply3x3vR p (transposep4 m) (c3 m)) as (E1 & E2 & E3).
  unfold withW, vneg, map_4. cbn [vx vy vz vw]. rewrite E1, E2, E3. unfold t. clear. dm. qcbn. msplit; ring.
Qed.
Lemma orth_entries : forall m : mat4 R, isOrthogonal 3 (ent4 m) ->
  dotS (c0 m) (c0 m) = 1 /\ dotS (c1 m) (c1 m) = 1 /\ dotS (c2 m) (c2 m) = 1 /\
  dotS (c0 m) (c1 m) = 0 /\ dotS (c0 m) (c2 m) = 0 /\ dotS (c1 m) (c2 m) = 0.
Proof.
  intros m H. pose proof (H 0 0)%nat as A. pose proof (H 1 1)%nat as B. pose proof (H 2 2)%nat as C.
  pose proof (H 0 1)%nat as D. pose proof (H 0 2)%nat as E. pose proof (H 1 2)%nat as G.
  unfold delta, sum, ent4, comp4 in *. cbn [Nat.eqb] in *. unfold dotS.
  specialize (A ltac:(lia) ltac:(lia)). specialize (B ltac:(lia) ltac:(lia)). specialize (C ltac:(lia) ltac:(lia)).
  specialize (D ltac:(lia) ltac:(lia)). specialize (E ltac:(lia) ltac:(lia)). specialize (G ltac:(lia) ltac:(lia)). repeat split; lra.
Qed.
Lemma dot_split : forall a b : vec4 R, vx a * vx b + vy a * vy b + vz a * vz b = dotS a b. Proof. reflexivity. Qed.
Theorem inverseTransRot_iff : forall p (m : mat4 R), rigid m ->
  (mulM p (inverseTransRot p m) m = identity4 <-> vx (c3 m) = 0 /\ vy (c3 m) = 0 /\ vz (c3 m) = 0).
Proof.
  intros p m (Ho & W0 & W1 & W2 & W3). destruct (orth_entries m Ho) as (A & B & C & D & E & G). clear Ho.
  rewrite mulMR, inverseTransRot_value. cbv zeta.
  destruct m as [[a1 a2 a3 a4] [b1 b2 b3 b4] [c1 c2 c3 c4] [t1 t2 t3 t4]]. unfold dotS in *. cbn [Matrix.c0 Matrix.c1 Matrix.c2 Matrix.c3 vx vy vz vw] in *. subst.
  qcbn. rewrite !m4_ext, !v4_ext. split.
  - intros ((_ & _ & _ & H1) & (_ & _ & _ & H2) & (_ & _ & _ & H3) & (_ & _ & _ & H4)).
    assert (t1 * t1 + t2 * t2 + t3 * t3 = 0) by lra. assert (Z : forall x, x * x = 0 -> x = 0) by (intros; nra).
    pose proof (sq_pos t1). pose proof (sq_pos t2). pose proof (sq_pos t3). repeat split; apply Z; lra.
  - intros (-> & -> & ->). repeat split; lra.
Qed.
(** the result is the true inverse in its first three rows; its last row is (t, 1) *)
Theorem inverseTransRot_actual : forall p (m : mat4 R), rigid m -> let r := inverseTransRot p m in
  mulM p (M4 (withW (c0 r) 0) (withW (c1 r) 0) (withW (c2 r) 0) (c3 r)) m = identity4 /\
  vw (c0 r) = vx (c3 m) /\ vw (c1 r) = vy (c3 m) /\ vw (c2 r) = vz (c3 m) /\ vw (c3 r) = 1.
Proof.
  intros p m (Ho & W0 & W1 & W2 & W3) r. destruct (orth_entries m Ho) as (A & B & C & D & E & G). clear Ho.
  unfold r. rewrite mulMR, inverseTransRot_value. cbv zeta.
  destruct m as [[a1 a2 a3 a4] [b1 b2 b3 b4] [c1 c2 c3 c4] [t1 t2 t3 t4]]. unfold dotS in *. cbn [Matrix.c0 Matrix.c1 Matrix.c2 Matrix.c3 vx vy vz vw] in *. subst.
  split; [|auto]. qcbn. msplit; lra.
Qed.
Lemma rigid_model : forall p pos (q : vec4 R), unitQ q -> rigid (translateOf (withW pos f0) (rotate q)) /\
  (forall v, mulV p (translateOf (withW pos f0) (rotate q)) (withW v f1) =
    V4 (vx pos + vx (qrot p q v)) (vy pos + vy (qrot p q v)) (vz pos + vz (qrot p q v)) 1).
Proof.
  intros p pos q H. split.
  - split.
    + intros i j Hi Hj. pose proof (rotate_orthogonal q H i j ltac:(lia) ltac:(lia)) as O.
      replace (delta i j) with (sum 4 (fun k => ent4 (rotate q) k i * ent4 (rotate q) k j)). clear O.
      dm. idx; qcbn; ring.
    + dm. qcbn. repeat split; ring.
  - intro v. destruct (qrotR p q v) as (E1 & E2 & E3). rewrite E1, E2, E3, mulVR. clear. unfold rotP. dm. qcbn. f_equal; ring.
Qed.
Theorem inverseTransRot_refuted : forall p, exists m, rigid m /\ mulM p (inverseTransRot p m) m <> identity4.
Proof.
  intro p. exists (translateOf (withW (V4 1 0 0 0) f0) (rotate idQ)).
  assert (U : unitQ idQ) by (unfold unitQ, norm2, idQ; cbn [vx vy vz vw]; lra).
  destruct (rigid_model p (V4 1 0 0 0) idQ U) as (Hr & _). split; [exact Hr|].
  intro H. apply (inverseTransRot_iff p _ Hr) in H. destruct H as (H & _). revert H. qcbn. intro H. lra.
Qed.

(** *** C50 *)
Lemma calcModel_columns : forall p pos (q s : vec4 R), q <> V4 0 0 0 0 -> exists n, n = scaleQ (/ sqrt (norm2 q)) q /\ unitQ n /\
  eq3 (c0 (calcModel p pos q s)) (scaleQ (vx s) (c0 (rotate n))) /\
  eq3 (c1 (calcModel p pos q s)) (scaleQ (vy s) (c1 (rotate n))) /\
  eq3 (c2 (calcModel p pos q s)) (scaleQ (vz s) (c2 (rotate n))) /\ c3 (calcModel p pos q s) = withW pos 1.
Proof.
  intros p pos q s H. exists (scaleQ (/ sqrt (norm2 q)) q). split; [reflexivity|].
  pose proof (normalize4_unit p q H) as U. rewrite normalize4R in U. split; [exact U|]. clear U.
  rewrite calcModel_slow. unfold qnormalize. rewrite normalize4R. set (n := scaleQ _ q). clearbody n.
  rewrite !mulMR. unfold scaleQ. clear. dm. qcbn. repeat split; try ring. f_equal; ring.
Qed.
Lemma scaled_dot : forall k a b, eq3 a (scaleQ k b) -> dotS b b = 1 -> dotS a a = k * k.
Proof.
  intros k a b (A & B & C) H. unfold dotS in *. rewrite A, B, C. unfold scaleQ. cbn [vx vy vz].
  transitivity (k * k * (vx b * vx b + vy b * vy b + vz b * vz b)); [ring|]. rewrite H. ring.
Qed.
Lemma rotate_cols : forall n : vec4 R, unitQ n -> dotS (c0 (rotate n)) (c0 (rotate n)) = 1 /\ dotS (c1 (rotate n)) (c1 (rotate n)) = 1 /\
  dotS (c2 (rotate n)) (c2 (rotate n)) = 1.
Proof.
  intros n H. pose proof (rotate_orthogonal n H) as O.
  pose proof (O 0 0 ltac:(lia) ltac:(lia))%nat as A. pose proof (O 1 1 ltac:(lia) ltac:(lia))%nat as B. pose proof (O 2 2 ltac:(lia) ltac:(lia))%nat as C.
  unfold delta, sum, ent4, comp4 in *. cbn [Nat.eqb] in *. unfold dotS.
  assert (W : vw (c0 (rotate n)) = 0 /\ vw (c1 (rotate n)) = 0 /\ vw (c2 (rotate n)) = 0) by (unfold rotate; cbn [vw c0 c1 c2]; rewrite f0R; auto).
  destruct W as (W0 & W1 & W2). rewrite W0 in A. rewrite W1 in B. rewrite W2 in C. repeat split; lra.
Qed.
Theorem extractScale_actual : forall p pos (q s : vec4 R), q <> V4 0 0 0 0 ->
  extractScale p (calcModel p pos q s) = V4 (vx s * vx s) (vy s * vy s) (vz s * vz s) (vz s * vz s) /\
  extractScale2 p (calcModel p pos q s) = V2 (vx s * vx s) (Rabs (vy s)).
Proof.
  intros p pos q s H. destruct (calcModel_columns p pos q s H) as (n & _ & U & E0 & E1 & E2 & _). destruct (rotate_cols n U) as (R0 & R1 & R2).
  unfold extractScale, extractScale2, of3. rewrite !lengthSq3R, !length3R.
  rewrite (scaled_dot _ _ _ E0 R0), (scaled_dot _ _ _ E1 R1), (scaled_dot _ _ _ E2 R2). split; [reflexivity|].
  f_equal. apply sqrt_Rsqr_abs.
Qed.
(** extractRotation divides by the squared scale, so its columns have length 1/|s| *)
Theorem extractRotation_actual : forall p pos (q s : vec4 R), q <> V4 0 0 0 0 -> vx s <> 0 -> vy s <> 0 -> vz s <> 0 ->
  let n := scaleQ (/ sqrt (norm2 q)) q in let r := extractRotation p (calcModel p pos q s) in
  eq3 (c0 r) (scaleQ (/ vx s) (c0 (rotate n))) /\ eq3 (c1 r) (scaleQ (/ vy s) (c1 (rotate n))) /\ eq3 (c2 r) (scaleQ (/ vz s) (c2 (rotate n))).
Proof.
  intros p pos q s H X Y Z n r. destruct (extractScale_actual p pos q s H) as (ES & _).
  destruct (calcModel_columns p pos q s H) as (n' & -> & U & E0 & E1 & E2 & _). fold n in E0, E1, E2.
  destruct E0 as (A1 & A2 & A3), E1 as (B1 & B2 & B3), E2 as (C1 & C2 & C3). unfold scaleQ in A1, A2, A3, B1, B2, B3, C1, C2, C3.
  cbn [vx vy vz vw] in A1, A2, A3, B1, B2, B3, C1, C2, C3.
  unfold r, extractRotation. rewrite ES. cbv zeta. unfold vdiv, vscale, vmul, map2_4, dup4, withW, eq3, scaleQ. cbn [vx vy vz vw c0 c1 c2 smul sdiv ScalarR].
  rewrite A1, A2, A3, B1, B2, B3, C1, C2, C3, f1R. repeat split; field; assumption.
Qed.
Theorem extractScale_refuted : forall p, exists pos q s : vec4 R, unitQ q /\ 0 < vx s /\ 0 < vy s /\ 0 < vz s /\
  ~ eq3 (extractScale p (calcModel p pos q s)) s.
Proof.
  intro p. exists (V4 0 0 0 0), idQ, (V4 2 2 2 2). unfold unitQ, norm2, idQ. cbn [vx vy vz vw]. repeat split; try lra.
  destruct (extractScale_actual p (V4 0 0 0 0) (V4 0 0 0 1) (V4 2 2 2 2)) as (E & _).
  { intro H. injection H. lra. }
  rewrite E. unfold eq3. cbn [vx vy vz vw]. lra.
Qed.
(** decomposition without scaling *)
Theorem extractTransform2_rigid : forall p pos (q : vec4 R), unitQ q ->
  let r := extractTransform2 (calcModel p pos q (dup4 f1)) in eq3 (fst r) pos /\ (snd r = q \/ snd r = negQ q).
Proof.
  intros p pos q U r.
  assert (Hq : q <> V4 0 0 0 0) by (intros ->; unfold unitQ, norm2 in U; cbn [vx vy vz vw] in U; lra).
  destruct (calcModel_columns p pos q (dup4 f1) Hq) as (n & En & _ & E0 & E1 & E2 & E3).
  assert (Hn : n = q). { rewrite En. unfold unitQ in U. rewrite U, sqrt_1. destruct q as [x y z w]. unfold scaleQ. cbn [vx vy vz vw]. f_equal; field. }
  subst n. rewrite Hn in *. unfold r, extractTransform2, getTranslation. cbn [fst snd]. split.
  - rewrite E3. unfold withW, eq3. cbn [vx vy vz]. auto.
  - assert (X : extractRotationOnly (calcModel p pos q (dup4 f1)) = rotate q).
    { unfold extractRotationOnly, withW. destruct E0 as (-> & -> & ->), E1 as (-> & -> & ->), E2 as (-> & -> & ->).
      unfold scaleQ, dup4. cbn [vx vy vz vw]. rewrite f1R. unfold rotate. cbv zeta. cbn [vx vy vz vw c0 c1 c2]. rewrite f0R, f1R, f2R. rewrite !Rmult_1_l. reflexivity. }
    rewrite X. apply extractQuat_rotate, U.
Qed.
