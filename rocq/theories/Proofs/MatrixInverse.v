(** The 4x4 inverse of every path is the adjugate over the determinant. *)
From Coq Require Import ZArith Bool Reals Lra Lia.
From Verif.Model Require Import Scalar Vec Simd Matrix.
From Verif.Spec Require Import MatSpec.
From Verif.Proofs Require Import OrdScalar Frustum RealLits MatrixProofs.
Local Open Scope R_scope.

(** *** C35 *)
Definition adj4 (m : mat4 R) : mat4 R :=
  let '(M4 (V4 a e i q) (V4 b f j r) (V4 c g k s) (V4 d h l t)) := m in
  let d3 := fun x1 x2 x3 y1 y2 y3 z1 z2 z3 =>
    x1 * (y2 * z3 - y3 * z2) - x2 * (y1 * z3 - y3 * z1) + x3 * (y1 * z2 - y2 * z1) in
  (* rows: a b c d / e f g h / i j k l / q r s t *)
  M4 (V4 (d3 f g h j k l r s t) (- d3 e g h i k l q s t) (d3 e f h i j l q r t) (- d3 e f g i j k q r s))
     (V4 (- d3 b c d j k l r s t) (d3 a c d i k l q s t) (- d3 a b d i j l q r t) (d3 a b c i j k q r s))
     (V4 (d3 b c d f g h r s t) (- d3 a c d e g h q s t) (d3 a b d e f h q r t) (- d3 a b c e f g q r s))
     (V4 (- d3 b c d f g h j k l) (d3 a c d e g h i k l) (- d3 a b d e f h i j l) (d3 a b c e f g i j k)).
Definition scaleM4 (k : R) (m : mat4 R) : mat4 R :=
  let '(M4 (V4 a e i q) (V4 b f j r) (V4 c g k' s) (V4 d h l t)) := m in
  M4 (V4 (k*a) (k*e) (k*i) (k*q)) (V4 (k*b) (k*f) (k*j) (k*r)) (V4 (k*c) (k*g) (k*k') (k*s)) (V4 (k*d) (k*h) (k*l) (k*t)).
Lemma adj4_left : forall m : mat4 R, mulm4 (adj4 m) m = scaleM4 (det 4 (ent4 m)) identity4.
Proof.
  intros m. dm. unfold adj4, scaleM4. cbv [det minor Nat.ltb Nat.leb pow]. mcbn. msplit; ring.
Qed.
Lemma adj4_right : forall m : mat4 R, mulm4 m (adj4 m) = scaleM4 (det 4 (ent4 m)) identity4.
Proof.
  intros m. dm. unfold adj4, scaleM4. cbv [det minor Nat.ltb Nat.leb pow]. mcbn. msplit; ring.
Qed.
Lemma scale_mul_l : forall k (a b : mat4 R), mulm4 (scaleM4 k a) b = scaleM4 k (mulm4 a b).
Proof. intros k a b. dm. unfold scaleM4. mcbn. msplit; ring. Qed.
Lemma scale_mul_r : forall k (a b : mat4 R), mulm4 a (scaleM4 k b) = scaleM4 k (mulm4 a b).
Proof. intros k a b. dm. unfold scaleM4. mcbn. msplit; ring. Qed.
Lemma scale_scale : forall k l, k * l = 1 -> scaleM4 k (scaleM4 l identity4) = identity4.
Proof.
  intros k l H. unfold scaleM4. mcbn. msplit;
  try (rewrite Rmult_1_r; exact H); ring.
Qed.
Lemma expand_det : forall m q0 q1 q2 q3 : _, adj4 m = M4 q0 q1 q2 q3 ->
  vx (c0 m) * vx q0 + vx (c1 m) * vy q0 + vx (c2 m) * vz q0 + vx (c3 m) * vw q0 = det 4 (ent4 m).
Proof.
  intros m q0 q1 q2 q3 H.
  assert (E : q0 = c0 (adj4 m)) by (rewrite H; reflexivity). rewrite E. clear.
  dm. unfold adj4. cbv [det minor Nat.ltb Nat.leb pow]. mcbn. ring.
Qed.
Lemma expand_det_col : forall m q0 q1 q2 q3 : _, adj4 m = M4 q0 q1 q2 q3 ->
  vx (c0 m) * vx q0 + vy (c0 m) * vx q1 + vz (c0 m) * vx q2 + vw (c0 m) * vx q3 = det 4 (ent4 m).
Proof.
  intros m q0 q1 q2 q3 H.
  assert (E : M4 q0 q1 q2 q3 = adj4 m) by (rewrite H; reflexivity).
  replace q0 with (c0 (adj4 m)) by (rewrite H; reflexivity). replace q1 with (c1 (adj4 m)) by (rewrite H; reflexivity).
  replace q2 with (c2 (adj4 m)) by (rewrite H; reflexivity). replace q3 with (c3 (adj4 m)) by (rewrite H; reflexivity).
  clear. dm. unfold adj4. cbv [det minor Nat.ltb Nat.leb pow]. mcbn. ring.
Qed.
Lemma cofactorsSSE_adj : forall p (m : mat4 R),
  cofactorsSSE p m = (V4 (vx (c0 m)) (vx (c1 m)) (vx (c2 m)) (vx (c3 m)), adj4 m).
Proof.
  intros p m. dm. unfold adj4.
  destruct p; cbv beta iota zeta delta [cofactorsSSE shuf lane]; mcbn; f_equal; msplit; ring.
Qed.
Lemma cofactorsNEON_SSE : forall {F} {S : Scalar F} p (m : mat4 F), cofactorsNEON p m = cofactorsSSE p m.
Proof.
  intros F S p m. unfold cofactorsNEON, cofactorsSSE.
  assert (E1 : forall a b : vec4 F, shuf8 a b 0 1 4 5 = shuf a b 1 0 1 0) by reflexivity.
  assert (E2 : forall a b : vec4 F, shuf8 a b 0 2 4 6 = shuf a b 2 0 2 0) by reflexivity.
  assert (E3 : forall a b : vec4 F, shuf8 a b 1 3 5 7 = shuf a b 3 1 3 1) by reflexivity.
  assert (E4 : forall a b : vec4 F, shuf8 a b 2 3 6 7 = shuf a b 3 2 3 2) by reflexivity.
  assert (E5 : forall a b : vec4 F, shuf8 a a 1 0 3 2 = shuf a a 2 3 0 1) by reflexivity.
  assert (E6 : forall a b : vec4 F, shuf8 a a 2 3 0 1 = shuf a a 1 0 3 2) by reflexivity.
  reflexivity.
Qed.
Lemma cofactorsNEON_adj : forall p (m : mat4 R),
  cofactorsNEON p m = (V4 (vx (c0 m)) (vx (c1 m)) (vx (c2 m)) (vx (c3 m)), adj4 m).
Proof. intros p m. rewrite cofactorsNEON_SSE. apply cofactorsSSE_adj. Qed.
Lemma scale_col : forall k (q0 q1 q2 q3 : vec4 R), scaleM4 k (M4 q0 q1 q2 q3) =
  M4 (vmul (dup4 k) q0) (vmul (dup4 k) q1) (vmul (dup4 k) q2) (vmul (dup4 k) q3).
Proof. intros. dm. reflexivity. Qed.
Lemma cofactors4_adj : forall m : mat4 R, cofactors4 m = adj4 m.
Proof. intros m. dm. unfold adj4. cbv beta iota zeta delta [cofactors4]. mcbn. msplit; ring. Qed.
Lemma inverse4x4_adj : forall p (m : mat4 R), inverse4x4 p m = scaleM4 (/ det 4 (ent4 m)) (adj4 m).
Proof.
  intros p m.
  assert (SSE : forall p, (let '(r0, M4 m0 m1 m2 m3) := cofactorsSSE p m in
        let d := vmul r0 m0 in
        let d := vadd (shuf d d 2 3 0 1) d in
        let s := shuf d d 1 0 3 2 in
        let d := V4 (vx s + vx d)%sc (vy s) (vz s) (vw s) in
        let d := V4 (f1 / vx d)%sc f0 f0 f0 in
        let d := shuf d d 0 0 0 0 in
        M4 (vmul d m0) (vmul d m1) (vmul d m2) (vmul d m3)) = scaleM4 (/ det 4 (ent4 m)) (adj4 m)).
  { intros q. rewrite cofactorsSSE_adj. destruct (adj4 m) as [q0 q1 q2 q3] eqn:E.
    rewrite scale_col. rewrite <- (expand_det _ _ _ _ _ E). clear. destruct m as [[? ? ? ?] [? ? ? ?] [? ? ? ?] [? ? ? ?]].
    dm. cbv beta iota zeta delta [shuf lane]. mcbn.
    match goal with |- M4 (V4 (1 / ?D * _) _ _ _) _ _ _ = M4 (V4 (/ ?E * _) _ _ _) _ _ _ =>
      replace D with E by ring; generalize E end.
    intros d. unfold Rdiv. msplit; ring. }
  destruct p; [exact (SSE SSE2)|exact (SSE SSE41)|exact (SSE AVX2)| |].
  - unfold inverse4x4. rewrite cofactorsNEON_adj. destruct (adj4 m) as [q0 q1 q2 q3] eqn:E.
    rewrite scale_col. rewrite <- (expand_det _ _ _ _ _ E). clear. destruct m as [[? ? ? ?] [? ? ? ?] [? ? ? ?] [? ? ? ?]].
    dm. cbv beta iota zeta delta [vdiv]. mcbn.
    match goal with |- M4 (V4 (1 / ?D * _) _ _ _) _ _ _ = M4 (V4 (/ ?E * _) _ _ _) _ _ _ =>
      replace D with E by ring; generalize E end.
    intros d. unfold Rdiv. msplit; ring.
  - unfold inverse4x4, inverse4. rewrite cofactors4_adj. destruct (adj4 m) as [q0 q1 q2 q3] eqn:E.
    rewrite scale_col. rewrite <- (expand_det_col _ _ _ _ _ E). clear.
    destruct m as [[? ? ? ?] [? ? ? ?] [? ? ? ?] [? ? ? ?]]. dm. mcbn.
    match goal with |- M4 (V4 (_ * (1 / ?D)) _ _ _) _ _ _ = M4 (V4 (/ ?E * _) _ _ _) _ _ _ =>
      replace D with E by ring; generalize E end.
    intros d. unfold Rdiv. msplit; ring.
Qed.
Theorem inverse4x4_correct : forall p (m : mat4 R), det 4 (ent4 m) <> 0 ->
  mulM p (inverse4x4 p m) m = identity4 /\ mulM p m (inverse4x4 p m) = identity4.
Proof.
  intros p m H. rewrite !mulMR, inverse4x4_adj, scale_mul_l, scale_mul_r, adj4_left, adj4_right.
  split; apply scale_scale; apply Rinv_l; exact H.
Qed.
Theorem inverse4x4_paths : forall p q (m : mat4 R), det 4 (ent4 m) <> 0 -> inverse4x4 p m = inverse4x4 q m.
Proof. intros p q m _. now rewrite !inverse4x4_adj. Qed.
