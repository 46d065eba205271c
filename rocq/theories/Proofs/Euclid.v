(** Elementary Euclidean geometry used by the proofs. *)
From Coq Require Import ZArith Bool Reals Lra Psatz.
From Verif.Model Require Import Scalar Vec Simd Aabb Geometry.
From Verif.Spec Require Import GeomSpec EuclidSpec.
From Verif.Proofs Require Import OrdScalar Frustum RealLits.
Local Open Scope R_scope.

Lemma sq_pos : forall x : R, 0 <= x * x.
Proof. intros. nra. Qed.
Lemma cauchy3 : forall a b c x y z, (a * x + b * y + c * z)² <= (a * a + b * b + c * c) * (x * x + y * y + z * z).
Proof.
  intros. apply Rminus_le. unfold Rsqr.
  replace (_ - _) with (- ((a * y - b * x) * (a * y - b * x) + (a * z - c * x) * (a * z - c * x) + (b * z - c * y) * (b * z - c * y))) by ring.
  assert (forall r, 0 <= r * r) by (intros; nra).
  pose proof (H (a * y - b * x)). pose proof (H (a * z - c * x)). pose proof (H (b * z - c * y)). lra.
Qed.
(** squared distance *)
Definition sq (a b : vec4 R) : R := (vx a - vx b) * (vx a - vx b) + (vy a - vy b) * (vy a - vy b) + (vz a - vz b) * (vz a - vz b).
Lemma sq_nonneg : forall a b, 0 <= sq a b.
Proof.
  intros. unfold sq. pose proof (sq_pos (vx a - vx b)). pose proof (sq_pos (vy a - vy b)). pose proof (sq_pos (vz a - vz b)). lra.
Qed.
Lemma distS_sq : forall a b, distS a b = sqrt (sq a b).
Proof. reflexivity. Qed.
Lemma distS_le : forall x q r, sq x q <= sq x r -> distS x q <= distS x r.
Proof. intros. rewrite !distS_sq. apply sqrt_le_1; auto using sq_nonneg. Qed.
Lemma nearest_sq : forall (P : vec4 R -> Prop) x q, P q -> (forall r, P r -> sq x q <= sq x r) -> isNearest P x q.
Proof. intros P x q H1 H2. split; auto using distS_le. Qed.
Lemma nearest_sq_inv : forall (P : vec4 R -> Prop) x q, isNearest P x q -> forall r, P r -> sq x q <= sq x r.
Proof.
  intros P x q (_ & H) r Hr. specialize (H r Hr). rewrite !distS_sq in H.
  apply sqrt_le_0; auto using sq_nonneg.
Qed.
Lemma nonzero_dot : forall a, nonzeroS a <-> 0 < dotS a a.
Proof.
  intros a. unfold nonzeroS, dotS. split.
  - intros H. destruct (Req_dec (vx a) 0) as [E1|E1]; [|nra]. destruct (Req_dec (vy a) 0) as [E2|E2]; [|nra].
    destruct (Req_dec (vz a) 0) as [E3|E3]; [|nra]. tauto.
  - intros H (E1 & E2 & E3). rewrite E1, E2, E3 in H. lra.
Qed.
Lemma sq_zero : forall a b, sq a b = 0 -> vx a = vx b /\ vy a = vy b /\ vz a = vz b.
Proof.
  intros a b H. unfold sq in H. pose proof (sq_pos (vx a - vx b)). pose proof (sq_pos (vy a - vy b)). pose proof (sq_pos (vz a - vz b)).
  assert (Z : forall x, x * x = 0 -> x = 0) by (intros; nra).
  assert (vx a - vx b = 0) by (apply Z; lra). assert (vy a - vy b = 0) by (apply Z; lra). assert (vz a - vz b = 0) by (apply Z; lra). lra.
Qed.

Lemma lengthSq3R : forall p (v : vec4 R), lengthSq3 p v = dotS v v.
Proof. intros. apply dot3R. Qed.
Lemma length3R : forall p (v : vec4 R), length3 p v = sqrt (dotS v v).
Proof. intros. unfold length3. rewrite dot3R. reflexivity. Qed.
Lemma cross3R : forall p (a b : vec4 R), eq3 (cross3 p a b) (crossS a b).
Proof.
  intros p [] []. destruct p; unfold eq3; repeat split; cbn; ring.
Qed.
