(** Quaternion algebra over the reals. *)
From Coq Require Import ZArith Bool Reals Lra Lia.
From Flocq Require Import Core.Core.
From Verif.Model Require Import Scalar Vec Simd Matrix Trig Quaternion Transform.
From Verif.Spec Require Import GeomSpec MatSpec EuclidSpec RotSpec.
From Verif.Proofs Require Import OrdScalar Frustum RealLits RayProofs Euclid MatrixProofs.
Local Open Scope R_scope.

Ltac vcbn := cbn [vx vy vz vw sadd smul sneg ScalarR].
Tactic Notation "vcbn" "in" hyp(H) := cbn [vx vy vz vw sadd smul sneg ScalarR] in H.
(** *** real forms of the model *)
Lemma dot4R : forall p (a b : vec4 R), dot4 p a b = inner4 a b.
Proof. intros p a b; dm; destruct p; unfold dot4, dotp4, inner4; vcbn; ring. Qed.
Ltac qcbn := cbv beta iota zeta delta [qmul qconj rotate norm2 inner4 negQ idQ qidentity dotS crossS minusS eq3 translate translateOf translateBy
  scale scaleBy scaleOf setTranslation getTranslation withW of3 vneg vscale vdivn vdiv lookAt extractRotationOnly rotateFront];
  mcbn.
Definition qmulS (a q : vec4 R) : vec4 R :=
  V4 (vw a * vx q + vx a * vw q + vy a * vz q - vz a * vy q) (vw a * vy q + vy a * vw q + vz a * vx q - vx a * vz q)
     (vw a * vz q + vz a * vw q + vx a * vy q - vy a * vx q) (vw a * vw q - vx a * vx q - vy a * vy q - vz a * vz q).
Lemma qmulR : forall a q : vec4 R, qmul a q = qmulS a q.
Proof. reflexivity. Qed.
(** q v q* for a quaternion of any length, as a polynomial *)
Definition rotP (n : R) (q v : vec4 R) : vec4 R :=
  let c := crossS q v in let cc := crossS q c in
  V4 (n * vx v + 2 * (vw q * vx c + vx cc)) (n * vy v + 2 * (vw q * vy c + vy cc)) (n * vz v + 2 * (vw q * vz c + vz cc)) 0.
Lemma qrotR : forall p (q v : vec4 R), eq3 (qrot p q v) (rotP 1 q v).
Proof.
  intros p q v. unfold qrot.
  destruct (cross3R p q v) as (E1 & E2 & E3). destruct (cross3R p q (cross3 p q v)) as (G1 & G2 & G3).
  unfold eq3, vfma, rotP. cbn [vx vy vz vw dup4]. rewrite !simdfmaR, f2R, G1, G2, G3, E1, E2, E3.
  unfold crossS. rewrite ?E1, ?E2, ?E3. cbn [vx vy vz vw]. unfold crossS. cbn [vx vy vz vw]. split; [|split]; ring.
Qed.
Lemma rotP_unit : forall q v, unitQ q -> rotP 1 q v = rotP (norm2 q) q v.
Proof. intros q v H. rewrite H. reflexivity. Qed.
Lemma rotP_eq3 : forall n q v v', eq3 v v' -> rotP n q v = rotP n q v'.
Proof. intros n q v v' (E1 & E2 & E3). unfold rotP, crossS. cbn [vx vy vz vw]. rewrite E1, E2, E3. reflexivity. Qed.
Ltac pcbn := cbv beta iota zeta delta [rotP qmulS qconj norm2 inner4 negQ idQ dotS crossS minusS eq3 vx vy vz vw].
Lemma eq3_trans : forall a b c, eq3 a b -> eq3 b c -> eq3 a c.
Proof. intros a b c (A & B & C) (D & E & G). repeat split; congruence. Qed.
Lemma eq3_refl : forall a, eq3 a a. Proof. repeat split. Qed.

(** *** C42 *)
Lemma rotP_compose : forall a b v, rotP (norm2 a) a (rotP (norm2 b) b v) = rotP (norm2 (qmulS a b)) (qmulS a b) v.
Proof. intros ? ? ?; dm. pcbn. f_equal; ring. Qed.
Theorem qmul_assoc : forall a b c : vec4 R, qmul (qmul a b) c = qmul a (qmul b c).
Proof. intros a b c. dm. qcbn. f_equal; ring. Qed.
Theorem qmul_identity : forall a : vec4 R, qmul qidentity a = a /\ qmul a qidentity = a.
Proof. intros ?; dm. qcbn. split; f_equal; ring. Qed.
Theorem qmul_norm : forall a b : vec4 R, norm2 (qmul a b) = norm2 a * norm2 b.
Proof. intros a b. rewrite qmulR. dm. pcbn. ring. Qed.
Lemma qmul_unit : forall a b : vec4 R, unitQ a -> unitQ b -> unitQ (qmul a b).
Proof. unfold unitQ. intros a b Ha Hb. rewrite qmul_norm, Ha, Hb. ring. Qed.
Theorem qmul_compose : forall p (a b v : vec4 R), unitQ a -> unitQ b ->
  eq3 (qrot p (qmul a b) v) (qrot p a (qrot p b v)).
Proof.
  intros p a b v Ha Hb. pose proof (qmul_unit a b Ha Hb) as Hab.
  eapply eq3_trans; [apply qrotR|]. apply eq3_sym. eapply eq3_trans; [apply qrotR|].
  rewrite (rotP_eq3 _ _ _ _ (qrotR p b v)), !rotP_unit by assumption. rewrite rotP_compose. apply eq3_refl.
Qed.

(** *** C41 *)
Theorem rotate_qrot : forall p (q v : vec4 R), eq3 (qrot p q v) (mulV p (rotate q) v).
Proof.
  intros p q v. eapply eq3_trans; [apply qrotR|]. rewrite mulVR. dm. unfold rotP. qcbn. split; [|split]; ring.
Qed.
Theorem rotate_w : forall p (q v : vec4 R), vw (mulV p (rotate q) v) = vw v.
Proof. intros p q v. rewrite mulVR. dm. qcbn. ring. Qed.
Lemma dot_expand : forall q a b, dotS (rotP 1 q a) (rotP 1 q b) =
  dotS a b + 4 * (norm2 q - 1) * dotS (crossS q a) (crossS q b).
Proof. intros ? ? ?; dm. pcbn. ring. Qed.
Lemma rotP_dot : forall q a b, unitQ q -> dotS (rotP 1 q a) (rotP 1 q b) = dotS a b.
Proof. intros q a b H. rewrite dot_expand, H. ring. Qed.
Lemma dotS_eq3 : forall a a' b b', eq3 a a' -> eq3 b b' -> dotS a b = dotS a' b'.
Proof. intros a a' b b' (A & B & C) (D & E & G). unfold dotS. rewrite A, B, C, D, E, G. reflexivity. Qed.
Lemma crossS_eq3 : forall a a' b b', eq3 a a' -> eq3 b b' -> crossS a b = crossS a' b'.
Proof. intros a a' b b' (A & B & C) (D & E & G). unfold crossS. rewrite A, B, C, D, E, G. reflexivity. Qed.
Theorem qrot_dot : forall p (q a b : vec4 R), unitQ q -> dotS (qrot p q a) (qrot p q b) = dotS a b.
Proof. intros p q a b H. rewrite (dotS_eq3 _ _ _ _ (qrotR p q a) (qrotR p q b)). apply rotP_dot, H. Qed.
Lemma rotP_cross : forall q a b, crossS (rotP (norm2 q) q a) (rotP (norm2 q) q b) =
  let r := rotP (norm2 q) q (crossS a b) in V4 (norm2 q * vx r) (norm2 q * vy r) (norm2 q * vz r) 0.
Proof. intros ? ? ?; dm. pcbn. f_equal; ring. Qed.
Theorem qrot_cross : forall p (q a b : vec4 R), unitQ q -> eq3 (crossS (qrot p q a) (qrot p q b)) (qrot p q (crossS a b)).
Proof.
  intros p q a b H. rewrite (crossS_eq3 _ _ _ _ (qrotR p q a) (qrotR p q b)), !rotP_unit by assumption.
  rewrite rotP_cross. apply eq3_sym. eapply eq3_trans; [apply qrotR|]. rewrite rotP_unit by assumption. cbv zeta.
  unfold unitQ in H. rewrite H. unfold eq3. cbn [vx vy vz]. split; [|split]; ring.
Qed.
Theorem qrot_length : forall p (q v : vec4 R), unitQ q -> length3 p (qrot p q v) = length3 p v.
Proof. intros p q v H. rewrite !length3R, qrot_dot by assumption. reflexivity. Qed.
(** columns of the matrix are images of the axes *)
Lemma rotate_orthogonal : forall q : vec4 R, unitQ q -> isOrthogonal 4 (ent4 (rotate q)).
Proof.
  intros q H i j Hi Hj. unfold unitQ in H. destruct q as [x y z w]. unfold norm2 in H. cbn [vx vy vz vw] in H.
  assert (E : w * w = 1 - x * x - y * y - z * z) by lra.
  idx; unfold delta; cbn [Nat.eqb]; qcbn; ring_simplify;
    repeat match goal with |- context[w ^ 2] => replace (w ^ 2) with (1 - x * x - y * y - z * z) by (rewrite <- E; ring) end; ring.
Qed.
Lemma rotate_det : forall q : vec4 R, unitQ q -> det 4 (ent4 (rotate q)) = 1.
Proof.
  intros q H. unfold unitQ in H. destruct q as [x y z w]. unfold norm2 in H. cbn [vx vy vz vw] in H.
  set (n := x * x + y * y + z * z + w * w) in *.
  assert (E : w * w = 1 - x * x - y * y - z * z) by (unfold n in H; lra).
  cbv [det minor Nat.ltb Nat.leb pow]. qcbn. ring_simplify.
  replace (w ^ 4) with ((1 - x * x - y * y - z * z) ^ 2) by (rewrite <- E; ring).
  replace (w ^ 2) with (1 - x * x - y * y - z * z) by (rewrite <- E; ring). ring.
Qed.
Theorem rotate_compose : forall p (a b : vec4 R), unitQ a -> unitQ b ->
  rotate (qmul a b) = mulM p (rotate a) (rotate b).
Proof.
  intros p a b Ha Hb. rewrite mulMR.
  assert (K : forall v, eq3 (mulv4 (rotate (qmul a b)) v) (mulv4 (mulm4 (rotate a) (rotate b)) v)).
  { intro v. rewrite <- !(mulVR p). eapply eq3_trans; [apply eq3_sym, rotate_qrot|].
    eapply eq3_trans; [apply qmul_compose; assumption|]. eapply eq3_trans; [apply rotate_qrot|].
    rewrite !mulVR. destruct (rotate_qrot p b v) as (E1 & E2 & E3). rewrite mulVR in E1, E2, E3.
    destruct (mulm4_algebra (rotate a) (rotate b) (rotate b) v) as (_ & M & _). rewrite M.
    set (u := qrot p b v) in *. set (u' := mulv4 (rotate b) v) in *. clearbody u u'.
    dm. vcbn in E1; vcbn in E2; vcbn in E3. subst. qcbn. split; [|split]; ring. }
  pose proof (K axisX) as K1. pose proof (K axisY) as K2. pose proof (K axisZ) as K3. clear K Ha Hb. unfold axisX, axisY, axisZ in *.
  rewrite qmulR in *. dm. unfold qmulS in *. revert K1 K2 K3. qcbn. intros (K1 & K2 & K3) (K4 & K5 & K6) (K7 & K8 & K9).
  msplit; lra.
Qed.

(** *** C43 *)
Lemma norm2_pos : forall q, 0 <= norm2 q.
Proof. intros ?; dm. pcbn. nra. Qed.
Lemma norm2_nonzero : forall q, q <> V4 0 0 0 0 -> norm2 q <> 0.
Proof.
  intros [x y z w] H E. apply H. unfold norm2 in E. cbn [vx vy vz vw] in E.
  pose proof (sq_pos x). pose proof (sq_pos y). pose proof (sq_pos z). pose proof (sq_pos w).
  assert (Z : forall t, t * t = 0 -> t = 0) by (intros; nra). f_equal; apply Z; lra.
Qed.
Lemma qinverseR : forall p (q : vec4 R), qinverse p q = V4 (- vx q / norm2 q) (- vy q / norm2 q) (- vz q / norm2 q) (vw q / norm2 q).
Proof. intros p q. unfold qinverse. rewrite dot4R. reflexivity. Qed.
Theorem qinverse_correct : forall p (q : vec4 R), q <> V4 0 0 0 0 ->
  qmul (qinverse p q) q = idQ /\ qmul q (qinverse p q) = idQ.
Proof.
  intros p q H. apply norm2_nonzero in H. rewrite qinverseR.
  dm. revert H. qcbn. intro H. split; f_equal; field; exact H.
Qed.
Theorem qinverse_unit : forall p (q : vec4 R), unitQ q -> qinverse p q = qconj q.
Proof.
  intros p q H. rewrite qinverseR. unfold unitQ in H. rewrite H. unfold qconj. cbn [sneg ScalarR]. f_equal; field.
Qed.
Lemma qconj_unit : forall q : vec4 R, unitQ q -> unitQ (qconj q).
Proof. intros q H. unfold unitQ in *. rewrite <- H. unfold qconj, norm2. cbn [vx vy vz vw sneg ScalarR]. ring. Qed.
Theorem qinverse_undo : forall p (q v : vec4 R), unitQ q ->
  eq3 (vqrot p (qrot p q v) q) v /\ eq3 (qrot p q (vqrot p v q)) v.
Proof.
  intros p q v H. unfold vqrot. rewrite (qinverse_unit p q H). pose proof (qconj_unit q H) as Hc.
  assert (Hq : q <> V4 0 0 0 0) by (intros ->; unfold unitQ, norm2 in H; cbn [vx vy vz vw] in H; lra).
  destruct (qinverse_correct p q Hq) as (I1 & I2). rewrite (qinverse_unit p q H) in I1, I2.
  assert (Hid : eq3 (qrot p idQ v) v).
  { eapply eq3_trans; [apply qrotR|]. dm. pcbn. split; [|split]; ring. }
  split; (eapply eq3_trans; [apply eq3_sym, qmul_compose; assumption|]); rewrite ?I1, ?I2; exact Hid.
Qed.

Lemma turnedP : forall q v, turned q v = rotP (norm2 q) q v.
Proof. intros q v. dm. unfold turned, ham. pcbn. f_equal; ring. Qed.
Theorem qrot_turned : forall p (q v : vec4 R), unitQ q -> eq3 (qrot p q v) (turned q v).
Proof. intros p q v H. rewrite turnedP, <- rotP_unit by assumption. apply qrotR. Qed.
Theorem qmul_ham : forall a b : vec4 R, qmul a b = ham a b.
Proof. intros a b. dm. unfold ham. qcbn. f_equal; ring. Qed.
