(** C76, C80, C101: cube maps, texel solid angles, GGX sampling (exact arithmetic). *)
From Coq Require Import ZArith Reals Bool List Lia Lra.
From Verif.Model Require Import Outcome Scalar Vec Simd Trig Numeric Ibl.
From Verif.Spec Require Import IblSpec SphereSpec.
From Verif.Proofs Require Import RealLits IblProofs SolidAngle.
Import ListNotations.
Local Open Scope R_scope.

(** ** C76 *)

Theorem C76_direction : forall cx cy f n, (0 <= cx < n)%Z -> (0 <= cy < n)%Z -> isFace f ->
  exists d, coordsToDir cx cy f (1 / IZR n) = Ok d /\ unit3 d /\ throughFace f d /\
            meetsAt f d (centre n cx) (centre n cy).
Proof. exact face_direction. Qed.
Print Assumptions C76_direction.

Theorem C76_abort : forall cx cy f (inv : R), coordsToDir cx cy f inv = Abort <-> ~ isFace f.
Proof. exact abort_faces. Qed.
Print Assumptions C76_abort.

Theorem C76_one_face : forall f g d, isFace f -> isFace g -> throughFace f d -> throughFace g d -> f = g.
Proof. exact through_unique. Qed.
Print Assumptions C76_one_face.

Theorem C76_distinct : forall cx cy f cx' cy' f' n,
  (0 <= cx < n)%Z -> (0 <= cy < n)%Z -> (0 <= cx' < n)%Z -> (0 <= cy' < n)%Z -> isFace f -> isFace f' ->
  coordsToDir cx cy f (1 / IZR n) = coordsToDir cx' cy' f' (1 / IZR n) -> cx = cx' /\ cy = cy' /\ f = f'.
Proof. exact texels_distinct. Qed.
Print Assumptions C76_distinct.

Example C76_hypotheses : (0 <= 3 < 8)%Z /\ isFace 5 /\ ~ isFace 6 /\ throughFace 2 (V3 (1/4) 1 (-1/2)).
Proof.
  unfold isFace, throughFace, cubeTable. cbn [x3 y3 z3]. repeat split; try lia; try (unfold Rabs; destruct (Rcase_abs _); lra).
Qed.

(** ** C101 *)

Theorem C101_solid_angle : forall (st : vec2 R) inv,
  hasSolidAngle (x2 st - inv) (x2 st + inv) (y2 st - inv) (y2 st + inv) (calcSolidAngle st inv).
Proof. exact texel_solid_angle. Qed.
Print Assumptions C101_solid_angle.

Theorem C101_positive : forall n cx cy, (0 < n)%Z -> 0 < calcSolidAngle (coordsToST cx cy (1 / IZR n)) (1 / IZR n).
Proof. exact texel_positive. Qed.
Print Assumptions C101_positive.

Theorem C101_face_total : forall n : nat, (0 < n)%nat -> let N := Z.of_nat n in
  sumN n (fun i => sumN n (fun j =>
    calcSolidAngle (coordsToST (Z.of_nat i) (Z.of_nat j) (1 / IZR N)) (1 / IZR N))) = 2 * PI / 3.
Proof. exact face_total. Qed.
Print Assumptions C101_face_total.

Theorem C101_sphere_total : forall n : nat, (0 < n)%nat -> let N := Z.of_nat n in
  sumN 6 (fun face => sumN n (fun i => sumN n (fun j =>
    calcSolidAngle (coordsToST (Z.of_nat i) (Z.of_nat j) (1 / IZR N)) (1 / IZR N)))) = 4 * PI.
Proof. exact sphere_total. Qed.
Print Assumptions C101_sphere_total.

Example C101_hypotheses : (0 < 256)%Z /\ (0 < 3)%nat.
Proof. lia. Qed.

(** ** C80 *)

Theorem C80_unit : forall (u : vec2 R) a, 0 <= y2 u < 1 -> 0 < a ->
  let h := importanceSamplingNdfDggx u a in unit3 (xyz h) /\ 0 < vz h <= 1 /\ vw h = vz h.
Proof. exact ggx_sample. Qed.
Print Assumptions C80_unit.

Theorem C80_distribution : forall u a, 0 <= u < 1 -> 0 < a -> tailFraction a (sqrt (cosTheta2 u a)) = u.
Proof. exact sample_tail. Qed.
Print Assumptions C80_distribution.

Theorem C80_density : forall a c, 0 < a -> 0 <= c <= 1 ->
  derivable_pt_lim (tailFraction a) c (- (2 * piF * ggx c a * c)).
Proof. exact sample_density. Qed.
Print Assumptions C80_density.

Example C80_hypotheses : let u := V2 (1/3) (3/4) : vec2 R in 0 <= y2 u < 1 /\ 0 < 1 / 10.
Proof. cbn [x2 y2]. lra. Qed.
