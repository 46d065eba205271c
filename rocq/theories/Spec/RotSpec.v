(** Rotations of space, independently of quaternions and matrices. *)
From Coq Require Import Reals.
From Verif.Model Require Import Vec Matrix.
From Verif.Spec Require Import GeomSpec MatSpec EuclidSpec.
Local Open Scope R_scope.

(** squared length of a four-component vector *)
Definition norm2 (q : vec4 R) : R := vx q * vx q + vy q * vy q + vz q * vz q + vw q * vw q.
Definition unitQ (q : vec4 R) : Prop := norm2 q = 1.
Definition negQ (q : vec4 R) : vec4 R := V4 (- vx q) (- vy q) (- vz q) (- vw q).
Definition idQ : vec4 R := V4 0 0 0 1.
(** inner product of four-component vectors *)
Definition inner4 (a b : vec4 R) : R := vx a * vx b + vy a * vy b + vz a * vz b + vw a * vw b.

(** Rodrigues: [v] turned by the angle [theta] about the unit axis [u] (right-hand rule) *)
Definition rodrigues (u : vec4 R) (theta : R) (v : vec4 R) : vec4 R :=
  let c := cos theta in let s := sin theta in let k := dotS u v * (1 - c) in let x := crossS u v in
  V4 (vx v * c + vx x * s + vx u * k) (vy v * c + vy x * s + vy u * k) (vz v * c + vz x * s + vz u * k) 0.
Definition axisX : vec4 R := V4 1 0 0 0.
Definition axisY : vec4 R := V4 0 1 0 0.
Definition axisZ : vec4 R := V4 0 0 1 0.

(** the n x n matrix has orthonormal columns *)
Definition isOrthogonal (n : nat) (m : nat -> nat -> R) : Prop :=
  forall i j, (i < n)%nat -> (j < n)%nat -> sum n (fun k => m k i * m k j) = delta i j.

(** Hamilton's product (i^2 = j^2 = k^2 = ijk = -1), real part in the fourth place *)
Definition ham (a b : vec4 R) : vec4 R :=
  V4 (vw a * vx b + vx a * vw b + vy a * vz b - vz a * vy b) (vw a * vy b - vx a * vz b + vy a * vw b + vz a * vx b)
     (vw a * vz b + vx a * vy b - vy a * vx b + vz a * vw b) (vw a * vw b - vx a * vx b - vy a * vy b - vz a * vz b).
(** [v] turned by a quaternion: q v q* *)
Definition turned (q v : vec4 R) : vec4 R :=
  ham (ham q (V4 (vx v) (vy v) (vz v) 0)) (V4 (- vx q) (- vy q) (- vz q) (vw q)).
Definition scaleQ (k : R) (a : vec4 R) : vec4 R := V4 (k * vx a) (k * vy a) (k * vz a) (k * vw a).
(** position + R (scale * v) for the rotation R by a quaternion *)
Definition placed (pos q s v : vec4 R) : vec4 R :=
  let r := turned q (V4 (vx s * vx v) (vy s * vy v) (vz s * vz v) 0) in
  V4 (vx pos + vx r) (vy pos + vy r) (vz pos + vz r) 1.
(** a rotation (or reflection) followed by a translation *)
Definition rigid (m : mat4 R) : Prop :=
  isOrthogonal 3 (ent4 m) /\ vw (c0 m) = 0 /\ vw (c1 m) = 0 /\ vw (c2 m) = 0 /\ vw (c3 m) = 1.
(** a non-parallel up vector *)
Definition general (from to up : vec4 R) : Prop := nonzeroS (crossS up (minusS to from)).
