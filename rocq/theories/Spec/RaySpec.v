(** Rays in exact arithmetic. *)
From Coq Require Import Reals ZArith.
From Verif.Model Require Import Scalar Vec Simd Aabb.
From Verif.Proofs Require Import OrdScalar.
Local Open Scope R_scope.

(** The point at parameter [t] of the ray from [o] in direction [d]. *)
Definition pointAt (o d : vec4 R) (t : R) : vec4 R :=
  V4 (vx o + t * vx d) (vy o + t * vy d) (vz o + t * vz d) (vw o + t * vw d).

(** One axis of an inverted ray: parallel axes are flagged, the others hold 1/d. *)
Definition invertedAxis (flag : Z) (stored d : R) : Prop :=
  (flag = 4294967295%Z /\ d = 0) \/ (flag = 0%Z /\ d <> 0 /\ stored = / d).

(** [r] is the inverted ray of direction [d]. *)
Definition invertedRay (r : ray R) (d : vec4 R) : Prop :=
  invertedAxis (vx (rparallel r)) (vx (rdir r)) (vx d) /\
  invertedAxis (vy (rparallel r)) (vy (rdir r)) (vy d) /\
  invertedAxis (vz (rparallel r)) (vz (rdir r)) (vz d).

(** The largest finite binary32 number. *)
Definition maxFinite : R := (2 ^ 24 - 1) * 2 ^ 104.

(** The real value of the float literal 1.0e-20f. *)
Definition parallelEps : R := 1547425 / 2 ^ 87.
