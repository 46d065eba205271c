(** Moving sets of points, and equality of floating point data. *)
From Coq Require Import Reals List.
From Verif.Model Require Import Scalar Vec Aabb Geometry.
From Verif.Spec Require Import GeomSpec EuclidSpec.
From Verif.Proofs Require Import OrdScalar.
Local Open Scope R_scope.

Definition plusS (a b : vec4 R) : vec4 R := V4 (vx a + vx b) (vy a + vy b) (vz a + vz b) 0.
Definition timesS (a b : vec4 R) : vec4 R := V4 (vx a * vx b) (vy a * vy b) (vz a * vz b) 0.
Definition allNonzero (a : vec4 R) : Prop := vx a <> 0 /\ vy a <> 0 /\ vz a <> 0.
(** [q] is the image of a point of [P] *)
Definition imageOf (P : vec4 R -> Prop) (f : vec4 R -> vec4 R) (q : vec4 R) : Prop :=
  exists q0, P q0 /\ eq3 q (f q0).
(** two sets have the same points *)
Definition sameSet (P Q : vec4 R -> Prop) : Prop := forall q, P q <-> Q q.
(** the points of a ray *)
Definition rayPoints (r : ray R) : vec4 R -> Prop := onRay (rorigin r) (rdir r).

(** two binary32 values are equal as numbers *)
Definition sameNumber (a b : f32) : Prop := num a /\ num b /\ ext a = ext b.
