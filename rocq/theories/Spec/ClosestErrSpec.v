(** Closest points computed in binary32, measured against the exact closest points. *)
From Coq Require Import ZArith Reals List.
From Flocq Require Import Core.Core.
From Verif.Model Require Import Scalar Vec.
From Verif.Spec Require Export EuclidSpec CullSpec.
From Verif.Proofs Require Import OrdScalar F32Round.
Import ListNotations.
Local Open Scope R_scope.

(** finite coordinates of magnitude at most 2^40 *)
Definition fair (l : list f32) : Prop := allFin l /\ boundedBy (bpow radix2 40) l.
(** the computed point [r] has finite lanes within [e + k |a|] (in units of 2^-24) of [q], lane by lane,
    where [a] is the point the computation starts from *)
Definition lanesNear (e k : R) (a r : vec4 f32) (q : vec4 R) : Prop :=
  (fin (vx r) /\ Rabs (val (vx r) - vx q) <= (e + k * Rabs (val (vx a))) / 16777216) /\
  (fin (vy r) /\ Rabs (val (vy r) - vy q) <= (e + k * Rabs (val (vy a))) / 16777216) /\
  (fin (vz r) /\ Rabs (val (vz r) - vz q) <= (e + k * Rabs (val (vz a))) / 16777216).
(** length of a vector; distance of a point from the coordinate origin *)
Definition lenS (v : vec4 R) : R := sqrt (vx v * vx v + vy v * vy v + vz v * vz v).
(** q is the point of parameter t on the line through a and b *)
Definition atParam (a b : vec4 R) (t : R) (q : vec4 R) : Prop :=
  vx q = vx a + t * (vx b - vx a) /\ vy q = vy a + t * (vy b - vy a) /\ vz q = vz a + t * (vz b - vz a).
