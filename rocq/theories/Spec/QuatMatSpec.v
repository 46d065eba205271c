(** Rotation matrices in binary32 against the rotations they stand for. *)
From Coq Require Import ZArith Reals List.
From Flocq Require Import Core.Core.
From Verif.Model Require Import Scalar Vec Matrix.
From Verif.Spec Require Export QuatErrSpec MatErrSpec.
From Verif.Proofs Require Import OrdScalar F32Round.
Import ListNotations.
Local Open Scope R_scope.

(** the images of the three axes under the rotation by a quaternion *)
Definition turnedAxes (u : vec4 R) : list (list R) := [l43 (turned u axisX); l43 (turned u axisY); l43 (turned u axisZ)].
(** finite columns, each entry within [d] of the image of its axis *)
Definition nearRot (d : R) (m : mat4 f32) (u : vec4 R) : Prop :=
  unitQ u /\ Forall2 (Forall2 (fun (x : f32) r => fin x /\ Rabs (val x - r) <= d)) (colsOf43 m) (turnedAxes u).
(** the same with the fourth row and column of a homogeneous matrix exactly those of the identity *)
Definition pureRot (m : mat4 f32) : Prop := vw (c0 m) = f0 /\ vw (c1 m) = f0 /\ vw (c2 m) = f0 /\ c3 m = V4 f0 f0 f0 f1.
