(** The rigid inverse in binary32. *)
From Coq Require Import ZArith Bool List Reals Lra.
From Flocq Require Import Core.Core.
From Verif.Model Require Import Scalar Vec Simd Lanes Quaternion Matrix Transform.
From Verif.Spec Require Import NormSpec MatErrSpec RigidSpec.
From Verif.Proofs Require Import OrdScalar F32Round RigidErr.
Import ListNotations.
Local Open Scope R_scope.

(** * C150 *)
Theorem C150_back : forall p d (m : mat4 f32) (v : vec4 f32), d <= 0.01 -> nearRigid d m -> point1 v ->
  let r := mulV p (inverseTransRot p m) (mulV p m v) in
  returned d (vx r) (vx v) v (c3 m) /\ returned d (vy r) (vy v) v (c3 m) /\ returned d (vz r) (vz v) v (c3 m).
Proof. exact comes_back. Qed.
Print Assumptions C150_back.
Theorem C150_model : forall p (pos q v : vec4 f32), reachable pos -> moderate (l4 q) -> point1 v ->
  let m := calcModel p pos q (V4 f1 f1 f1 f1) in let r := mulV p (inverseTransRot p m) (mulV p m v) in
  returned (172 / 16777216) (vx r) (vx v) v pos /\ returned (172 / 16777216) (vy r) (vy v) v pos /\ returned (172 / 16777216) (vz r) (vz v) v pos.
Proof. exact model_undone. Qed.
Print Assumptions C150_model.
(** a quarter turn about z, moved by (5, -2, 7), is rigid without defect *)
Example C150_ex : nearRigid 0 quarter /\ point1 (c3 quarter) /\ taxi (c3 quarter) = 14.
Proof. exact ex_quarter. Qed.
