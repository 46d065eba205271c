(** The spherical-harmonic basis in binary32. *)
From Coq Require Import ZArith Bool List Reals Lra Lia.
From Flocq Require Import Core.Core.
From Verif.Model Require Import Outcome Scalar Vec Ibl Sh.
From Verif.Spec Require Import ShSpec CubeSpec.
From Verif.Proofs Require Import OrdScalar F32Round ShErr.
Import ListNotations.
Local Open Scope R_scope.

(** * C154 *)
Theorem C154_basis : forall x y z : f32, fin x -> fin y -> fin z -> val x * val x + val y * val y + val z * val z <= 1.0001 ->
  exists vs, computeShBasis (V3 x y z) = Ok (map Some vs) /\
    Forall2 (fun v h => fin v /\ Rabs (val v - h) <= 9.1 / 16777216) vs (harmonics (V3 (val x) (val y) (val z))).
Proof. exact basis_near. Qed.
Print Assumptions C154_basis.
Theorem C154_texel : forall n cx cy f, texel n cx cy f -> exists d vs, coordsToDir cx cy f (f1 / slit n 0 : f32)%sc = Ok d /\
  computeShBasis d = Ok (map Some vs) /\ Forall2 (fun v h => fin v /\ Rabs (val v - h) <= 9.1 / 16777216) vs (harmonics (real3 d)).
Proof. exact texel_basis. Qed.
Print Assumptions C154_texel.
(** the vector (1/2, 1/2, 1/2), and a texel of a map of 64 x 64 *)
Example C154_ex : let h : f32 := fhalf in fin h /\ val h * val h + val h * val h + val h * val h <= 1.0001.
Proof. exact ex_basis. Qed.
Example C154_ex_texel : texel 64 63 0 3.
Proof. unfold texel, isFace. lia. Qed.
