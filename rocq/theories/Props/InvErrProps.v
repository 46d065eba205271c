(** C128: the inverse of a 4x4 matrix in binary32 arithmetic, on every path. *)
From Coq Require Import ZArith Bool List Reals.
From Flocq Require Import Core.Core.
From Verif.Model Require Import Scalar Vec Simd Matrix.
From Verif.Spec Require Import InvErrSpec.
From Verif.Proofs Require Import OrdScalar F32Round InvErr InvUse InvWitness.
Import ListNotations.
Local Open Scope R_scope.

Theorem C128_inverse : forall p b (m : mat4 f32), entriesIn b m -> regular b m ->
  exists n, inverseOf n (realM m) /\ entriesNear (cramer b (det 4 (ent4 (realM m)))) (inverse4x4 p m) n.
Proof. exact inverse_near. Qed.
Print Assumptions C128_inverse.
Theorem C128_residual : forall p b (m : mat4 f32), entriesIn b m -> regular b m ->
  forall i j, (i < 4)%nat -> (j < 4)%nat ->
  let c := 4 * (b * cramer b (det 4 (ent4 (realM m)))) in
  Rabs (sum 4 (fun k => val (ent4 (inverse4x4 p m) i k) * val (ent4 m k j)) - delta i j) <= c /\
  Rabs (sum 4 (fun k => val (ent4 m i k) * val (ent4 (inverse4x4 p m) k j)) - delta i j) <= c.
Proof. exact inverse_residual. Qed.
Print Assumptions C128_residual.
Theorem C128_round_trip : forall p b c (m : mat4 f32) v, entriesIn b m -> regular b m -> pointIn c v ->
  forall i, (i < 4)%nat ->
  fin (comp4 (mulV p (inverse4x4 p m) (mulV p m v)) i) /\
  Rabs (val (comp4 (mulV p (inverse4x4 p m) (mulV p m v)) i) - val (comp4 v i)) <= tripErr b (det 4 (ent4 (realM m))) * c.
Proof. exact round_trip. Qed.
Print Assumptions C128_round_trip.
(** the condition on the size of the entries is needed *)
Theorem C128_range : exists m n : mat4 f32, inverseOf (realM n) (realM m) /\
  Forall allFin (rowsOf4 m) /\ Forall allFin (rowsOf4 n) /\ forall p, ~ fin (vx (c0 (inverse4x4 p m))).
Proof. exact tiny_fails. Qed.
Print Assumptions C128_range.
Example C128_ex : entriesIn 4 exInv /\ regular 4 exInv /\ pointIn 8 (V4 (slit 5 0 : f32) (slit (-7) 0) (slit 2 0) (slit 1 0)).
Proof. exact exInv_in. Qed.
