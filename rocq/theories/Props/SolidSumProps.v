(** All texels of a cube map in binary32. *)
From Coq Require Import ZArith Bool List Reals Lra Lia.
From Flocq Require Import Core.Core.
From Verif.Model Require Import Scalar Vec Trig Ibl.
From Verif.Spec Require Import IblSpec SolidSpec.
From Verif.Proofs Require Import OrdScalar F32Round SolidErr SolidSum.
Local Open Scope R_scope.

(** * C157 *)
Theorem C157_texel : forall (T : Trig f32), goodAtan2 T -> forall n cx cy, (1 <= n <= 512)%Z -> (0 <= cx < n)%Z -> (0 <= cy < n)%Z ->
  let inv : f32 := (f1 / slit n 0)%sc in let a := calcSolidAngle (coordsToST cx cy inv) inv in
  forall w, hasSolidAngle (texelEdge n (cx + 1)) (texelEdge n cx) (texelEdge n (cy + 1)) (texelEdge n cy) w ->
  fin a /\ Rabs (val a - w) <= (20 + 81 / IZR n) / 16777216.
Proof. exact texel_exact. Qed.
Print Assumptions C157_texel.
Theorem C157_sphere : forall (T : Trig f32), goodAtan2 T -> forall n : nat, (1 <= n <= 512)%nat -> let inv : f32 := (f1 / slit (Z.of_nat n) 0)%sc in
  Rabs (sumN 6 (fun face => sumN n (fun i => sumN n (fun j => val (calcSolidAngle (coordsToST (Z.of_nat i) (Z.of_nat j) inv) inv)))) - 4 * PI)
    <= (120 * (INR n * INR n) + 486 * INR n) / 16777216.
Proof. exact weights_total. Qed.
Print Assumptions C157_sphere.
(** a good arc tangent; a face of one texel has the solid angle of a sixth of the sphere *)
Example C157_ex : goodAtan2 roundedTrig /\ hasSolidAngle (texelEdge 1 (0 + 1)) (texelEdge 1 0) (texelEdge 1 (0 + 1)) (texelEdge 1 0) (2 * PI / 3).
Proof. split; [exact rounded_good|exact one_texel]. Qed.
(** for 64 x 64 texels a face the bound is a quarter of a percent of the sphere *)
Example C157_ex_64 : (120 * (INR 64 * INR 64) + 486 * INR 64) / 16777216 <= 0.0025 * (4 * PI).
Proof. exact sum_64. Qed.
