(** Degrees and radians in binary32.  [PI] is the real number. *)
From Coq Require Import ZArith Bool List Reals Lra.
From Flocq Require Import Core.Core IEEE754.Binary IEEE754.Bits.
From Verif.Model Require Import Scalar Numeric.
From Verif.Spec Require Import AngleSpec.
From Verif.Proofs Require Import OrdScalar F32Round AngleErr.
Local Open Scope R_scope.

(** * C151 *)
Theorem C151_radians : forall x : f32, angleIn x ->
  within 2.7 (radiansS x) (val x * (PI / 180)) /\ within 2.7 (radiansLane x) (val x * (PI / 180)).
Proof. exact radians_near. Qed.
Print Assumptions C151_radians.
Theorem C151_degrees : forall x : f32, angleIn x ->
  within 2.7 (degreesS x) (val x * (180 / PI)) /\ within 2.7 (degreesLane x) (val x * (180 / PI)).
Proof. exact degrees_near. Qed.
Print Assumptions C151_degrees.
Theorem C151_back : forall x : f32, angleIn x ->
  within 4.01 (degreesS (radiansS x)) (val x) /\ within 4.01 (radiansS (degreesS x)) (val x) /\
  within 4.01 (degreesLane (radiansLane x)) (val x) /\ within 4.01 (radiansLane (degreesLane x)) (val x).
Proof. exact angles_back. Qed.
Print Assumptions C151_back.
Theorem C151_order : forall x y : f32, angleIn x -> angleIn y -> val x <= val y ->
  val (radiansS x) <= val (radiansS y) /\ val (degreesS x) <= val (degreesS y) /\
  val (radiansLane x) <= val (radiansLane y) /\ val (degreesLane x) <= val (degreesLane y).
Proof. exact angles_mono. Qed.
Print Assumptions C151_order.
(** the four-lane form multiplies first: it overflows where the scalar form does not *)
Theorem C151_same_range_refuted : exists x : f32, fin x /\ fin (radiansS x) /\ ~ fin (radiansLane x).
Proof. exact lane_overflows. Qed.
Print Assumptions C151_same_range_refuted.
(** five degrees is in range, and there the two forms differ in the last bit *)
Example C151_ex : angleIn (slit 5 0) /\ bits_of_b32 (radiansLane (slit 5 0)) = (bits_of_b32 (radiansS (slit 5 0)) + 1)%Z.
Proof. exact five_differs. Qed.
