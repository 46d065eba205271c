(** Solid angles of cube map texels in binary32. *)
From Coq Require Import ZArith Bool List Reals Lra Lia.
From Flocq Require Import Core.Core.
From Verif.Model Require Import Scalar Vec Trig Ibl.
From Verif.Spec Require Import SolidSpec.
From Verif.Proofs Require Import OrdScalar F32Round SolidErr.
Local Open Scope R_scope.

(** * C156 *)
Theorem C156_large_refuted : forall (T : Trig f32), goodAtan2 T -> let inv : f32 := (f1 / slit 8192 0)%sc in let a := calcSolidAngle (coordsToST 0 0 inv) inv in
  exists w, hasSolidAngle (texelEdge 8192 1) (texelEdge 8192 0) (texelEdge 8192 1) (texelEdge 8192 0) w /\ 0 < w /\ fin a /\ (val a <= 0 \/ 4 * w <= val a).
Proof. exact texel_lost. Qed.
Print Assumptions C156_large_refuted.
Theorem C156_texel_actual : forall (T : Trig f32), goodAtan2 T -> forall n cx cy, (1 <= n <= 512)%Z -> (0 <= cx < n)%Z -> (0 <= cy < n)%Z ->
  let inv : f32 := (f1 / slit n 0)%sc in let a := calcSolidAngle (coordsToST cx cy inv) inv in
  exists x0 x1 y0 y1 w, nearEdge x0 n (cx + 1) /\ nearEdge x1 n cx /\ nearEdge y0 n (cy + 1) /\ nearEdge y1 n cy /\
    hasSolidAngle x0 x1 y0 y1 w /\ fin a /\ Rabs (val a - w) <= 20 / 16777216 /\ 0 < val a /\ Rabs (val a - w) <= 27 * (IZR n * IZR n) / 16777216 * w.
Proof. exact texel_area. Qed.
Print Assumptions C156_texel_actual.
(** the arc tangent rounded to the nearest binary32 number is good enough, and a texel of a map of 256 x 256 *)
Example C156_ex : goodAtan2 roundedTrig /\ (1 <= 256 <= 512)%Z /\ (0 <= 255 < 256)%Z.
Proof. split; [exact rounded_good|lia]. Qed.
