(** Directions of cube map texels in binary32. *)
From Coq Require Import ZArith Bool List Reals Lra Lia.
From Flocq Require Import Core.Core.
From Verif.Model Require Import Outcome Scalar Vec Ibl.
From Verif.Spec Require Import CubeSpec.
From Verif.Proofs Require Import OrdScalar F32Round CubeErr.
Local Open Scope R_scope.

(** * C152 *)
Theorem C152_direction : forall n cx cy f, texel n cx cy f -> exists d,
  coordsToDir cx cy f (f1 / slit n 0 : f32)%sc = Ok d /\ fin3 d /\ throughFace f (real3 d) /\
  meetsNear (9 / 16777216) f (real3 d) (centre n cx) (centre n cy) /\ nearUnit (10.3 / 16777216) (real3 d).
Proof. exact texel_direction. Qed.
Print Assumptions C152_direction.
Theorem C152_distinct : forall n cx cy f cx' cy' f', texel n cx cy f -> texel n cx' cy' f' ->
  coordsToDir cx cy f (f1 / slit n 0 : f32)%sc = coordsToDir cx' cy' f' (f1 / slit n 0 : f32)%sc -> cx = cx' /\ cy = cy' /\ f = f'.
Proof. exact texel_injective. Qed.
Print Assumptions C152_distinct.
(** the last corner texel of the largest map, and a texel beside it *)
Example C152_ex : texel (2 ^ 16) 65535 65535 5 /\ texel (2 ^ 16) 65534 65535 5.
Proof. unfold texel, isFace. lia. Qed.
