(** Cube map texels in binary32. *)
From Coq Require Import ZArith Reals List.
From Flocq Require Import Core.Core.
From Verif.Model Require Import Scalar Vec.
From Verif.Spec Require Export IblSpec.
From Verif.Proofs Require Import OrdScalar F32Round.
Local Open Scope R_scope.

(** a texel of a cube map of [n] by [n] texels a face, at most 65536 *)
Definition texel (n cx cy f : Z) : Prop := (0 <= cx < n)%Z /\ (0 <= cy < n)%Z /\ (n <= 2 ^ 16)%Z /\ isFace f.
Definition real3 (d : vec3 f32) : vec3 R := V3 (val (x3 d)) (val (y3 d)) (val (z3 d)).
Definition fin3 (d : vec3 f32) : Prop := fin (x3 d) /\ fin (y3 d) /\ fin (z3 d).
(** the direction meets the face within [e] of (s, t) *)
Definition meetsNear (e : R) (f : Z) (d : vec3 R) (s t : R) : Prop :=
  let '(sc, tc, ma) := cubeTable f d in Rabs ((sc / ma + 1) / 2 - s) <= e /\ Rabs ((tc / ma + 1) / 2 - t) <= e.
Definition nearUnit (e : R) (d : vec3 R) : Prop := Rabs (x3 d * x3 d + y3 d * y3 d + z3 d * z3 d - 1) <= e.
