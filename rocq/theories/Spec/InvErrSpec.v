(** The inverse of a binary32 matrix against the exact inverse of the same entries. *)
From Coq Require Import ZArith Reals List.
From Flocq Require Import Core.Core.
From Verif.Model Require Import Scalar Vec Matrix.
From Verif.Spec Require Export MatSpec MatErrSpec CullSpec.
From Verif.Proofs Require Import OrdScalar F32Round.
Import ListNotations.
Local Open Scope R_scope.

(** finite entries of magnitude at most [b], with [b] far from overflow and underflow of fourth powers *)
Definition entriesIn (b : R) (m : mat4 f32) : Prop :=
  bpow radix2 (-24) <= b <= bpow radix2 24 /\ Forall (fun r => allFin r /\ boundedBy b r) (rowsOf4 m).
(** the determinant is at least 2^-14 of the fourth power of the entries' bound *)
Definition regular (b : R) (m : mat4 f32) : Prop := b ^ 4 / 16384 <= Rabs (det 4 (ent4 (realM m))).
(** [n] is a two-sided inverse of [m] *)
Definition inverseOf (n m : mat4 R) : Prop :=
  forall i j, (i < 4)%nat -> (j < 4)%nat ->
    sum 4 (fun k => ent4 n i k * ent4 m k j) = delta i j /\ sum 4 (fun k => ent4 m i k * ent4 n k j) = delta i j.
(** every entry of [x] is finite and within [e] of the same entry of [n] *)
Definition entriesNear (e : R) (x : mat4 f32) (n : mat4 R) : Prop :=
  forall i j, (i < 4)%nat -> (j < 4)%nat -> fin (ent4 x i j) /\ Rabs (val (ent4 x i j) - ent4 n i j) <= e.
(** the error of Cramer's rule with entries up to [b] and determinant [d]: 70 rounding errors of b^3 / d,
    and 1900 of b^7 / d^2 *)
Definition cramer (b d : R) : R := (70 * (b ^ 3 / Rabs d) + 1900 * (b ^ 7 / d ^ 2)) / 16777216.
(** a point transformed and transformed back, relative to the bound of its coordinates *)
Definition tripErr (b d : R) : R := (2200 * (b ^ 4 / Rabs d) + 33000 * (b ^ 8 / d ^ 2)) / 16777216.
Definition pointIn (c : R) (v : vec4 f32) : Prop :=
  bpow radix2 (-24) <= c <= bpow radix2 24 /\ allFin (l4 v) /\ boundedBy c (l4 v).
