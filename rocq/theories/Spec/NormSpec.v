(** Vectors of binary32 numbers as real vectors. *)
From Coq Require Import ZArith Reals List.
From Flocq Require Import Core.Core.
From Verif.Model Require Import Scalar Vec.
From Verif.Spec Require Export VecSpec.
From Verif.Proofs Require Import OrdScalar F32Round.
Import ListNotations.
Local Open Scope R_scope.

Definition allFin (l : list f32) : Prop := Forall (fun x => fin x) l.
(** inner product, and the sum of the magnitudes of its terms *)
Fixpoint inner (a b : list f32) : R :=
  match a, b with x :: a', y :: b' => val x * val y + inner a' b' | _, _ => 0 end.
Fixpoint innerAbs (a b : list f32) : R :=
  match a, b with x :: a', y :: b' => Rabs (val x * val y) + innerAbs a' b' | _, _ => 0 end.
(** [d] is the inner product up to [k] relative rounding errors of 2^-24 and an underflow *)
Definition innerErr (k : R) (d : f32) (a b : list f32) : Prop :=
  fin d /\ Rabs (val d - inner a b) <= k / 16777216 * innerAbs a b + 10 * bpow radix2 (-150).
Definition norm (l : list f32) : R := sqrt (inner l l).
(** the squared length is far from overflow and underflow *)
Definition moderate (l : list f32) : Prop := allFin l /\ bpow radix2 (-100) <= inner l l <= bpow radix2 100.
(** [r] is [l] divided by its length, up to [k] relative rounding errors in each lane *)
Definition unitOf (k : R) (r l : list f32) : Prop :=
  allFin r /\ Forall2 (fun x y => Rabs (val x - val y / norm l) <= k / 16777216 * Rabs (val y / norm l) + 2 * bpow radix2 (-150)) r l.
(** each lane of the cross product up to two rounding errors of its two terms *)
Definition det2Err (r a b c d : f32) : Prop :=
  fin r /\ Rabs (val r - (val a * val b - val c * val d)) <=
    2.01 / 16777216 * (Rabs (val a * val b) + Rabs (val c * val d)) + 10 * bpow radix2 (-150).
Definition crossErr (r a b : list f32) : Prop :=
  match r, a, b with
  | [r1; r2; r3], [a1; a2; a3], [b1; b2; b3] => det2Err r1 a2 b3 a3 b2 /\ det2Err r2 a3 b1 a1 b3 /\ det2Err r3 a1 b2 a2 b1
  | _, _, _ => False
  end.
(** no term of the cross product is near overflow *)
Definition boundedBy (m : R) (l : list f32) : Prop := Forall (fun x => Rabs (val x) <= m) l.
