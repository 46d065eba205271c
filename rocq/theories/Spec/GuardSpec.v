(** What a bounding box has to satisfy, and arguments that cannot break it. *)
From Coq Require Import Reals.
From Flocq Require Import IEEE754.Binary IEEE754.Bits.
From Verif.Model Require Import Scalar Vec Aabb Guards.
From Verif.Proofs Require Import OrdScalar.
From Verif.Spec Require Import GeomSpec BvhGeomSpec.
Local Open Scope R_scope.

(** on each axis both corners are numbers (an infinity is one, a NaN is not), in order; the fourth
    lane does not matter *)
Definition interval (lo hi : f32) : Prop := num lo /\ num hi /\ ext lo <= ext hi.
Definition properBox (b : aabb f32) : Prop :=
  interval (vx (bmin b)) (vx (bmax b)) /\ interval (vy (bmin b)) (vy (bmax b)) /\ interval (vz (bmin b)) (vz (bmax b)).
(** a number that is not below zero *)
Definition nonNegative (x : f32) : Prop := num x /\ 0 <= ext x.
Definition properSize (v : vec4 f32) : Prop := nonNegative (vx v) /\ nonNegative (vy v) /\ nonNegative (vz v).
(** a finite number above zero *)
Definition positive (x : f32) : Prop := is_finite 24 128 x = true /\ 0 < B2R 24 128 x.
Definition properFactor (v : vec4 f32) : Prop := positive (vx v) /\ positive (vy v) /\ positive (vz v).

(** the arguments the documentation allows; the setters that check their arguments take anything *)
Definition properCall (c : call (F := f32)) : Prop :=
  match c with
  | SetMin _ | SetMax _ | SetBoth _ _ | SetSize1 _ | SetExtent1 _ => True
  | SetSize _ q | SetExtent _ q => finite3 q
  | ExtendPoint q => num3 q
  | ExtendBox o => num3 (bmin o) /\ num3 (bmax o)
  | BinMul v | BinDiv v | MulBy v | DivBy v => properFactor v
  | BinAdd v | BinSub v | AddBy v | SubBy v => finite3 v
  end.
(** the calls that check what they are given *)
Definition isSetter (c : call (F := f32)) : bool :=
  match c with
  | SetMin _ | SetMax _ | SetBoth _ _ | SetSize1 _ | SetSize _ _ | SetExtent1 _ | SetExtent _ _ => true
  | _ => false
  end.
