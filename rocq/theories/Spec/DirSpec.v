(** The named directions: x to the right, y to the top, z to the front. *)
From Coq Require Import ZArith Reals List.
From Flocq Require Import Core.Core IEEE754.Binary.
From Verif.Model Require Import Scalar Vec Matrix Directions.
From Verif.Proofs Require Import OrdScalar F32Round.
Local Open Scope R_scope.

(** the axis of a name (0 = x, 1 = y, 2 = z) and its sign *)
Definition axisOf (d : direction) : nat := match d with Left | Right => 0 | Bottom | Top => 1 | Back | Front => 2 end.
Definition signOf (d : direction) : R := match d with Left | Bottom | Back => -1 | _ => 1 end.
Definition coord (i : nat) (v : vec4 f32) : f32 := match i with O => vx v | 1%nat => vy v | 2%nat => vz v | _ => vw v end.
(** how far a point lies in that direction *)
Definition along (d : direction) (v : vec4 f32) : R := signOf d * val (coord (axisOf d) v).
Definition opposite (d : direction) : direction :=
  match d with Left => Right | Right => Left | Bottom => Top | Top => Bottom | Back => Front | Front => Back end.
(** a finite point *)
Definition place (v : vec4 f32) : Prop := forall i, (i <= 2)%nat -> fin (coord i v).
(** the first three lanes are the finite numbers [g 0], [g 1], [g 2] *)
Definition lanesAre (v : vec4 f32) (g : nat -> R) : Prop := forall i, (i <= 2)%nat -> fin (coord i v) /\ val (coord i v) = g i.
(** the unit vector of a name, lane by lane *)
Definition unitOf (d : direction) (i : nat) : R := if Nat.eqb i (axisOf d) then signOf d else 0.
(** the sixteen entries of an identity matrix *)
Definition column (j : nat) (m : mat4 f32) : vec4 f32 := match j with O => c0 m | 1%nat => c1 m | 2%nat => c2 m | _ => c3 m end.
Definition isIdentity (m : mat4 f32) : Prop := forall i j, (i <= 3)%nat -> (j <= 3)%nat ->
  fin (coord i (column j m)) /\ val (coord i (column j m)) = if Nat.eqb i j then 1 else 0.
