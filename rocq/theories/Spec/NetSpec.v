(** Even distribution of sample points in the unit square. *)
From Coq Require Import ZArith Reals.
From Verif.Model Require Import Vec Scalar.
From Verif.Proofs Require Import F32Round.
Local Open Scope R_scope.

(** x lies in piece number c of the 2^k equal pieces of [0, 1) *)
Definition inPiece (k c : Z) (x : R) : Prop := IZR c / IZR (2 ^ k) <= x < IZR (c + 1) / IZR (2 ^ k).
(** the point lies in the cell (a, b) of the grid with 2^k columns and 2^j rows *)
Definition inCell (k j a b : Z) (p : vec2 f32) : Prop := inPiece k a (val (x2 p)) /\ inPiece j b (val (y2 p)).
