(** What an 8-bit channel means. *)
From Coq Require Import ZArith Reals List.
From Verif.Model Require Import Color.
From Verif.Spec Require Import OrderSpec.
Local Open Scope R_scope.

(** a colour has byte channels *)
Definition isColor (c : color) : Prop := byte (cr c) /\ byte (cg c) /\ byte (cb c) /\ byte (ca c).
Definition channels (c : color) : list Z := (cr c :: cg c :: cb c :: ca c :: nil)%list.

(** [n] is a nearest channel value to the intensity [v] of the unit interval, up to [tol] channel
    steps; values outside saturate. *)
Definition nearestChannel (tol v : R) (n : Z) : Prop :=
  byte n /\ (v <= 0 -> n = 0%Z) /\ (1 <= v -> n = 255%Z) /\
  (0 <= v <= 1 -> Rabs (255 * v - IZR n) <= / 2 + tol).

(** the nearest point of the unit interval *)
Definition unitClamp (v : R) : R := Rmax (Rmin v 1) 0.
