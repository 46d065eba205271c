(** Perspective division. *)
From Coq Require Import Reals.
From Verif.Model Require Import Vec.
From Verif.Spec Require Import MatSpec.
Local Open Scope R_scope.

(** The homogeneous matrix [m] sends the point [v] in front of the viewer to the point [q] of
    normalised device coordinates: m (v, 1) = w (q, 1) for a positive w. *)
Definition projects (m : nat -> nat -> R) (v q : vec4 R) : Prop :=
  exists w, 0 < w /\ forall i, (i < 4)%nat ->
    sum 4 (fun k => m i k * comp4 (V4 (vx v) (vy v) (vz v) 1) k) = w * comp4 (V4 (vx q) (vy q) (vz q) 1) i.
(** box of view space: each pair is (low, high) *)
Definition inView (w h d : vec2 R) (v : vec4 R) : Prop :=
  x2 w <= vx v <= y2 w /\ x2 h <= vy v <= y2 h /\ x2 d <= vz v <= y2 d.
Definition inClip (q : vec4 R) : Prop := -1 <= vx q <= 1 /\ -1 <= vy q <= 1 /\ 0 <= vz q <= 1.
