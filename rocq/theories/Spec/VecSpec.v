(** Vectors as lists of components: dot product, norm, direction. *)
From Coq Require Import Reals List ZArith.
From Verif.Model Require Import Vec.
Import ListNotations.
Local Open Scope R_scope.

Definition l2 {A} (v : vec2 A) : list A := [x2 v; y2 v].
Definition l3 {A} (v : vec3 A) : list A := [x3 v; y3 v; z3 v].
Definition l4 {A} (v : vec4 A) : list A := [vx v; vy v; vz v; vw v].
(** the first three lanes *)
Definition l43 {A} (v : vec4 A) : list A := [vx v; vy v; vz v].

Fixpoint dotL (a b : list R) : R :=
  match a, b with x :: a', y :: b' => x * y + dotL a' b' | _, _ => 0 end.
Definition normL (a : list R) : R := sqrt (dotL a a).
Fixpoint addL (a b : list R) : list R :=
  match a, b with x :: a', y :: b' => (x + y) :: addL a' b' | _, _ => [] end.
Definition scaleL (k : R) (a : list R) : list R := map (Rmult k) a.
Definition subL (a b : list R) : list R := addL a (scaleL (-1) b).
Definition zeroL (a : list R) : Prop := Forall (fun x => x = 0) a.
(** a unit vector pointing the same way *)
Definition unitOf (a u : list R) : Prop := dotL u u = 1 /\ exists k, 0 < k /\ u = scaleL k a.
(** the vector product by its determinants *)
Definition crossL (a b : list R) : list R :=
  match a, b with
  | [a1; a2; a3], [b1; b2; b3] => [a2 * b3 - a3 * b2; a3 * b1 - a1 * b3; a1 * b2 - a2 * b1]
  | _, _ => []
  end.
