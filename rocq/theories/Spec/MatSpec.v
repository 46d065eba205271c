(** Matrices as functions of row and column, with the textbook operations. *)
From Coq Require Import Reals.
From Verif.Model Require Import Vec Matrix.
Local Open Scope R_scope.

(** entry in row [i] and column [j], both counted from 0 *)
Definition comp2 {A} (v : vec2 A) (i : nat) : A := match i with 0%nat => x2 v | _ => y2 v end.
Definition comp3 {A} (v : vec3 A) (i : nat) : A :=
  match i with 0%nat => x3 v | 1%nat => y3 v | _ => z3 v end.
Definition comp4 {A} (v : vec4 A) (i : nat) : A :=
  match i with 0%nat => vx v | 1%nat => vy v | 2%nat => vz v | _ => vw v end.
Definition ent2 {A} (m : mat2 A) (i j : nat) : A :=
  comp2 (match j with 0%nat => a0 m | _ => a1 m end) i.
Definition ent3 {A} (m : mat3 A) (i j : nat) : A :=
  comp3 (match j with 0%nat => b0 m | 1%nat => b1 m | _ => b2 m end) i.
Definition ent4 {A} (m : mat4 A) (i j : nat) : A :=
  comp4 (match j with 0%nat => c0 m | 1%nat => c1 m | 2%nat => c2 m | _ => c3 m end) i.

(** sum of f 0 .. f (n-1) *)
Fixpoint sum (n : nat) (f : nat -> R) : R := match n with O => 0 | S k => sum k f + f k end.

(** [c] is the n x n product of [a] and [b]; [w] is the product of [a] and the column [v] *)
Definition isProduct (n : nat) (c a b : nat -> nat -> R) : Prop :=
  forall i j, (i < n)%nat -> (j < n)%nat -> c i j = sum n (fun k => a i k * b k j).
Definition isAction (n : nat) (w : nat -> R) (a : nat -> nat -> R) (v : nat -> R) : Prop :=
  forall i, (i < n)%nat -> w i = sum n (fun k => a i k * v k).
Definition delta (i j : nat) : R := if Nat.eqb i j then 1 else 0.
Definition isIdentity (n : nat) (m : nat -> nat -> R) : Prop :=
  forall i j, (i < n)%nat -> (j < n)%nat -> m i j = delta i j.

(** determinant by expansion along the first row *)
Definition minor (f : nat -> nat -> R) (j : nat) : nat -> nat -> R :=
  fun r c => f (S r) (if Nat.ltb c j then c else S c).
Fixpoint det (n : nat) (f : nat -> nat -> R) : R :=
  match n with
  | O => 1
  | S k => sum n (fun j => (-1) ^ j * f 0%nat j * det k (minor f j))
  end.
