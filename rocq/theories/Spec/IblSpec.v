(** Cube map layout, solid angles, sampling density. *)
From Coq Require Import Reals ZArith List.
From Verif.Model Require Import Vec.
Local Open Scope R_scope.

(** The cube map face selection table of the OpenGL and Vulkan specifications: for each face (+X, -X,
    +Y, -Y, +Z, -Z) the coordinates sc and tc and the major axis ma of a direction. *)
Definition cubeTable (face : Z) (d : vec3 R) : R * R * R :=
  match face with
  | 0%Z => (- z3 d, - y3 d, x3 d)
  | 1%Z => (z3 d, - y3 d, - x3 d)
  | 2%Z => (x3 d, z3 d, y3 d)
  | 3%Z => (x3 d, - z3 d, - y3 d)
  | 4%Z => (x3 d, - y3 d, z3 d)
  | _ => (- x3 d, - y3 d, - z3 d)
  end.
Definition isFace (f : Z) : Prop := (0 <= f <= 5)%Z.
(** [d] looks through face [f]: the major axis of that face is strictly the longest *)
Definition throughFace (f : Z) (d : vec3 R) : Prop :=
  let '(sc, tc, ma) := cubeTable f d in Rabs sc < ma /\ Rabs tc < ma.
(** position s in (0,1) of the centre of texel c of n *)
Definition centre (n c : Z) : R := (IZR c + / 2) / IZR n.
(** the direction meets the face at (s, t): the specification's (sc / ma + 1) / 2 *)
Definition meetsAt (f : Z) (d : vec3 R) (s t : R) : Prop :=
  let '(sc, tc, ma) := cubeTable f d in (sc / ma + 1) / 2 = s /\ (tc / ma + 1) / 2 = t.
Definition unit3 (d : vec3 R) : Prop := x3 d * x3 d + y3 d * y3 d + z3 d * z3 d = 1.

(** sum of f 0 .. f (n-1) *)
Fixpoint sumN (n : nat) (f : nat -> R) : R :=
  match n with O => 0 | S n' => sumN n' f + f n' end.

(** share of the GGX-distributed half vectors whose cosine is at least c *)
Definition tailFraction (a c : R) : R := (1 - c * c) / (1 + (a * a - 1) * (c * c)).
