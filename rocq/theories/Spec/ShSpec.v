(** Spherical harmonics up to band 2. *)
From Coq Require Import Reals ZArith List.
From Verif.Model Require Import Vec Matrix Sh.
Import ListNotations.
Local Open Scope R_scope.

(** degree l, order m, below B bands *)
Definition harmonic (B m l : Z) : Prop := (Z.abs m <= l < B)%Z.

(** The unnormalised real harmonics with the Condon-Shortley sign, in Cartesian form: the associated
    Legendre functions P_l^m(z) without the factor sin^m, times Re and Im of (x + i y)^m. *)
Definition harmonics (d : vec3 R) : list R :=
  let x := x3 d in let y := y3 d in let z := z3 d in
  [1; - y; z; - x; 6 * (x * y); -3 * (y * z); (3 * z * z - 1) / 2; -3 * (x * z); 3 * (x * x - y * y)].

(** three orthonormal columns *)
Definition inner3 (a b : vec3 R) : R := x3 a * x3 b + y3 a * y3 b + z3 a * z3 b.
Definition orthonormal (m : mat3 R) : Prop :=
  inner3 (b0 m) (b0 m) = 1 /\ inner3 (b1 m) (b1 m) = 1 /\ inner3 (b2 m) (b2 m) = 1 /\
  inner3 (b0 m) (b1 m) = 0 /\ inner3 (b0 m) (b2 m) = 0 /\ inner3 (b1 m) (b2 m) = 0.
Definition det3 (m : mat3 R) : R :=
  x3 (b0 m) * (y3 (b1 m) * z3 (b2 m) - z3 (b1 m) * y3 (b2 m))
  - y3 (b0 m) * (x3 (b1 m) * z3 (b2 m) - z3 (b1 m) * x3 (b2 m))
  + z3 (b0 m) * (x3 (b1 m) * y3 (b2 m) - y3 (b1 m) * x3 (b2 m)).
Definition rotation (m : mat3 R) : Prop := orthonormal m /\ det3 m = 1.
(** the rotated direction: the columns of the matrix weighted by the components *)
Definition applied (m : mat3 R) (v : vec3 R) : vec3 R :=
  V3 (x3 (b0 m) * x3 v + x3 (b1 m) * y3 v + x3 (b2 m) * z3 v)
     (y3 (b0 m) * x3 v + y3 (b1 m) * y3 v + y3 (b2 m) * z3 v)
     (z3 (b0 m) * x3 v + z3 (b1 m) * y3 v + z3 (b2 m) * z3 v).
(** the two bands of a direction, scaled so that rotations act orthogonally *)
Definition band1Of (v : vec3 R) : vec3 R := V3 (- y3 v) (z3 v) (- x3 v).
Definition band2Of (k : R) (v : vec3 R) : list R :=
  [x3 v * y3 v; - (y3 v * z3 v); (3 * z3 v * z3 v - 1) / (2 * k); - (x3 v * z3 v); (x3 v * x3 v - y3 v * y3 v) / 2].
(** five coefficients as a list *)
Definition list5 (q : vec5 R) : list R := [u0 q; u1 q; u2 q; u3 q; u4 q].
(** band 1 times w1, band 2 times w2 *)
Definition bandScaled {A F} (scale : A -> F -> A) (w0 w1 w2 : F) (a : list A) : list A :=
  map (fun p => scale (fst p) (snd p)) (combine a [w0; w1; w1; w1; w2; w2; w2; w2; w2]).
