(** Integration over the unit sphere. *)
From Coq Require Import Reals List.
From Coquelicot Require Import Coquelicot.
From Verif.Model Require Import Vec.
Import ListNotations.
Local Open Scope R_scope.

Definition sphereDir (theta phi : R) : vec3 R := V3 (sin theta * cos phi) (sin theta * sin phi) (cos theta).
(** f has integral v: azimuth first, then polar angle with the area element sin theta *)
Definition hasSphereIntegral (f : vec3 R -> R) (v : R) : Prop :=
  exists g : R -> R,
    (forall theta, is_RInt (fun phi => f (sphereDir theta phi)) 0 (2 * PI) (g theta)) /\
    is_RInt (fun theta => g theta * sin theta) 0 PI v.
(** squared norms of the nine unnormalised harmonics, over 4 pi *)
Definition squaredNorms : list R := [1; /3; /3; /3; 12/5; 3/5; /5; 3/5; 12/5].
(** what convolution with the clamped cosine does to the three bands (Funk-Hecke at the pole):
    a_l = 2 pi times the integral over [0,1] of z P_l(z) *)
Definition legendre (l : nat) (z : R) : R := match l with O => 1 | S O => z | _ => (3 * z * z - 1) / 2 end.
Definition cosineLobe (l : nat) (a : R) : Prop := is_RInt (fun z => 2 * PI * (z * legendre l z)) 0 1 a.
(** band of coefficient number i *)
Definition bandOf (i : nat) : nat := match i with O => 0 | 1 | 2 | 3 => 1 | _ => 2 end.
(** the clamped cosine's three factors *)
Definition lobes (l : nat) : R := match l with O => PI | 1 => 2 * PI / 3 | _ => PI / 4 end.
(** norm of harmonic number i *)
Definition normOf (i : nat) : R := sqrt (4 * PI * nth i squaredNorms 0).
(** the polynomials a shader evaluates, and what each lacks against the harmonic of the same index *)
Definition shaderPolys (d : vec3 R) : list R :=
  let x := x3 d in let y := y3 d in let z := z3 d in
  [1; y; z; x; y * x; y * z; 3 * z * z - 1; z * x; x * x - y * y].
(** solid angle of the rectangle [x0,x1] x [y0,y1] of the plane z = 1 seen from the origin: the
    integral of cos / distance^2 *)
Definition planeDensity (x y : R) : R := let s := sqrt (x * x + y * y + 1) in / s / (s * s).
Definition hasSolidAngle (x0 x1 y0 y1 v : R) : Prop :=
  exists g : R -> R, (forall x, is_RInt (planeDensity x) y0 y1 (g x)) /\ is_RInt g x0 x1 v.
