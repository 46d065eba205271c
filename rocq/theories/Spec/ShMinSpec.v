(** Lighting given by nine coefficients. *)
From Coq Require Import Reals List.
From Verif.Model Require Import Vec Sh.
From Verif.Spec Require Import ShSpec SphereSpec.
Import ListNotations.
Local Open Scope R_scope.

Definition coefficients {A} (w : sh9 A) : list A := [s0 w; s1 w; s2 w; s3 w; s4 w; s5 w; s6 w; s7 w; s8 w].
(** the light from direction n: the coefficients times the normalised harmonics *)
Definition light (w : sh9 R) (n : vec3 R) : R :=
  fold_right Rplus 0 (map (fun i => nth i (coefficients w) 0 * (nth i (harmonics n) 0 / normOf i)) [0; 1; 2; 3; 4; 5; 6; 7; 8]%nat).
(** the sum of the magnitudes of the coefficients *)
Definition total (w : sh9 R) : R := fold_right Rplus 0 (map Rabs (coefficients w)).
(** the linear part of the light points along the z axis *)
Definition axial (w : sh9 R) : Prop := s1 w = 0 /\ s3 w = 0 /\ s2 w <> 0.
(** the light is symmetric about the z axis *)
Definition zonal (w : sh9 R) : Prop := s1 w = 0 /\ s3 w = 0 /\ s4 w = 0 /\ s5 w = 0 /\ s7 w = 0 /\ s8 w = 0 /\ s2 w <> 0.
(** the quadratic part is weak: brightness is monotone from pole to pole *)
Definition gentle (w : sh9 R) : Prop := s6 w <> 0 /\ 4 * Rabs (s6 w) <= Rabs (s2 w).
(** the quadratic part is strong and darkest near the equator *)
Definition bowl (w : sh9 R) : Prop := 0 < s6 w /\ 5 * Rabs (s2 w) <= 19 * s6 w.
(** a light from the side *)
Definition sideLight : sh9 R := SH 1 0 0 1 0 0 0 0 0.
(** a light brighter at the equator than at the poles *)
Definition domeLight : sh9 R := SH 1 0 (/ 2) 0 0 0 (-1) 0 0.
