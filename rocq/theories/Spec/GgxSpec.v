(** The GGX distribution and the remapped reflectance, as real functions. *)
From Coq Require Import Reals.
Local Open Scope R_scope.

(** the distribution of Trowbridge and Reitz for the cosine [n] and the roughness [a] *)
Definition trowbridgeReitz (n a : R) : R := a² / (PI * (n² * (a² - 1) + 1)²).
(** square root of Fresnel's reflectance at normal incidence over 0.16 *)
Definition remappedReflectance (ior : R) : R := Rabs (ior - 1) / (ior + 1) / 0.4.
