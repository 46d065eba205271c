(** What a shader computes from the coefficients it is given. *)
From Coq Require Import ZArith Reals List.
From Verif.Model Require Import Scalar Vec.
From Verif.Spec Require Export ShSpec SphereSpec.
Import ListNotations.
Local Open Scope R_scope.

Fixpoint weigh (a b : list R) : R := match a, b with x :: a', y :: b' => x * y + weigh a' b' | _, _ => 0 end.
(** the normalised harmonics over pi, weighted with the coefficients *)
Definition lightOf (a : list R) (d : vec3 R) : R := weigh a (map (fun i => nth i (harmonics d) 0 / normOf i / PI) (List.seq 0 9)).
(** the polynomials of the shader, weighted with the preprocessed coefficients *)
Definition shaderLight (a : list R) (d : vec3 R) : R := weigh a (shaderPolys d).
Definition sumAbs (a : list R) : R := fold_right (fun x s => Rabs x + s) 0 a.
