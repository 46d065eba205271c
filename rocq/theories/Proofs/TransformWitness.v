(** Concrete cases for the transform theorems. *)
From Coq Require Import ZArith Bool List Reals Lra.
From Verif.Model Require Import Scalar Vec Simd Matrix Trig Quaternion Transform.
From Verif.Spec Require Import GeomSpec MatSpec EuclidSpec RotSpec ProjSpec.
From Verif.Proofs Require Import OrdScalar MatrixProofs QuatTrig ProjProofs AabbWitness.
Local Open Scope R_scope.
Definition affine : mat4 f32 := M4 (v4 1 2 0) (v4 0 1 3) (v4 2 0 1) (withW (v4 5 6 7) (fi 1)).
Definition projective : mat4 f32 := M4 (withW (v4 1 2 0) (fi 1)) (v4 0 1 3) (v4 2 0 1) (withW (v4 5 6 7) (fi 2)).
Definition eqm (a b : mat4 f32) : bool := eqv (c0 a) (c0 b) && eqv (c1 a) (c1 b) && eqv (c2 a) (c2 b) && eqv (c3 a) (c3 b).
Lemma euler_ex : - PI < PI / 4 <= PI /\ - (PI / 2) < 0 < PI / 2 /\ / 8388608 < Rabs (sin (PI / 4) * cos 0) /\ / 8388608 < Rabs (cos (PI / 4) * cos 0).
Proof.
  pose proof PI_RGT_0. rewrite cos_0, !Rmult_1_r, sin_PI4, cos_PI4.
  assert (S : sqrt 2 * sqrt 2 = 2) by (apply sqrt_def; lra). assert (P : 0 < sqrt 2) by (apply sqrt_lt_R0; lra).
  assert (B : sqrt 2 < 2) by nra. assert (G : 1 / 2 < 1 / sqrt 2) by (apply Rmult_lt_compat_l; [lra|]; apply Rinv_lt_contravar; nra).
  rewrite Rabs_right by lra. repeat split; lra.
Qed.
Lemma persp_ex : 0 < PI / 2 < PI /\ projects (ent4 (calcPerspProj (PI / 2) 2 1 3)) (V4 2 1 2 0) (V4 (1 / 2) (- 1 / 2) (3 / 4) 0).
Proof.
  pose proof PI_RGT_0. split; [lra|]. rewrite perspProjR. replace (PI / 2 * / 2) with (PI / 4) by field. rewrite tan_PI4.
  apply persp_projects; cbn [vx vy vz]; [lra..|]. repeat split; field.
Qed.
