(** Coefficients prepared for a shader in binary32. *)
From Coq Require Import ZArith Bool List Reals Lra Lia.
From Flocq Require Import Core.Core.
From Verif.Model Require Import Outcome Scalar Vec Sh.
From Verif.Spec Require Import IblSpec ShaderSpec WindowSpec.
From Verif.Proofs Require Import OrdScalar F32Round WindowErr ShaderErr.
Import ListNotations.
Local Open Scope R_scope.

(** * C159 *)
Theorem C159_light : forall a : list (vec4 f32), length a = 9%nat -> Forall moderate a -> exists r, shaderPreprocessSH a = Ok r /\ length r = 9%nat /\
  forall g, g = vx \/ g = vy \/ g = vz \/ g = vw -> Forall (fun v => fin (g v)) r /\
    forall d, unit3 d -> let real l := map (fun v => val (g v)) l in
      Rabs (shaderLight (real r) d - lightOf (real a) d) <= sumAbs (real a) / 480000 + / 10000000000000000.
Proof. exact shader_light. Qed.
Print Assumptions C159_light.
(** nine coefficients of moderate size, a direction, and the light of the constant coefficient alone *)
Example C159_ex : Forall moderate (repeat (V4 f1 fhalf f0 (slit (-3) 0)) 9) /\ unit3 (V3 (2/3) (-2/3) (1/3)).
Proof. split; [exact (proj1 ex_moderate)|unfold unit3; cbn [x3 y3 z3]; lra]. Qed.
Example C159_ex_light : lightOf [1; 0; 0; 0; 0; 0; 0; 0; 0] (V3 0 0 1) = / normOf 0 / PI /\ sumAbs [1; 0; 0; 0; 0; 0; 0; 0; 0] = 1.
Proof. exact ex_light. Qed.
