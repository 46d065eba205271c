(** The window of the deringing in binary32. *)
From Coq Require Import ZArith Bool List Reals Lra Lia.
From Flocq Require Import Core.Core.
From Verif.Model Require Import Outcome Scalar Vec Trig Sh.
From Verif.Spec Require Import ShSpec SphereSpec WindowSpec.
From Verif.Proofs Require Import OrdScalar F32Round SolidErr WindowErr.
Import ListNotations.
Local Open Scope R_scope.

(** * C158 *)
Theorem C158_factor : forall (T : Trig f32), goodSin T -> forall l (w : f32), (0 <= l <= 2)%Z -> fin w -> 0 < val w <= 1048576 ->
  fin (sincWindow l w) /\ 0 <= val (sincWindow l w) /\ Rabs (val (sincWindow l w) - window l (val w)) <= 30 / 16777216.
Proof. exact window_near. Qed.
Print Assumptions C158_factor.
Theorem C158_windowing : forall (T : Trig f32), goodSin T -> forall (w : f32) a, fin w -> 0 < val w <= 1048576 -> length a = 9%nat -> Forall moderate a ->
  exists r, windowing scalep4 w a = Ok r /\ length r = 9%nat /\
    forall i d, (i < 9)%nat -> timesNear (window (Z.of_nat (bandOf i)) (val w)) (nth i a d) (nth i r d).
Proof. exact windowing_near. Qed.
Print Assumptions C158_windowing.
(** the sine rounded to the nearest binary32 number is good enough *)
Example C158_ex_sin : goodSin roundedTrig.
Proof. exact rounded_sin. Qed.
(** nine coefficients, and the factor of band 1 at cutoff 2 *)
Example C158_ex : Forall moderate (repeat (V4 f1 fhalf f0 (slit (-3) 0)) 9) /\ window 1 2 = (2 / PI) ^ 4.
Proof. exact ex_moderate. Qed.
