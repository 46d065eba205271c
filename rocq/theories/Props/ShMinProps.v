(** C135, C136: the minimum search of the deringing filter.  [light], [total] and the classes of lights are in
    Spec/ShMinSpec.v, [ringing] in Proofs/ShLoop.v. *)
From Coq Require Import ZArith Bool List Reals Lra.
From Flocq Require Import IEEE754.Binary.
From Verif.Model Require Import Outcome Scalar Vec Matrix Trig Numeric Sh.
From Verif.Spec Require Import IblSpec ShSpec SphereSpec ShMinSpec.
From Verif.Proofs Require Import F32Round ShLoop ShMin.
Local Open Scope R_scope.

(** ** C135: no number of iterations is enough for this light, whatever the power function's (finite) values are *)
Theorem C135_terminates_refuted : forall (P : Pow f32), (forall x : f32, sle f0 x = true -> sle x f1 = true -> fin (spow x (slit 3 (-1)))) ->
  forall n, shmin n ringing = OutOfFuel.
Proof. exact (@shmin_endless). Qed.
Print Assumptions C135_terminates_refuted.
Example C135_a_power : let P : Pow f32 := {| spow := fun x _ => x |} in forall x : f32, sle f0 x = true -> sle x f1 = true -> fin (spow x (slit 3 (-1))).
Proof. intros P [s|s|s pl E|s m e E] H0 H1; try reflexivity; try discriminate H0. destruct s; [discriminate H0|discriminate H1]. Qed.

(** ** C136 *)
Theorem C136_missed_refuted : forall n, exists r w', shmin n sideLight = Ok (r, w') /\ / 4 < r /\ unit3 (V3 1 0 0) /\ light sideLight (V3 1 0 0) < - / 5.
Proof. exact missed. Qed.
Print Assumptions C136_missed_refuted.
Theorem C136_missed_binary32 : forall (P : Pow f32) n, exists r w', shmin n (SH f1 f0 f0 f1 f0 f0 f0 f0 f0 : sh9 f32) = Ok (r, w') /\ slt f0 r = true.
Proof. exact missed32. Qed.
Print Assumptions C136_missed_binary32.
Theorem C136_concave_refuted : forall n, exists r w', shmin (S (S n)) domeLight = Ok (r, w') /\ / 2 < r /\ unit3 (V3 0 0 (-1)) /\ light domeLight (V3 0 0 (-1)) < - / 2.
Proof. exact concave. Qed.
Print Assumptions C136_concave_refuted.
Theorem C136_vertical_refuted : forall (P : Pow f32) n (w : sh9 f32), seq (s2 w) f0 = true -> seq (s3 w) f0 = true ->
  exists t r, shmin n w = Ok (t, r) /\ is_nan 24 128 t = true.
Proof. exact vertical. Qed.
Print Assumptions C136_vertical_refuted.
Example C136_vertical_case : exists w : sh9 f32, seq (s2 w) f0 = true /\ seq (s3 w) f0 = true /\ slt f0 (s1 w) = true /\ slt f0 (s0 w) = true.
Proof. exists (SH f1 f1 f0 f0 f0 f0 f0 f0 f0). repeat split; vm_compute; reflexivity. Qed.

(** ** what holds *)
Theorem C136_bound_actual : forall (w : sh9 R) r w', axial w -> shmin 0 w = Ok (r, w') -> 0 <= r /\ forall n, unit3 n -> r <= light w n + total w / 70000.
Proof. exact bound_actual. Qed.
Print Assumptions C136_bound_actual.
Theorem C136_zonal_actual : forall n (w : sh9 R), zonal w -> gentle w \/ bowl w -> exists r w', shmin (S (S n)) w = Ok (r, w') /\
  (forall d, unit3 d -> r <= light w d + total w / 70000) /\ exists d, unit3 d /\ light w d <= r + total w / 70000.
Proof. exact zonal_actual. Qed.
Print Assumptions C136_zonal_actual.
Example C136_gentle_case : let w := SH 1 0 2 0 0 0 (/ 4) 0 0 in zonal w /\ gentle w.
Proof.
  unfold zonal, gentle. cbn [s1 s2 s3 s4 s5 s6 s7 s8]. rewrite (Rabs_pos_eq (/ 4)), (Rabs_pos_eq 2) by lra. repeat split; lra.
Qed.
Example C136_bowl_case : let w := SH 1 0 (-1) 0 0 0 3 0 0 in zonal w /\ bowl w.
Proof. unfold zonal, bowl. cbn [s1 s2 s3 s4 s5 s6 s7 s8]. rewrite (Rabs_left (-1)) by lra. repeat split; lra. Qed.
Example C136_axial_case : exists r w', axial (SH 10 0 1 0 0 1 0 0 0) /\ shmin 0 (SH 10 0 1 0 0 1 0 0 0 : sh9 R) = Ok (r, w').
Proof. exact bound_case. Qed.
