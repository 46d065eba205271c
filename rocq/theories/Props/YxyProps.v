(** Colours to XYZ and Yxy and back. *)
From Coq Require Import ZArith Bool List Reals Lra Lia.
From Flocq Require Import Core.Core IEEE754.Binary.
From Verif.Model Require Import Scalar Vec Simd Matrix Numeric.
From Verif.Spec Require Import YxySpec.
From Verif.Proofs Require Import OrdScalar F32Round YxyErr YxyRgb.
Local Open Scope R_scope.

(** * C148 *)
Theorem C148_black_refuted : exists c : vec4 f32, (fin (vx c) /\ fin (vy c) /\ fin (vz c) /\ val (vx c) = 0 /\ val (vy c) = 0 /\ val (vz c) = 0) /\
  forall p, let w := yxyToRgb p (rgbToYxy p c) in
  is_nan 24 128 (vx w) = true /\ is_nan 24 128 (vy w) = true /\ is_nan 24 128 (vz w) = true.
Proof. exact black_lost. Qed.
Print Assumptions C148_black_refuted.
Theorem C148_round_trip_actual : forall p (c : vec4 f32), light c ->
  let w := yxyToRgb p (rgbToYxy p c) in
  units 32 (vx w) (val (vx c)) (total c) /\ units 15 (vy w) (val (vy c)) (total c) /\ units 18 (vz w) (val (vz c)) (total c).
Proof. exact round_trip. Qed.
Print Assumptions C148_round_trip_actual.
Theorem C148_xyz : forall p (c : vec4 f32), light c ->
  let w := rgbToXyz p c in let r := val (vx c) in let g := val (vy c) in let b := val (vz c) in
  units 4.02 (vx w) (standardX r g b) (standardX r g b) /\ units 4.02 (vy w) (standardY r g b) (standardY r g b) /\
  units 4.02 (vz w) (standardZ r g b) (standardZ r g b).
Proof. exact to_xyz. Qed.
Print Assumptions C148_xyz.
Theorem C148_xyz_back : forall p (c : vec4 f32), light c ->
  let w := xyzToRgb p (rgbToXyz p c) in
  units 16 (vx w) (val (vx c)) (total c) /\ units 11 (vy w) (val (vy c)) (total c) /\ units 7 (vz w) (val (vz c)) (total c).
Proof. exact and_again. Qed.
Print Assumptions C148_xyz_back.
Theorem C148_yxy : forall p (v : vec4 f32), tristimulus v ->
  let c := xyzToYxy p v in let s := val (vx v) + val (vy v) + val (vz v) in
  vx c = vy v /\ units 4.01 (vy c) (val (vx v) / s) (val (vx v) / s) /\ units 4.01 (vz c) (val (vy v) / s) (val (vy v) / s).
Proof. exact to_yxy. Qed.
Print Assumptions C148_yxy.
Theorem C148_yxy_back : forall p (v : vec4 f32), tristimulus v ->
  let r := yxyToXyz (xyzToYxy p v) in
  units 10.01 (vx r) (val (vx v)) (val (vx v)) /\ vy r = vy v /\ units 8.01 (vz r) (val (vz v)) (val (vx v) + val (vy v) + val (vz v)).
Proof. exact and_back. Qed.
Print Assumptions C148_yxy_back.
(** white is a colour with light, and (1, 1, 1) a tristimulus *)
Example C148_ex : light (V4 f1 f1 f1 f1 : vec4 f32) /\ total (V4 f1 f1 f1 f1) = 3 /\ tristimulus (V4 f1 f1 f1 f1 : vec4 f32).
Proof. exact ex_white. Qed.
