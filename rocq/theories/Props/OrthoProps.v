(** C142: orthographic projections in binary32.  [coordinate], [span], [screen] and [linearDepth] are in Spec/OrthoSpec.v. *)
From Coq Require Import ZArith Bool List Reals Lra Lia.
From Flocq Require Import Core.Core.
From Verif.Model Require Import Outcome Scalar Vec Simd Matrix Transform.
From Verif.Spec Require Import OrthoSpec.
From Verif.Proofs Require Import F32Round AabbWitness OrthoErr.
Local Open Scope R_scope.

Theorem C142_screen : forall p w h d x y z, span w -> span h -> span d -> coordinate x -> coordinate y -> coordinate z ->
  forall M, M = calcOrthoProj w h d \/ M = calcOrthoProjRevZ w h d -> let c := mulV p M (V4 x y z f1) in
  fin (vx c) /\ fin (vy c) /\ fin (vz c) /\ fin (vw c) /\ val (vw c) = 1 /\
  Rabs (val (vx c) - screen (val (x2 w)) (val (y2 w)) (val x)) <=
    4.2 / 16777216 * ((2 * Rabs (val x) + Rabs (val (x2 w) + val (y2 w))) / (val (y2 w) - val (x2 w))) + bpow radix2 (-148) /\
  Rabs (val (vy c) + screen (val (x2 h)) (val (y2 h)) (val y)) <=
    4.2 / 16777216 * ((2 * Rabs (val y) + Rabs (val (x2 h) + val (y2 h))) / (val (y2 h) - val (x2 h))) + bpow radix2 (-148).
Proof. exact ortho_near. Qed.
Print Assumptions C142_screen.
Theorem C142_depth : forall p w h d x y z, span d -> coordinate x -> coordinate y -> coordinate z ->
  let n := val (x2 d) in let f := val (y2 d) in
  Rabs (val (vz (mulV p (calcOrthoProj w h d) (V4 x y z f1))) - linearDepth n f (val z)) <= 4.2 / 16777216 * ((Rabs (val z) + Rabs n) / (f - n)) + bpow radix2 (-148) /\
  Rabs (val (vz (mulV p (calcOrthoProjRevZ w h d) (V4 x y z f1))) - (1 - linearDepth n f (val z))) <= 4.2 / 16777216 * ((Rabs (val z) + Rabs f) / (f - n)) + bpow radix2 (-148).
Proof. exact ortho_depth. Qed.
Print Assumptions C142_depth.
Theorem C142_order : forall p w h d x y z x' y' z', span w -> span h -> span d ->
  coordinate x -> coordinate y -> coordinate z -> coordinate x' -> coordinate y' -> coordinate z' ->
  let c := mulV p (calcOrthoProj w h d) (V4 x y z f1) in let c' := mulV p (calcOrthoProj w h d) (V4 x' y' z' f1) in
  let e := mulV p (calcOrthoProjRevZ w h d) (V4 x y z f1) in let e' := mulV p (calcOrthoProjRevZ w h d) (V4 x' y' z' f1) in
  (val x <= val x' -> val (vx c) <= val (vx c') /\ val (vx e) <= val (vx e')) /\
  (val y <= val y' -> val (vy c') <= val (vy c) /\ val (vy e') <= val (vy e)) /\
  (val z <= val z' -> val (vz c) <= val (vz c') /\ val (vz e') <= val (vz e)).
Proof. exact ortho_order. Qed.
Print Assumptions C142_order.
(** a view box around the axis: no point of the box is clipped at its sides *)
Theorem C142_symmetric_actual : forall p w h d x y z, span w -> span h -> span d -> coordinate z ->
  val (x2 w) = - val (y2 w) -> val (x2 h) = - val (y2 h) -> / 1073741824 <= val (y2 w) -> / 1073741824 <= val (y2 h) ->
  coordinate x -> coordinate y -> Rabs (val x) <= val (y2 w) -> Rabs (val y) <= val (y2 h) ->
  forall M, M = calcOrthoProj w h d \/ M = calcOrthoProjRevZ w h d -> let c := mulV p M (V4 x y z f1) in Rabs (val (vx c)) <= 1 /\ Rabs (val (vy c)) <= 1.
Proof. exact ortho_inside. Qed.
Print Assumptions C142_symmetric_actual.
(** near plane 0: every depth between the planes is in [0, 1] *)
Theorem C142_zero_near_actual : forall p w h d x y z, span d -> coordinate x -> coordinate y -> coordinate z -> val (x2 d) = 0 -> 0 <= val z <= val (y2 d) ->
  let a := vz (mulV p (calcOrthoProj w h d) (V4 x y z f1)) in let b := vz (mulV p (calcOrthoProjRevZ w h d) (V4 x y z f1)) in
  0 <= val a <= 1 /\ 0 <= val b <= 1 /\ (val z = 0 -> val a = 0 /\ val b = 1).
Proof. exact ortho_depth_range. Qed.
Print Assumptions C142_zero_near_actual.
(** in general the corner of the view box is clipped, on every side *)
Theorem C142_corner_refuted : forall p, exists w d x z, span w /\ span d /\ coordinate x /\ coordinate z /\ val (x2 w) = 1 /\ val (y2 w) = 7 /\ val (x2 d) = 1 /\ val (y2 d) = 7 /\
  val x = 7 /\ val z = 7 /\
  let c := mulV p (calcOrthoProj w w d) (V4 x x z f1) in let e := mulV p (calcOrthoProjRevZ w w d) (V4 x x z f1) in
  1 < val (vx c) /\ val (vy c) < -1 /\ 1 < val (vz c) /\ val (vz e) < 0.
Proof. exact corner_clipped. Qed.
Print Assumptions C142_corner_refuted.

(** the hypotheses hold of the view box [-5, 5] x [-3, 3], the planes 0 and 40, and the points (4, -3, 20) and (5, 1, 30) *)
Example C142_ex : span (V2 (fi (-5)) (fi 5)) /\ span (V2 (fi (-3)) (fi 3)) /\ span (V2 (fi 0) (fi 40)) /\
  coordinate (fi 4) /\ coordinate (fi (-3)) /\ coordinate (fi 20) /\ coordinate (fi 5) /\ coordinate (fi 1) /\ coordinate (fi 30) /\
  val (fi (-5)) = - val (fi 5) /\ val (fi (-3)) = - val (fi 3) /\ val (fi 0) = 0 /\ Rabs (val (fi 4)) <= val (fi 5) /\ Rabs (val (fi (-3))) <= val (fi 3) /\ 0 <= val (fi 20) <= val (fi 40).
Proof.
  rewrite !(fun m H => proj2 (fz m H)) by lia.
  split; [apply span_z; lia|]. split; [apply span_z; lia|]. split; [apply span_z; lia|].
  do 6 (split; [apply fz; lia|]). split; [lra|]. split; [lra|]. split; [reflexivity|]. split; [rewrite Rabs_pos_eq; lra|]. split; [rewrite Rabs_left; lra|lra].
Qed.
