(** C143: centre, extent and moves of boxes in binary32.  The vocabulary is in Spec/BoxErrSpec.v. *)
From Coq Require Import ZArith Bool List Reals Lra Lia.
From Flocq Require Import Core.Core.
From Verif.Model Require Import Outcome Scalar Vec Simd Aabb.
From Verif.Spec Require Import BoxErrSpec.
From Verif.Proofs Require Import F32Round BoxErr.
Local Open Scope R_scope.

Theorem C143_centre : forall b, properBox b -> inside b (getPosition b) /\ inside b (snd (getExtentPos b)) /\
  forall i, In i axes -> within 1 (Rabs (on i (bmin b) + on i (bmax b)) / 2) (on i (getPosition b)) ((on i (bmin b) + on i (bmax b)) / 2) /\
    within 1.01 (Rmax (Rabs (on i (bmin b))) (Rabs (on i (bmax b)))) (on i (snd (getExtentPos b))) ((on i (bmin b) + on i (bmax b)) / 2) /\
    0 <= on i (getExtent b) /\ within 1 ((on i (bmax b) - on i (bmin b)) / 2) (on i (getExtent b)) ((on i (bmax b) - on i (bmin b)) / 2) /\ on i (fst (getExtentPos b)) = on i (getExtent b).
Proof. exact box_centre. Qed.
Print Assumptions C143_centre.
Theorem C143_around : forall e q, upTo 125 e -> upTo 125 q -> (forall i, In i axes -> 0 <= on i e) -> inside (setExtent e q) q /\ inside (setSize e q) q.
Proof. exact box_around. Qed.
Print Assumptions C143_around.
Theorem C143_move : forall b t v, properBox b -> upTo 126 t -> inside b v -> inside (translateBox b t) (vadd v t).
Proof. exact box_move. Qed.
Print Assumptions C143_move.
Theorem C143_back_actual : forall e q, upTo 125 e -> upTo 125 q -> forall i, In i axes -> let m := Rmax (Rabs (on i q)) (Rabs (on i e)) in
  within 2.01 m (on i (getPosition (setExtent e q))) (on i q) /\ within 2.01 m (on i (getExtent (setExtent e q))) (on i e).
Proof. exact box_back. Qed.
Print Assumptions C143_back_actual.
Theorem C143_rebuild_actual : forall b, properBox b -> forall i, In i axes -> let r := setExtent (getExtent b) (getPosition b) in
  let m := Rmax (Rabs (on i (bmin b))) (Rabs (on i (bmax b))) in
  within 2.01 m (on i (bmin r)) (on i (bmin b)) /\ within 2.01 m (on i (bmax r)) (on i (bmax b)).
Proof. exact box_rebuild. Qed.
Print Assumptions C143_rebuild_actual.
(** a box taken apart and put together again need not cover the box *)
Theorem C143_rebuild_refuted : exists b v, properBox b /\ inside b v /\ ~ inside (setExtent (getExtent b) (getPosition b)) v.
Proof. exact not_covered. Qed.
Print Assumptions C143_rebuild_refuted.
(** a small box away from the origin has no extent *)
Theorem C143_extent_refuted : exists e q, upTo 125 e /\ upTo 125 q /\
  (forall i, In i axes -> on i e = bpow radix2 (-25) /\ on i q = 2 /\ on i (getExtent (setExtent e q)) = 0).
Proof. exact extent_lost. Qed.
Print Assumptions C143_extent_refuted.
(** without the bound on the coordinates the centre of a proper box can be infinite *)
Theorem C143_overflow_refuted : exists b, (forall i, In i axes -> fin (i (bmin b)) /\ fin (i (bmax b)) /\ on i (bmin b) <= on i (bmax b)) /\ ~ inside b (getPosition b).
Proof. exact centre_overflow. Qed.
Print Assumptions C143_overflow_refuted.

(** the hypotheses hold of the box from -1/8 to 5 and the point 1/8 *)
Example C143_ex : let x := slit (-1) (-3) : f32 in let y := slit 5 0 : f32 in let z := slit 1 (-3) : f32 in
  properBox (mkAabb (V4 x x x f0) (V4 y y y f0)) /\ inside (mkAabb (V4 x x x f0) (V4 y y y f0)) (V4 z z z f0) /\ upTo 125 (V4 z z z f0) /\ upTo 125 (V4 y y y f0) /\
  (forall i, In i axes -> 0 <= on i (V4 z z z f0)).
Proof.
  intros x y z. destruct (lit_up (-1) (-3) ltac:(lia) ltac:(lia)) as (Fx & Vx & Bx). destruct (lit_up 5 0 ltac:(lia) ltac:(lia)) as (Fy & Vy & By). destruct (lit_up 1 (-3) ltac:(lia) ltac:(lia)) as (Fz & Vz & Bz).
  fold x in Fx, Vx, Bx. fold y in Fy, Vy, By. fold z in Fz, Vz, Bz. clearbody x y z. change (bpow radix2 (-3)) with (/ 8) in *. change (bpow radix2 0) with 1 in *.
  pose proof big_pos as P. assert (B : bpow radix2 125 <= bpow radix2 126) by (rewrite big1; lra).
  assert (L : val x <= val y /\ val x <= val z <= val y /\ 0 <= val z) by (rewrite Vx, Vy, Vz; lra). destruct L as (L1 & L2 & L3).
  split; [|split; [|split; [|split]]].
  - split; [apply up_same; [exact Fx|lra]|]. split; [apply up_same; [exact Fy|lra]|]. cbn [bmin bmax]. apply each; exact L1.
  - intros i. revert i. cbn [bmin bmax]. apply each; (split; [exact Fz|exact L2]).
  - apply up_same; assumption.
  - apply up_same; assumption.
  - apply each; exact L3.
Qed.
