(** The rotation kept by going through a matrix, and concrete cases for QuatMatProps.v. *)
From Coq Require Import ZArith Bool List Reals Lra Lia.
From Flocq Require Import Core.Core.
From Verif.Model Require Import Scalar Vec Simd Lanes Quaternion Matrix Transform.
From Verif.Spec Require Import QuatMatSpec.
From Verif.Proofs Require Import OrdScalar F32Round F32Err QuatErr QuatRot QuatWitness QuatMat SatErr.
Import ListNotations.
Local Open Scope R_scope.

Theorem same_turn : forall p d q u (v : vec4 f32), 0 <= d <= / 2000 -> nearU d q u -> allFin (l43 v) -> len3 (valQ v) <= bpow radix2 50 ->
  allFin (l43 (qrot p (extractQuat (rotate q)) v)) /\
  dist3 (valQ (qrot p (extractQuat (rotate q)) v)) (turned u (valQ v)) <= (171 * d + 589 / 16777216) * len3 (valQ v) + bpow radix2 (-140).
Proof.
  intros p d q u v Hd N Fv Lv. pose proof (len3_nn (valQ v)) as P.
  assert (W : (78 / 16777216 + 8.1 * (21.1 * d + 63 / 16777216)) * len3 (valQ v) <= (171 * d + 589 / 16777216) * len3 (valQ v)) by (apply Rmult_le_compat_r; lra).
  destruct (matrix_round_trip d q u ltac:(lra) N) as [K|K];
    destruct (qrot_near p (21.1 * d + 63 / 16777216) _ _ v ltac:(lra) K Fv Lv) as [A B]; (split; [exact A|]); [|rewrite turned_neg in B]; lra.
Qed.
Definition minusId : vec4 f32 := V4 f0 f0 f0 (slit (-1) 0).
Theorem sign_lost : exists (q : vec4 f32) u, nearU 0 q u /\ distQ (valQ (extractQuat (rotate q))) u = 2.
Proof.
  destruct (lit_Z 0 ltac:(lia)) as [F0 V0]. destruct (lit_Z 1 ltac:(lia)) as [F1 V1]. destruct (lit_Z (-1) ltac:(lia)) as [Fm Vm].
  exists minusId, (V4 0 0 0 (-1)). split.
  - split; [unfold allFin, l4, minusId, f0; cbn [vx vy vz vw]; repeat (apply Forall_cons; [assumption|]); apply Forall_nil|].
    split; [unfold unitQ, norm2; cbn [vx vy vz vw]; lra|]. unfold distQ, lenQ, subQ, norm2, valQ, minusId, f0. cbn [vx vy vz vw]. rewrite V0, Vm.
    replace (_ + _) with 0 by ring. rewrite sqrt_0. lra.
  - assert (E : valQ (extractQuat (rotate minusId)) = V4 0 0 0 1).
    { assert (L : forall x : f32, x = f0 -> val x = 0) by (intros x ->; exact V0).
      assert (L1 : forall x : f32, x = f1 -> val x = 1) by (intros x ->; exact V1).
      unfold valQ. rewrite (L (vx (extractQuat (rotate minusId)))), (L (vy (extractQuat (rotate minusId)))), (L (vz (extractQuat (rotate minusId)))),
        (L1 (vw (extractQuat (rotate minusId)))); [reflexivity|..]; apply same_bits; vm_compute; reflexivity. }
    rewrite E. unfold distQ, lenQ, subQ, norm2. cbn [vx vy vz vw]. replace (_ + _) with (2 * 2) by ring. apply sqrt_square. lra.
Qed.
(** the matrix of the quaternion (0, 0.6, 0, 0.8) written in single precision *)
Lemma exM_near : nearRot (/ 1000000) (rotate exQ) (V4 0 (3 / 5) 0 (4 / 5)) /\
  turnedAxes (V4 0 (3 / 5) 0 (4 / 5)) = [[7 / 25; 0; - (24 / 25)]; [0; 1; 0]; [24 / 25; 0; 7 / 25]].
Proof.
  split.
  - destruct (rotate_near (/ 10000000) _ _ ltac:(lra) exQ_near) as [[H K] _]. split; [exact H|].
    assert (W : forall (l : list f32) r, Forall2 (fun (x : f32) r => fin x /\ Rabs (val x - r) <= 4.04 * / 10000000 + 7.5 / 16777216) l r ->
      Forall2 (fun (x : f32) r => fin x /\ Rabs (val x - r) <= / 1000000) l r).
    { intros l r L. induction L as [|x y l r [A B] L IH]; constructor; [split; [exact A|lra]|exact IH]. }
    induction K as [|l r a b L K IH]; constructor; [apply W; exact L|exact IH].
  - unfold turnedAxes, l43, turned, ham, axisX, axisY, axisZ. cbn [vx vy vz vw]. repeat (f_equal; try lra).
Qed.
