(** Vectors whose squared length underflows or overflows. *)
From Coq Require Import ZArith Bool List Reals Lra Lia.
From Flocq Require Import Core.Core IEEE754.BinarySingleNaN IEEE754.Binary IEEE754.Bits.
From Verif.Model Require Import Outcome Scalar Vec Simd.
From Verif.Spec Require Import NormSpec.
From Verif.Proofs Require Import OrdScalar F32Round F32Err NormProofs.
Import ListNotations.
Local Open Scope R_scope.

Definition tinyV : vec4 f32 := V4 (slit 1 (-80)) f0 f0 f0.
Definition hugeV : vec4 f32 := V4 (slit 1 70) f0 f0 f0.
Lemma f0_val : fin (f0 : f32) /\ val (f0 : f32) = 0. Proof. exact (lit_Z 0 ltac:(lia)). Qed.
Lemma tiny_refuted : exists v : vec4 f32, allFin (l4 v) /\ inner (l43 v) (l43 v) > 0 /\
  forall p, is_finite 24 128 (vx (normalize3 p v)) = false.
Proof.
  exists tinyV. destruct (lit_exact 1 (-80) ltac:(lia) ltac:(lia)) as [A B]. destruct f0_val as [F0 V0].
  split; [|split].
  - unfold allFin, l4, tinyV. cbn [vx vy vz vw]. repeat constructor; assumption.
  - unfold l43, tinyV. cbn [inner vx vy vz]. rewrite V0, B. pose proof (bpow_gt_0 radix2 (-80)). nra.
  - intros []; vm_compute; reflexivity.
Qed.
Lemma huge_refuted : exists v : vec4 f32, allFin (l4 v) /\ inner (l43 v) (l43 v) > 0 /\
  forall p, val (vx (normalize3 p v)) = 0 /\ val (vy (normalize3 p v)) = 0 /\ val (vz (normalize3 p v)) = 0.
Proof.
  exists hugeV. destruct (lit_exact 1 70 ltac:(lia) ltac:(lia)) as [A B]. destruct f0_val as [F0 V0].
  split; [|split].
  - unfold allFin, l4, hugeV. cbn [vx vy vz vw]. repeat constructor; assumption.
  - unfold l43, hugeV. cbn [inner vx vy vz]. rewrite V0, B. pose proof (bpow_gt_0 radix2 70). nra.
  - assert (Z : forall x : f32, x = B754_zero 24 128 false -> val x = 0) by (intros x ->; reflexivity).
    intros []; repeat split; apply Z; vm_compute; reflexivity.
Qed.
(** a vector in range *)
Lemma moderate_ex : moderate (l43 (V4 (slit 3 0) (slit (-4) 0) (slit 12 0) f0 : vec4 f32)).
Proof.
  destruct (lit_Z 3 ltac:(lia)) as [A1 B1]. destruct (lit_Z (-4) ltac:(lia)) as [A2 B2]. destruct (lit_Z 12 ltac:(lia)) as [A3 B3].
  split; [unfold allFin, l43; cbn [vx vy vz]; repeat constructor; assumption|].
  unfold l43. cbn [inner vx vy vz]. rewrite B1, B2, B3. cbn. lra.
Qed.
