(** A scale and a vector for ModelErrProps.v. *)
From Coq Require Import ZArith Bool List Reals Lra Lia.
From Flocq Require Import Core.Core.
From Verif.Model Require Import Scalar Vec Simd Lanes.
From Verif.Spec Require Import ModelErrSpec.
From Verif.Proofs Require Import OrdScalar F32Round F32Err QuatWitness.
Import ListNotations.
Local Open Scope R_scope.

Definition exS : vec4 f32 := V4 f2 fhalf (slit (-3) 0) f0.
Lemma exS_ok : inRange exS /\ inRange exV /\ val (vx exS) = 2 /\ val (vy exS) = / 2 /\ val (vz exS) = -3.
Proof.
  destruct (lit_Z 2 ltac:(lia)) as [A B]. destruct half_val as [C D]. destruct (lit_Z (-3) ltac:(lia)) as [E G]. destruct (lit_Z 1 ltac:(lia)) as [F1 V1].
  assert (K : 3 <= bpow radix2 50) by (apply Rle_trans with 4; [lra|apply (bpow_le radix2 2 50); lia]).
  unfold exS, exV. split; [|split; [|cbn [vx vy vz vw]; unfold f2; auto]];
    (split; unfold allFin, boundedBy, l43, f2, f1; cbn [vx vy vz vw]; repeat apply Forall_cons; try apply Forall_nil; try assumption);
    rewrite ?B, ?D, ?G, ?V1; apply Rabs_le; lra.
Qed.
