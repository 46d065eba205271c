(** Concrete cases for C127. *)
From Coq Require Import ZArith Bool List Reals Lra Lia.
From Flocq Require Import Core.Core IEEE754.BinarySingleNaN IEEE754.Binary IEEE754.Bits.
From Verif.Model Require Import Scalar Vec Simd Aabb Matrix Geometry.
From Verif.Spec Require Import CullSpec.
From Verif.Proofs Require Import OrdScalar F32Round F32Err NormProofs CullProofs.
Import ListNotations.
Local Open Scope R_scope.

Definition fz (n : Z) : f32 := slit n 0.
Definition exBox (x0 y0 z0 x1 y1 z1 : Z) : aabb f32 := mkAabb (V4 (fz x0) (fz y0) (fz z0) f0) (V4 (fz x1) (fz y1) (fz z1) f0).
(** w = z, depth (z - 2) / 2 *)
Definition exMatrix : mat4 f32 := M4 (V4 f1 f0 f0 f0) (V4 f0 f1 f0 f0) (V4 f0 f0 fhalf f1) (V4 f0 f0 (fz (-1)) f0).
Lemma fz_ok : forall n, (Z.abs n < 2 ^ 24)%Z -> fin (fz n) /\ val (fz n) = IZR n.
Proof. intros n H. apply lit_Z, H. Qed.
Lemma exBox_modest : modestBox (exBox 1 (-1) 4 2 1 5).
Proof.
  unfold modestBox, modest, allFin, boundedBy, exBox, l43, nonEmpty, realBox, realV. cbn [bmin bmax vx vy vz vw]. rewrite b36.
  pose proof (fz_ok 1 ltac:(lia)) as [F1 V1]. pose proof (fz_ok (-1) ltac:(lia)) as [Fm Vm]. pose proof (fz_ok 4 ltac:(lia)) as [F4 V4'].
  pose proof (fz_ok 2 ltac:(lia)) as [F2 V2]. pose proof (fz_ok 5 ltac:(lia)) as [F5 V5].
  rewrite ?Forall_cons_iff, V1, Vm, V4', V2, V5. repeat split; try assumption; try apply Forall_nil; try (apply Rabs_le; lra); lra.
Qed.
Lemma exMatrix_modest : modestM exMatrix.
Proof.
  unfold modestM, rowsOf4, exMatrix, modest, allFin, boundedBy. cbn [c0 c1 c2 c3 vx vy vz vw]. rewrite b36.
  pose proof f0_val as [F0 V0]. pose proof f1_fin as [F1 V1]. pose proof half_val as [Fh Vh]. pose proof (fz_ok (-1) ltac:(lia)) as [Fm Vm].
  rewrite ?Forall_cons_iff, ?V0, ?V1, ?Vh, ?Vm. repeat split; try assumption; try apply Forall_nil; apply Rabs_le; lra.
Qed.
Lemma exMatrix_fair : Forall fairNormal (clipPlanes (realM exMatrix)).
Proof.
  pose proof f0_val as [F0 V0]. pose proof f1_fin as [F1 V1]. pose proof half_val as [Fh Vh]. pose proof (fz_ok (-1) ltac:(lia)) as [Fm Vm].
  unfold clipPlanes, rowR, realM, realV, exMatrix, addV, subV, fairNormal, normalLen. cbn [c0 c1 c2 c3 vx vy vz vw]. rewrite ?V0, ?V1, ?Vh, ?Vm.
  assert (L : forall x, / 4 <= x <= 4 -> bpow radix2 (-49) <= sqrt x <= bpow radix2 49).
  { intros x H. assert (B1 : bpow radix2 (-49) <= / 2) by (cbn; lra). assert (B2 : 2 <= bpow radix2 49) by (cbn; lra).
    assert (S1 : / 2 <= sqrt x) by (apply Rsqr_incr_0_var; [unfold Rsqr; rewrite sqrt_sqrt; lra|apply sqrt_pos]).
    assert (S2 : sqrt x <= 2) by (apply Rsqr_incr_0_var; [unfold Rsqr; rewrite sqrt_sqrt; lra|lra]). lra. }
  repeat (apply Forall_cons; [cbn [vx vy vz]; apply L; lra|]). apply Forall_nil.
Qed.
Lemma mild_of_modest : forall b, modestBox b -> mildBox b.
Proof. intros b H. apply modest_box, H. Qed.
Lemma exMatrix_mild : mildM (rowsOf4 exMatrix).
Proof. unfold mildM. eapply Forall_impl; [|exact exMatrix_modest]. apply modest_mild. Qed.
(** the box in front of the camera is kept, the one beside it is culled *)
Lemma ex_culls : forall p,
  isBehindFrustum p (extractFrustumPlanes p exMatrix) (exBox 1 (-1) 4 2 1 5) = false /\
  isBehindFrustum p (extractFrustumPlanes p exMatrix) (exBox 6 (-1) 4 7 1 5) = true /\
  isBehindFrustum p (normalizePlanes p (extractFrustumPlanes p exMatrix)) (exBox 1 (-1) 4 2 1 5) = false /\
  isBehindFrustum p (normalizePlanes p (extractFrustumPlanes p exMatrix)) (exBox 6 (-1) 4 7 1 5) = true /\
  isBehindFrustumModel p [V4 f1 f0 f0 (fz (-3))] (exBox 1 (-1) 4 2 1 5) exMatrix = true.
Proof. intros []; vm_compute; auto. Qed.
