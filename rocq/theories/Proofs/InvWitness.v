(** Concrete cases for C128. *)
From Coq Require Import ZArith Bool List Reals Lra Lia.
From Flocq Require Import Core.Core IEEE754.BinarySingleNaN IEEE754.Binary IEEE754.Bits.
From Verif.Model Require Import Scalar Vec Simd Matrix.
From Verif.Spec Require Import InvErrSpec.
From Verif.Proofs Require Import OrdScalar F32Round F32Err NormProofs MatrixProofs InvErr InvUse.
Import ListNotations.
Local Open Scope R_scope.

Notation fj n := (slit n 0 : f32) (only parsing).
(** a rotation by a quarter turn, scale 2 and translation (3, 4, -1) *)
Definition exInv : mat4 f32 :=
  M4 (V4 (fj 0) (fj 2) (fj 0) (fj 0)) (V4 (fj (-1)) (fj 0) (fj 0) (fj 0)) (V4 (fj 0) (fj 0) (fj 1) (fj 0)) (V4 (fj 3) (fj 4) (fj (-1)) (fj 1)).
Lemma exInv_in : entriesIn 4 exInv /\ regular 4 exInv /\ pointIn 8 (V4 (fj 5) (fj (-7)) (fj 2) (fj 1)).
Proof.
  destruct (lit_Z 0 ltac:(lia)) as [F0 V0]. destruct (lit_Z 1 ltac:(lia)) as [F1 V1]. destruct (lit_Z 2 ltac:(lia)) as [F2 V2].
  destruct (lit_Z 3 ltac:(lia)) as [F3 V3]. destruct (lit_Z 4 ltac:(lia)) as [F4 V4']. destruct (lit_Z (-1) ltac:(lia)) as [Fm Vm].
  destruct (lit_Z 5 ltac:(lia)) as [F5 V5]. destruct (lit_Z (-7) ltac:(lia)) as [F7 V7].
  assert (B1 : bpow radix2 (-24) <= 4) by (cbn; lra). assert (B2 : 4 <= bpow radix2 24) by (cbn; lra).
  assert (B3 : bpow radix2 (-24) <= 8) by (cbn; lra). assert (B4 : 8 <= bpow radix2 24) by (cbn; lra).
  split; [|split].
  - split; [split; assumption|]. unfold rowsOf4, exInv, allFin, boundedBy. cbn [c0 c1 c2 c3 vx vy vz vw].
    rewrite ?Forall_cons_iff, ?V0, ?V1, ?V2, ?V3, ?V4', ?Vm. repeat split; try assumption; try apply Forall_nil; apply Rabs_le; lra.
  - unfold regular, realM, realV, exInv. cbn [c0 c1 c2 c3 vx vy vz vw]. rewrite ?V0, ?V1, ?V2, ?V3, ?V4', ?Vm.
    replace (det 4 _) with 2; [rewrite Rabs_pos_eq by lra; lra|].
    cbv [det minor Nat.ltb Nat.leb pow sum ent4 comp4 c0 c1 c2 c3 vx vy vz vw]. ring.
  - split; [split; assumption|]. unfold allFin, boundedBy, l4. cbn [vx vy vz vw].
    rewrite ?Forall_cons_iff, ?V5, ?V7, ?V2, ?V1. repeat split; try assumption; try apply Forall_nil; apply Rabs_le; lra.
Qed.
(** a scale of 2^-43: the inverse, a scale of 2^43, is representable, but the reciprocal of the determinant overflows *)
Definition exTiny : mat4 f32 :=
  M4 (V4 (slit 1 (-43)) f0 f0 f0) (V4 f0 (slit 1 (-43)) f0 f0) (V4 f0 f0 (slit 1 (-43)) f0) (V4 f0 f0 f0 f1).
Definition exHuge : mat4 f32 := M4 (V4 (slit 1 43) f0 f0 f0) (V4 f0 (slit 1 43) f0 f0) (V4 f0 f0 (slit 1 43) f0) (V4 f0 f0 f0 f1).
Lemma exTiny_fails : forall p, inverseOf (realM exHuge) (realM exTiny) /\
  Forall allFin (rowsOf4 exTiny) /\ Forall allFin (rowsOf4 exHuge) /\ ~ fin (vx (c0 (inverse4x4 p exTiny))).
Proof.
  intros p. destruct (lit_Z 0 ltac:(lia)) as [F0 V0]. destruct (lit_Z 1 ltac:(lia)) as [F1 V1].
  destruct (lit_exact 1 (-43) ltac:(lia) ltac:(lia)) as [Ft Vt]. destruct (lit_exact 1 43 ltac:(lia) ltac:(lia)) as [Fh Vh].
  assert (E : (1 * bpow radix2 43) * (1 * bpow radix2 (-43)) = 1) by (cbn; lra).
  split; [|split; [|split]].
  - assert (E' : (1 * bpow radix2 (-43)) * (1 * bpow radix2 43) = 1) by lra.
    unfold realM, realV, exHuge, exTiny, f0, f1. cbn [c0 c1 c2 c3 vx vy vz vw]. rewrite V0, V1, Vt, Vh.
    apply product_inverse; mcbn; msplit; lra.
  - unfold rowsOf4, exTiny, allFin. cbn [c0 c1 c2 c3 vx vy vz vw]. rewrite ?Forall_cons_iff. repeat split; try assumption; apply Forall_nil.
  - unfold rowsOf4, exHuge, allFin. cbn [c0 c1 c2 c3 vx vy vz vw]. rewrite ?Forall_cons_iff. repeat split; try assumption; apply Forall_nil.
  - destruct p; vm_compute; discriminate.
Qed.
Theorem tiny_fails : exists m n : mat4 f32, inverseOf (realM n) (realM m) /\
  Forall allFin (rowsOf4 m) /\ Forall allFin (rowsOf4 n) /\ forall p, ~ fin (vx (c0 (inverse4x4 p m))).
Proof.
  exists exTiny, exHuge. destruct (exTiny_fails GEN) as (A & B & C & _). repeat split; try assumption; try apply A; try assumption.
  intros p. apply exTiny_fails.
Qed.
