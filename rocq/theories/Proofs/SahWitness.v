(** Inputs meeting the hypotheses of the split-search theorems. *)
From Coq Require Import ZArith List Lia Bool Reals Lra.
From Flocq Require Import Core.Core IEEE754.Binary IEEE754.Bits.
From Verif.Model Require Import Outcome Scalar Vec Simd Aabb Packed Bvh BvhSplit.
From Verif.Spec Require Import SahSpec BvhSpec GeomSpec BvhGeomSpec.
From Verif.Proofs Require Import F32Round F32Err OrdScalar ArrayLemmas SahProofs SahCosts BvhResults.
Import ListNotations.
Local Open Scope Z_scope.

(** eight cubes in a row *)
Definition row : list (aabb f32) := map (fun i => ibox (2 * i) 0 0 (2 * i + 2) 2 2) [0; 1; 2; 3; 4; 5; 6; 7].
Definition rowIds : list Z := [0; 1; 2; 3; 4; 5; 6; 7].
Definition planeBits (r : outcome (Z * f32 * f32)) : option (Z * Z * Z) :=
  match r with Ok (a, b, c) => Some (a, bits_of_b32 b, bits_of_b32 c) | _ => None end.

Lemma row_bins : forall p, exists bins, binsOf (centroidsOf row) (addBox p row) rowIds 0 (slit 1 0) (slit 15 0) bins /\
  map binCount bins = [1; 1; 1; 1; 1; 1; 1; 1].
Proof.
  intros p.
  assert (H : match binLoop (centroidsOf row) (addBox p row) rowIds 0 0 8 (slit 1 0)
                 (ofInt 8 / (slit 15 0 - slit 1 0))%sc (repeat emptyBox 8) with
              | Ok bins => map binCount bins = [1; 1; 1; 1; 1; 1; 1; 1] | _ => False end)
    by (destruct p; vm_compute; reflexivity).
  destruct (binLoop _ _ _ _ _ _ _ _ _) as [bins| | |] eqn:E; try contradiction. exists bins. split; [|exact H].
  apply (binLoop_spec (centroidsOf row) (addBox p row) rowIds 0 (slit 1 0) (slit 15 0) 8 0 (repeat emptyBox 8)) in E; [|cbn; lia|cbn; lia].
  destruct E as (L & Q & B). split; [exact L|]. split; [exact Q|].
  intros j Hj. destruct (B j emptyBox) as (b & Hb & Hb'); [|exists b; auto].
  split; [lia|]. assert (J : j = 0 \/ j = 1 \/ j = 2 \/ j = 3 \/ j = 4 \/ j = 5 \/ j = 6 \/ j = 7) by lia.
  repeat destruct J as [->|J]; subst; reflexivity.
Qed.
Lemma row_full : forall j, 0 <= j < 8 -> exists q, In q rowIds /\ inBin (centroidsOf row) (slit 1 0) (slit 15 0) 0 j q = true.
Proof.
  intros j Hj. exists j.
  assert (J : j = 0 \/ j = 1 \/ j = 2 \/ j = 3 \/ j = 4 \/ j = 5 \/ j = 6 \/ j = 7) by lia.
  repeat destruct J as [->|J]; subst; (split; [cbn; tauto|vm_compute; reflexivity]).
Qed.
Lemma val_i32 : forall z, Z.abs z < 2 ^ 24 -> val (i32 z) = IZR z.
Proof.
  intros z Hz. apply lit_Z, Hz.
Qed.
Lemma exRoot_bounded : boundedBox exRoot /\ (let '(X, Y, Z) := extents exRoot in X * Y + X * Z + Y * Z)%R = 43%R.
Proof.
  unfold boundedBox, extents, exRoot, ibox, mkb. cbn [bmin bmax vx vy vz].
  rewrite !val_i32 by (cbn; lia). split; [|lra].
  split; [repeat split|]. split; [lra|]. split; [lra|]. split; [lra|].
  intros x H. assert (B : (10 <= bpow radix2 60)%R) by (change (bpow radix2 60) with (IZR (2 ^ 60)); apply IZR_le; lia).
  repeat destruct H as [->|H]; subst; rewrite val_i32 by (cbn; lia); rewrite Rabs_pos_eq by lra; lra.
Qed.
