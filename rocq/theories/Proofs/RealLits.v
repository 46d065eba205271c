(** Values of the model's literals and primitive operations over the reals. *)
From Coq Require Import ZArith Bool Reals Lra.
From Flocq Require Import Core.Core.
From Verif.Model Require Import Scalar Vec Simd.
From Verif.Spec Require Import RaySpec.
From Verif.Proofs Require Import OrdScalar Frustum.
Local Open Scope R_scope.

Lemma f2R : (f2 : R) = 2.
Proof. unfold f2. cbn. unfold Rlit. cbn. lra. Qed.
Lemma fhalfR : (fhalf : R) = / 2.
Proof. unfold fhalf. cbn [slit ScalarR]. unfold Rlit. unfold powerRZ. change (Pos.to_nat 1) with 1%nat. rewrite pow_1. lra. Qed.
Lemma fltMaxR : (fltMax : R) = maxFinite.
Proof.
  unfold fltMax, maxFinite. cbn [slit ScalarR]. unfold Rlit.
  change (powerRZ 2 104) with (2 ^ Pos.to_nat 104). rewrite pow_IZR. rewrite (pow_IZR 2 24), (pow_IZR 2 104).
  rewrite <- minus_IZR. f_equal; f_equal.
Qed.
Lemma maxFinite_pos : 0 < maxFinite.
Proof.
  unfold maxFinite. apply Rmult_lt_0_compat; [|apply pow_lt; lra].
  rewrite (pow_IZR 2 24). rewrite <- minus_IZR. apply IZR_lt. reflexivity.
Qed.

Lemma simdminR : forall p (a b : R), simdmin p a b = Rmin a b.
Proof. intros p a b. exact (simdmin_ext p a b I I). Qed.
Lemma simdmaxR : forall p (a b : R), simdmax p a b = Rmax a b.
Proof. intros p a b. exact (simdmax_ext p a b I I). Qed.
Lemma stdminR : forall a b : R, stdmin a b = Rmin a b.
Proof. intros a b. exact (simdminR GEN a b). Qed.
Lemma stdmaxR : forall a b : R, stdmax a b = Rmax a b.
Proof. intros a b. exact (simdmaxR GEN a b). Qed.
Lemma simdfmaR : forall p (a b c : R), simdfma p a b c = a * b + c.
Proof. intros [] a b c; cbn; ring. Qed.

Lemma sltR : forall a b : R, slt a b = true <-> a < b.
Proof. intros a b. exact (slt_iff a b I I). Qed.
Lemma sleR : forall a b : R, sle a b = true <-> a <= b.
Proof. intros a b. exact (sle_iff a b I I). Qed.
Lemma sltR_false : forall a b : R, slt a b = false <-> b <= a.
Proof. intros a b. exact (slt_false a b I I). Qed.
Lemma sleR_false : forall a b : R, sle a b = false <-> b < a.
Proof. intros a b. exact (sle_false a b I I). Qed.
Lemma seqR : forall a b : R, seq a b = true <-> a = b.
Proof. intros a b. exact (seq_iff a b I I). Qed.
