(** Scalars whose comparisons are those of real numbers: the reals themselves and the
    non-NaN binary32 values (infinities mapped to +-2^128). *)
From Coq Require Import ZArith Bool Reals Lra Psatz.
From Flocq Require Import Core.Core IEEE754.BinarySingleNaN IEEE754.Binary IEEE754.Bits.
From Verif.Model Require Import Scalar Vec Simd.

Class OrdScalar (F : Type) {S : Scalar F} := {
  num : F -> Prop;
  ext : F -> R;
  slt_ext : forall a b, num a -> num b -> slt a b = Rlt_bool (ext a) (ext b);
  sle_ext : forall a b, num a -> num b -> sle a b = Rle_bool (ext a) (ext b);
  seq_ext : forall a b, num a -> num b -> seq a b = Req_bool (ext a) (ext b)
}.

#[global] Instance OrdR : OrdScalar R.
Proof. refine {| num := fun _ => True; ext := fun x => x |}; reflexivity. Defined.

Definition ext32 (x : f32) : R :=
  match x with
  | B754_infinity _ _ false => bpow radix2 128
  | B754_infinity _ _ true => (- bpow radix2 128)%R
  | _ => B2R 24 128 x
  end.

Lemma ext32_finite : forall x : f32, is_finite 24 128 x = true -> ext32 x = B2R 24 128 x.
Proof. intros [s|s|s pl H|s m e H]; cbn; try reflexivity; discriminate. Qed.

Lemma B2R_bound : forall x : f32, (- bpow radix2 128 < B2R 24 128 x < bpow radix2 128)%R.
Proof.
  intros x. pose proof (abs_B2R_lt_emax 24 128 x) as H.
  apply Rabs_lt_inv in H. exact H.
Qed.

Lemma b32_compare_ext : forall a b : f32, is_nan 24 128 a = false -> is_nan 24 128 b = false ->
  b32_compare a b = Some (Rcompare (ext32 a) (ext32 b)).
Proof.
  intros a b Ha Hb. unfold b32_compare.
  destruct (is_finite 24 128 a) eqn:Fa, (is_finite 24 128 b) eqn:Fb.
  - rewrite Bcompare_correct, !ext32_finite by assumption. reflexivity.
  - destruct b as [s|s|s pl H|s m e H]; try discriminate.
    rewrite (ext32_finite a) by assumption. pose proof (B2R_bound a).
    destruct s.
    + cbn [ext32]. rewrite Rcompare_Gt by lra. destruct a as [sa|[]|sa pla Hna|[] ma ea Hma]; try discriminate; reflexivity.
    + cbn [ext32]. rewrite Rcompare_Lt by lra. destruct a as [sa|[]|sa pla Hna|[] ma ea Hma]; try discriminate; reflexivity.
  - destruct a as [s|s|s pl H|s m e H]; try discriminate.
    rewrite (ext32_finite b) by assumption. pose proof (B2R_bound b).
    destruct s.
    + cbn [ext32]. rewrite Rcompare_Lt by lra. destruct b as [sa|[]|sa pla Hna|[] ma ea Hma]; try discriminate; reflexivity.
    + cbn [ext32]. rewrite Rcompare_Gt by lra. destruct b as [sa|[]|sa pla Hna|[] ma ea Hma]; try discriminate; reflexivity.
  - destruct a as [s|s|s pl H|s m e H]; try discriminate.
    destruct b as [s'|s'|s' pl' H'|s' m' e' H']; try discriminate.
    pose proof (bpow_gt_0 radix2 128).
    destruct s, s'; cbn [ext32].
    + rewrite Rcompare_Eq by lra. reflexivity.
    + rewrite Rcompare_Lt by lra. reflexivity.
    + rewrite Rcompare_Gt by lra. reflexivity.
    + rewrite Rcompare_Eq by lra. reflexivity.
Qed.

#[global] Instance OrdF32 : OrdScalar f32.
Proof.
  refine {| num := fun x => is_nan 24 128 x = false; ext := ext32 |};
    intros a b Ha Hb; cbn [slt sle seq ScalarF32]; unfold b32_cmp_is;
    rewrite b32_compare_ext by assumption.
  - unfold Rlt_bool. destruct (Rcompare (ext32 a) (ext32 b)); reflexivity.
  - unfold Rle_bool. destruct (Rcompare (ext32 a) (ext32 b)); reflexivity.
  - unfold Req_bool. destruct (Rcompare (ext32 a) (ext32 b)); reflexivity.
Defined.

Section Ord.
  Context {F : Type} {S : Scalar F} {O : OrdScalar F}.
  Local Open Scope R_scope.

  Lemma slt_iff : forall a b, num a -> num b -> (slt a b = true <-> ext a < ext b).
  Proof.
    intros a b Ha Hb. rewrite slt_ext by assumption.
    destruct (Rlt_bool_spec (ext a) (ext b)); intuition (try lra; discriminate).
  Qed.
  Lemma sle_iff : forall a b, num a -> num b -> (sle a b = true <-> ext a <= ext b).
  Proof.
    intros a b Ha Hb. rewrite sle_ext by assumption.
    destruct (Rle_bool_spec (ext a) (ext b)); intuition (try lra; discriminate).
  Qed.
  Lemma seq_iff : forall a b, num a -> num b -> (seq a b = true <-> ext a = ext b).
  Proof.
    intros a b Ha Hb. rewrite seq_ext by assumption.
    destruct (Req_bool_spec (ext a) (ext b)); intuition (try lra; discriminate).
  Qed.
  Lemma slt_false : forall a b, num a -> num b -> (slt a b = false <-> ext b <= ext a).
  Proof.
    intros a b Ha Hb. rewrite slt_ext by assumption.
    destruct (Rlt_bool_spec (ext a) (ext b)); intuition (try lra; discriminate).
  Qed.
  Lemma sle_false : forall a b, num a -> num b -> (sle a b = false <-> ext b < ext a).
  Proof.
    intros a b Ha Hb. rewrite sle_ext by assumption.
    destruct (Rle_bool_spec (ext a) (ext b)); intuition (try lra; discriminate).
  Qed.
  Lemma num_snan : forall a, num a -> snan a = false.
  Proof.
    intros a Ha. unfold snan. rewrite seq_ext by assumption.
    rewrite Req_bool_true; reflexivity.
  Qed.

  Lemma simdmin_cases : forall p a b, num a -> num b ->
    (simdmin p a b = a /\ ext a <= ext b) \/ (simdmin p a b = b /\ ext b <= ext a).
  Proof.
    intros p a b Ha Hb. unfold simdmin, stdmin.
    rewrite !num_snan, !slt_ext by assumption.
    destruct p; destruct (Rlt_bool_spec (ext a) (ext b)), (Rlt_bool_spec (ext b) (ext a));
      try (left; split; [reflexivity|lra]); try (right; split; [reflexivity|lra]).
    all: destruct (ssign a); [left|right]; split; (reflexivity || lra).
  Qed.
  Lemma simdmax_cases : forall p a b, num a -> num b ->
    (simdmax p a b = a /\ ext b <= ext a) \/ (simdmax p a b = b /\ ext a <= ext b).
  Proof.
    intros p a b Ha Hb. unfold simdmax, stdmax.
    rewrite !num_snan, !slt_ext by assumption.
    destruct p; destruct (Rlt_bool_spec (ext a) (ext b)), (Rlt_bool_spec (ext b) (ext a));
      try (left; split; [reflexivity|lra]); try (right; split; [reflexivity|lra]).
    all: destruct (ssign a); [right|left]; split; (reflexivity || lra).
  Qed.
  Lemma simdmin_ext : forall p a b, num a -> num b -> ext (simdmin p a b) = Rmin (ext a) (ext b).
  Proof.
    intros p a b Ha Hb.
    destruct (simdmin_cases p a b Ha Hb) as [[-> H]|[-> H]].
    - rewrite Rmin_left by assumption. reflexivity.
    - rewrite Rmin_right by assumption. reflexivity.
  Qed.
  Lemma simdmax_ext : forall p a b, num a -> num b -> ext (simdmax p a b) = Rmax (ext a) (ext b).
  Proof.
    intros p a b Ha Hb.
    destruct (simdmax_cases p a b Ha Hb) as [[-> H]|[-> H]].
    - rewrite Rmax_left by assumption. reflexivity.
    - rewrite Rmax_right by assumption. reflexivity.
  Qed.
  Lemma simdmin_num : forall p a b, num a -> num b -> num (simdmin p a b).
  Proof. intros p a b Ha Hb. destruct (simdmin_cases p a b Ha Hb) as [[-> _]|[-> _]]; assumption. Qed.
  Lemma simdmax_num : forall p a b, num a -> num b -> num (simdmax p a b).
  Proof. intros p a b Ha Hb. destruct (simdmax_cases p a b Ha Hb) as [[-> _]|[-> _]]; assumption. Qed.
End Ord.

(** ** Masks *)
Lemma areAllTrue_masks : forall p a b c d,
  areAllTrue4 p (V4 (maskOf a) (maskOf b) (maskOf c) (maskOf d)) = a && b && c && d.
Proof. intros p [] [] [] []; destruct p; reflexivity. Qed.

Lemma land_masks : forall a b, Z.land (maskOf a) (maskOf b) = maskOf (a && b).
Proof. intros [] []; reflexivity. Qed.
Lemma lor_masks : forall a b, Z.lor (maskOf a) (maskOf b) = maskOf (a || b).
Proof. intros [] []; reflexivity. Qed.
Lemma sel_mask : forall A b (t f : A), sel (maskOf b) t f = if b then t else f.
Proof. intros A [] t f; reflexivity. Qed.
