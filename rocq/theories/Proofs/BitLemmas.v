(** Bit-level facts about Z used by several files. *)
From Coq Require Import ZArith Lia List.
Import ListNotations.
Local Open Scope Z_scope.

Lemma land_mod : forall a k, 0 <= k -> Z.land a (2 ^ k - 1) = a mod 2 ^ k.
Proof.
  intros a k Hk. rewrite <- Z.land_ones by lia. f_equal. rewrite Z.ones_equiv. lia.
Qed.

Lemma land_15 : forall a, Z.land a 15 = a mod 16.
Proof. intros a. apply (land_mod a 4). lia. Qed.

Lemma land_255 : forall a, Z.land a 255 = a mod 256.
Proof. intros a. apply (land_mod a 8). lia. Qed.

Lemma testbit_small : forall b k i, 0 <= b < 2 ^ k -> k <= i -> Z.testbit b i = false.
Proof.
  intros b k i Hb Hi.
  destruct (Z.eq_dec b 0) as [->|Hn]; [apply Z.bits_0|].
  apply Z.bits_above_log2; [lia|].
  assert (Z.log2 b < k); [apply Z.log2_lt_pow2; lia | lia].
Qed.

Lemma shiftl_disjoint : forall a b k, 0 <= k -> 0 <= b < 2 ^ k ->
  Z.land (a * 2 ^ k) b = 0.
Proof.
  intros a b k Hk Hb. apply Z.bits_inj'. intros i Hi. rewrite Z.bits_0, Z.land_spec.
  destruct (Z.lt_ge_cases i k).
  - rewrite Z.mul_pow2_bits_low by lia. reflexivity.
  - rewrite (testbit_small b k i) by lia. apply Bool.andb_false_r.
Qed.

Lemma lor_shiftl_add : forall a b k, 0 <= k -> 0 <= b < 2 ^ k ->
  Z.lor (Z.shiftl a k) b = a * 2 ^ k + b.
Proof.
  intros a b k Hk Hb. rewrite Z.shiftl_mul_pow2 by lia.
  rewrite <- Z.lxor_lor by (apply shiftl_disjoint; assumption).
  rewrite Z.add_nocarry_lxor; [reflexivity|].
  apply shiftl_disjoint; assumption.
Qed.

Lemma shiftr_div : forall a k, 0 <= k -> Z.shiftr a k = a / 2 ^ k.
Proof. intros. apply Z.shiftr_div_pow2. assumption. Qed.
