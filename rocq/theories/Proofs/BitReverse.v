(** hammersley's bit reversal. *)
From Coq Require Import ZArith Bool List Lia Btauto.
From Verif.Model Require Import Outcome Scalar Vec Simd Numeric.
From Verif.Spec Require Import OrderSpec NumericSpec.
Import ListNotations.
Local Open Scope Z_scope.

Definition idx32 : list Z := map Z.of_nat (List.seq 0 32).
Lemma in_idx32 : forall i, 0 <= i < 32 -> In i idx32.
Proof. intros i H. apply in_map_iff. exists (Z.to_nat i). split; [lia|]. apply in_seq. lia. Qed.
Lemma shl32_bit : forall x k i, 0 <= k -> 0 <= i < 32 ->
  Z.testbit (shl32 x k) i = if k <=? i then Z.testbit x (i - k) else false.
Proof.
  intros x k i Hk Hi. unfold shl32. rewrite Z.mod_pow2_bits_low by lia. rewrite Z.shiftl_spec by lia.
  destruct (Z.leb_spec k i); [reflexivity|]. apply Z.testbit_neg_r. lia.
Qed.
Lemma high_bits : forall x i, u32 x -> 32 <= i -> Z.testbit x i = false.
Proof.
  intros x i [H1 H2] Hi. destruct (Z.eq_dec x 0) as [->|]; [apply Z.bits_0|].
  apply Z.bits_above_log2; [lia|]. apply Z.log2_lt_pow2; [lia|].
  apply Z.lt_le_trans with (2 ^ 32); [lia|]. apply Z.pow_le_mono_r; lia.
Qed.
(** what exchanging blocks of [k] bits does to bit [i] *)
Definition goodSwap (m k : Z) : bool :=
  forallb (fun i =>
    if Z.testbit i (Z.log2 k)
    then (k <=? i) && Z.testbit m (i - k) && negb (Z.testbit (2 ^ 32 - 1 - m) (i + k)) && (i - k =? Z.lxor i k)
    else negb ((k <=? i) && Z.testbit m (i - k)) && Z.testbit (2 ^ 32 - 1 - m) (i + k) && (i + k =? Z.lxor i k)) idx32.
Lemma swap_bit : forall m k x i, 0 <= k -> goodSwap m k = true -> 0 <= i < 32 ->
  Z.testbit (swapBits m k x) i = Z.testbit x (Z.lxor i k).
Proof.
  intros m k x i Hk G Hi. unfold goodSwap in G. rewrite forallb_forall in G. specialize (G i (in_idx32 i Hi)).
  unfold swapBits. rewrite Z.lor_spec, shl32_bit, Z.shiftr_spec, !Z.land_spec by lia.
  destruct (Z.testbit i (Z.log2 k)).
  - rewrite !andb_true_iff in G. destruct G as (((G1 & G2) & G3) & G4). apply negb_true_iff in G3. apply Z.eqb_eq in G4.
    rewrite G1, G2, G3, <- G4. btauto.
  - rewrite !andb_true_iff in G. destruct G as ((G1 & G2) & G3). apply negb_true_iff in G1. apply Z.eqb_eq in G3.
    rewrite G2, <- G3. destruct (k <=? i); cbn [andb] in G1; [rewrite G1|]; btauto.
Qed.
Lemma swap_u32 : forall m k x, 0 <= m < 2 ^ 32 -> 0 <= k -> u32 x -> u32 (swapBits m k x).
Proof.
  intros m k x Hm Hk Hx. unfold u32, swapBits.
  assert (A : 0 <= shl32 (Z.land x m) k < 2 ^ 32) by (apply Z.mod_pos_bound; lia).
  assert (Hx' : 0 <= x) by (unfold u32 in Hx; lia).
  assert (B : 0 <= Z.shiftr (Z.land x (2 ^ 32 - 1 - m)) k < 2 ^ 32).
  { rewrite Z.shiftr_div_pow2 by lia.
    assert (0 <= Z.land x (2 ^ 32 - 1 - m) < 2 ^ 32).
    { split; [apply Z.land_nonneg; lia|]. destruct (Z.eq_dec (Z.land x (2 ^ 32 - 1 - m)) 0) as [E|E]; [lia|].
      apply Z.log2_lt_pow2; [pose proof (proj2 (Z.land_nonneg x (2 ^ 32 - 1 - m)) (or_introl Hx')); lia|].
      eapply Z.le_lt_trans; [apply Z.log2_land; lia|]. apply Z.min_lt_iff. left.
      destruct (Z.eq_dec x 0) as [->|]; [cbn; lia|]. apply Z.log2_lt_pow2; unfold u32 in Hx; lia. }
    pose proof (Z.pow_pos_nonneg 2 k ltac:(lia) Hk). split; [apply Z.div_pos; lia|].
    apply Z.div_lt_upper_bound; [lia|]. nia. }
  split; [apply Z.lor_nonneg; lia|].
  destruct (Z.eq_dec (Z.lor (shl32 (Z.land x m) k) (Z.shiftr (Z.land x (2 ^ 32 - 1 - m)) k)) 0) as [E|E]; [lia|].
  apply Z.log2_lt_pow2.
  - pose proof (proj2 (Z.lor_nonneg (shl32 (Z.land x m) k) (Z.shiftr (Z.land x (2 ^ 32 - 1 - m)) k)) ltac:(lia)). lia.
  - rewrite Z.log2_lor by lia. apply Z.max_lub_lt.
    + destruct (Z.eq_dec (shl32 (Z.land x m) k) 0) as [->|]; [cbn; lia|]. apply Z.log2_lt_pow2; lia.
    + destruct (Z.eq_dec (Z.shiftr (Z.land x (2 ^ 32 - 1 - m)) k) 0) as [->|]; [cbn; lia|]. apply Z.log2_lt_pow2; lia.
Qed.
(** the first step is the exchange of the two halves *)
Lemma first_step : forall x, u32 x -> Z.lor (shl32 x 16) (Z.shiftr x 16) = swapBits 65535 16 x.
Proof.
  intros x Hx. unfold swapBits. change (2 ^ 32 - 1 - 65535) with (Z.ones 16 * 2 ^ 16). f_equal.
  - unfold shl32. apply Z.bits_inj'. intros i Hi.
    destruct (Z.ltb_spec i 32) as [L|L].
    + rewrite !Z.mod_pow2_bits_low, !Z.shiftl_spec, Z.land_spec by lia. change 65535 with (Z.ones 16).
      destruct (Z.ltb_spec i 16) as [L'|L']; [rewrite !(Z.testbit_neg_r _ (i - 16)) by lia; reflexivity|].
      rewrite Z.ones_spec_low by lia. rewrite andb_true_r. reflexivity.
    + rewrite !Z.mod_pow2_bits_high by lia. reflexivity.
  - apply Z.bits_inj'. intros i Hi. rewrite !Z.shiftr_spec, Z.land_spec by lia.
    rewrite Z.mul_pow2_bits by lia. destruct (Z.ltb_spec i 16) as [L|L].
    + rewrite Z.ones_spec_low by lia. rewrite andb_true_r. reflexivity.
    + rewrite (high_bits x (i + 16) Hx) by lia. reflexivity.
Qed.
Lemma lxor_range : forall k i, 0 <= k < 32 -> 0 <= i < 32 -> 0 <= Z.lxor i k < 32.
Proof.
  intros k i Hk Hi.
  assert (K : forallb (fun k => forallb (fun i => (0 <=? Z.lxor i k) && (Z.lxor i k <? 32)) idx32) idx32 = true) by (vm_compute; reflexivity).
  rewrite forallb_forall in K. specialize (K k (in_idx32 k Hk)). rewrite forallb_forall in K. specialize (K i (in_idx32 i Hi)).
  apply andb_true_iff in K. destruct K as [K1 K2]. apply Z.leb_le in K1. apply Z.ltb_lt in K2. lia.
Qed.
Lemma reverse_spec : forall n, u32 n -> reversal32 n (reverseBits n).
Proof.
  intros n Hn. unfold reverseBits. cbv zeta. rewrite first_step by exact Hn.
  assert (U : u32 (swapBits 16711935 8 (swapBits 252645135 4 (swapBits 858993459 2 (swapBits 1431655765 1 (swapBits 65535 16 n)))))).
  { repeat (apply swap_u32; [lia|lia|]). exact Hn. }
  split; [exact U|]. intros i Hi.
  assert (R : forall k, 0 <= k < 32 -> 0 <= Z.lxor i k < 32) by (intros k Hk; apply lxor_range; assumption).
  rewrite !swap_bit; try lia; try (vm_compute; reflexivity); try exact Hi;
    try (repeat (apply lxor_range; [lia|])); try assumption.
  f_equal. rewrite !Z.lxor_assoc. change (Z.lxor 8 (Z.lxor 4 (Z.lxor 2 (Z.lxor 1 16)))) with 31.
  assert (K : forallb (fun i => Z.lxor i 31 =? 31 - i) idx32 = true) by (vm_compute; reflexivity).
  rewrite forallb_forall in K. apply Z.eqb_eq, K, in_idx32, Hi.
Qed.
Lemma reversal_inj : forall a b r, u32 a -> u32 b -> reversal32 a r -> reversal32 b r -> a = b.
Proof.
  intros a b r Ha Hb [_ A] [_ B]. apply Z.bits_inj'. intros i Hi. destruct (Z.ltb_spec i 32) as [L|L].
  - specialize (A (31 - i) ltac:(lia)). specialize (B (31 - i) ltac:(lia)).
    replace (31 - (31 - i)) with i in * by lia. congruence.
  - rewrite !high_bits by (assumption || lia). reflexivity.
Qed.
Lemma reversal_unique : forall n r r', reversal32 n r -> reversal32 n r' -> r = r'.
Proof.
  intros n r r' [U A] [U' B]. apply Z.bits_inj'. intros i Hi. destruct (Z.ltb_spec i 32) as [L|L].
  - rewrite A, B by lia. reflexivity.
  - rewrite !high_bits by (assumption || lia). reflexivity.
Qed.
Lemma reverse_distinct : forall a b, u32 a -> u32 b -> reverseBits a = reverseBits b -> a = b.
Proof.
  intros a b Ha Hb E. apply (reversal_inj a b (reverseBits a)); auto using reverse_spec. rewrite E. apply reverse_spec, Hb.
Qed.
(** small indices have reversals with small mantissas *)
Lemma reverse_small : forall n, 0 <= n < 2 ^ 24 -> exists m, reverseBits n = m * 2 ^ 8 /\ 0 <= m < 2 ^ 24.
Proof.
  intros n Hn. assert (U : u32 n) by (unfold u32; lia). destruct (reverse_spec n U) as [R B].
  exists (reverseBits n / 2 ^ 8).
  assert (Z0 : reverseBits n mod 2 ^ 8 = 0).
  { apply Z.bits_inj'. intros i Hi. rewrite Z.bits_0. destruct (Z.ltb_spec i 8) as [L|L].
    - rewrite Z.mod_pow2_bits_low, B by lia. destruct (Z.eq_dec n 0) as [->|]; [apply Z.bits_0|].
      apply Z.bits_above_log2; [lia|]. apply Z.lt_le_trans with 24; [|lia]. apply Z.log2_lt_pow2; lia.
    - apply Z.mod_pow2_bits_high. lia. }
  split.
  - rewrite (Z.div_mod (reverseBits n) (2 ^ 8)) at 1 by lia. lia.
  - split; [apply Z.div_pos; lia|]. apply Z.div_lt_upper_bound; [lia|]. change (2 ^ 8 * 2 ^ 24) with (2 ^ 32). lia.
Qed.
