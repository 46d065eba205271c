(** C137: hammersley points of a power of two form a (0,m,2)-net. *)
From Coq Require Import ZArith Bool List Reals Lia Lra Psatz.
From Flocq Require Import Core.Core IEEE754.Binary.
From Verif.Model Require Import Outcome Scalar Vec Numeric.
From Verif.Spec Require Import OrderSpec NumericSpec NetSpec.
From Verif.Proofs Require Import OrdScalar F32Round F32Err IntConv BitReverse NumericProofs LerpProofs.
Local Open Scope R_scope.

Lemma piece_scaled : forall k n c v s, (0 <= k <= s)%Z -> IZR (2 ^ s) * v = IZR n -> inPiece k c v <-> (n / 2 ^ (s - k) = c)%Z.
Proof.
  intros k n c v s H E. assert (P : forall t, (0 <= t)%Z -> 0 < IZR (2 ^ t)) by (intros t T; apply (IZR_lt 0), Z.pow_pos_nonneg; lia).
  pose proof (P s ltac:(lia)) as Ps. pose proof (P k ltac:(lia)) as Pk. pose proof (P (s - k)%Z ltac:(lia)) as Pd.
  assert (S : IZR (2 ^ s) = IZR (2 ^ k) * IZR (2 ^ (s - k))) by (rewrite <- mult_IZR, <- Z.pow_add_r by lia; f_equal; f_equal; lia).
  assert (V : v = IZR n / IZR (2 ^ s)) by (rewrite <- E; field; lra).
  assert (L : forall d, IZR d / IZR (2 ^ k) <= v <-> (d * 2 ^ (s - k) <= n)%Z).
  { intros d. rewrite V, S. split; intros K.
    - apply le_IZR. rewrite mult_IZR. apply (Rmult_le_compat_r (IZR (2 ^ k) * IZR (2 ^ (s - k)))) in K; [|nra].
      replace (IZR d / IZR (2 ^ k) * (IZR (2 ^ k) * IZR (2 ^ (s - k)))) with (IZR d * IZR (2 ^ (s - k))) in K by (field; lra).
      replace (IZR n / (IZR (2 ^ k) * IZR (2 ^ (s - k))) * (IZR (2 ^ k) * IZR (2 ^ (s - k)))) with (IZR n) in K by (field; lra). exact K.
    - apply IZR_le in K. rewrite mult_IZR in K. apply (Rmult_le_reg_r (IZR (2 ^ k) * IZR (2 ^ (s - k)))); [nra|].
      replace (IZR d / IZR (2 ^ k) * (IZR (2 ^ k) * IZR (2 ^ (s - k)))) with (IZR d * IZR (2 ^ (s - k))) by (field; lra).
      replace (IZR n / (IZR (2 ^ k) * IZR (2 ^ (s - k))) * (IZR (2 ^ k) * IZR (2 ^ (s - k)))) with (IZR n) by (field; lra). exact K. }
  assert (Q : (0 < 2 ^ (s - k))%Z) by (apply Z.pow_pos_nonneg; lia).
  unfold inPiece. rewrite L. assert (U : v < IZR (c + 1) / IZR (2 ^ k) <-> ~ ((c + 1) * 2 ^ (s - k) <= n)%Z) by (rewrite <- L; lra). rewrite U.
  split; [intros [A B]|intros <-].
  - symmetry. apply (Z.div_unique n (2 ^ (s - k)) c (n - 2 ^ (s - k) * c)); lia.
  - pose proof (Z.div_mod n (2 ^ (s - k)) ltac:(lia)). pose proof (Z.mod_pos_bound n (2 ^ (s - k)) ltac:(lia)). lia.
Qed.
Lemma y_piece : forall i (inv : f32) j b, (0 <= i < 2 ^ 24)%Z -> (0 <= j <= 24)%Z -> inPiece j b (val (y2 (hammersley i inv))) <-> (reverseBits i / 2 ^ (32 - j) = b)%Z.
Proof.
  intros i inv j b Hi Hj. apply piece_scaled; [lia|]. rewrite (proj1 (hammersley_small i inv Hi)). change (2 ^ 32)%Z with 4294967296%Z. field.
Qed.
Local Open Scope Z_scope.
(** the leading j bits of the reversal are the last j bits, reversed *)
Lemma leading : forall i j t, u32 i -> 0 <= j <= 32 -> 0 <= t < j -> Z.testbit (reverseBits i / 2 ^ (32 - j)) t = Z.testbit (i mod 2 ^ j) (j - 1 - t).
Proof.
  intros i j t U J T. destruct (reverse_spec i U) as [_ B]. rewrite Z.div_pow2_bits by lia. rewrite B by lia. rewrite Z.mod_pow2_bits_low by lia. f_equal. lia.
Qed.
Lemma leading_range : forall i j, u32 i -> 0 <= j <= 32 -> 0 <= reverseBits i / 2 ^ (32 - j) < 2 ^ j.
Proof.
  intros i j U J. destruct (reverse_spec i U) as [R _]. assert (0 < 2 ^ (32 - j)) by (apply Z.pow_pos_nonneg; lia).
  split; [apply Z.div_pos; lia|]. apply Z.div_lt_upper_bound; [lia|]. rewrite <- Z.pow_add_r by lia. replace (32 - j + j) with 32 by lia. lia.
Qed.
Lemma same_bits : forall j a b, 0 <= j -> 0 <= a < 2 ^ j -> 0 <= b < 2 ^ j -> (forall t, 0 <= t < j -> Z.testbit a t = Z.testbit b t) -> a = b.
Proof.
  intros j a b J A B H. rewrite <- (Z.mod_small a (2 ^ j)), <- (Z.mod_small b (2 ^ j)) by lia. apply Z.bits_inj'. intros t T. destruct (Z.ltb_spec t j) as [L|L].
  - rewrite !Z.mod_pow2_bits_low by lia. apply H. lia.
  - rewrite !Z.mod_pow2_bits_high by lia. reflexivity.
Qed.
Lemma low_unique : forall i i' j, u32 i -> u32 i' -> 0 <= j <= 32 -> reverseBits i / 2 ^ (32 - j) = reverseBits i' / 2 ^ (32 - j) -> i mod 2 ^ j = i' mod 2 ^ j.
Proof.
  intros i i' j U U' J E. assert (0 < 2 ^ j) by (apply Z.pow_pos_nonneg; lia).
  apply (same_bits j); [lia|apply Z.mod_pos_bound; lia|apply Z.mod_pos_bound; lia|]. intros t T.
  pose proof (leading i j (j - 1 - t) U J ltac:(lia)) as A. pose proof (leading i' j (j - 1 - t) U' J ltac:(lia)) as B. replace (j - 1 - (j - 1 - t)) with t in * by lia. congruence.
Qed.
Lemma low_exists : forall j b, 0 <= j <= 32 -> 0 <= b < 2 ^ j -> exists r, 0 <= r < 2 ^ j /\ forall i, u32 i -> i mod 2 ^ j = r -> reverseBits i / 2 ^ (32 - j) = b.
Proof.
  intros j b J B. assert (P32 : 2 ^ 32 = 2 ^ j * 2 ^ (32 - j)) by (rewrite <- Z.pow_add_r by lia; f_equal; lia).
  assert (Pd : 0 < 2 ^ (32 - j)) by (apply Z.pow_pos_nonneg; lia). assert (Pj : 0 < 2 ^ j) by (apply Z.pow_pos_nonneg; lia).
  assert (U : u32 (b * 2 ^ (32 - j))) by (unfold u32; split; nia). destruct (reverse_spec _ U) as [R S].
  exists (reverseBits (b * 2 ^ (32 - j)) mod 2 ^ j). split; [apply Z.mod_pos_bound; lia|]. intros i Ui E.
  apply (same_bits j); [lia|apply leading_range; assumption|lia|]. intros t T. rewrite leading by (assumption || lia). rewrite E, Z.mod_pow2_bits_low by lia. rewrite S by lia.
  rewrite Z.mul_pow2_bits by lia. f_equal. lia.
Qed.
Lemma strata : forall (inv : f32) j c b, 0 <= j <= 24 -> 0 <= c -> (c + 1) * 2 ^ j <= 2 ^ 24 -> 0 <= b < 2 ^ j ->
  exists! i, c * 2 ^ j <= i < (c + 1) * 2 ^ j /\ inPiece j b (val (y2 (hammersley i inv))).
Proof.
  intros inv j c b J C M B. assert (Pj : 0 < 2 ^ j) by (apply Z.pow_pos_nonneg; lia).
  destruct (low_exists j b ltac:(lia) B) as (r & R & E). exists (c * 2 ^ j + r). split.
  - split; [lia|]. apply y_piece; [nia|lia|]. apply E; [unfold u32; nia|]. rewrite Z.add_comm, Z.mod_add by lia. apply Z.mod_small. lia.
  - intros i' [I Y]. apply y_piece in Y; [|nia|lia]. assert (U' : u32 i') by (unfold u32; nia).
    assert (U : u32 (c * 2 ^ j + r)) by (unfold u32; nia).
    assert (K : i' mod 2 ^ j = r).
    { rewrite (low_unique i' (c * 2 ^ j + r) j U' U ltac:(lia)); [rewrite Z.add_comm, Z.mod_add by lia; apply Z.mod_small; lia|].
      rewrite Y. symmetry. apply E; [exact U|]. rewrite Z.add_comm, Z.mod_add by lia. apply Z.mod_small. lia. }
    assert (D : i' / 2 ^ j = c) by (symmetry; apply (Z.div_unique i' (2 ^ j) c (i' - 2 ^ j * c)); lia).
    rewrite (Z.div_mod i' (2 ^ j)) by lia. rewrite K, D. lia.
Qed.
Lemma x_value : forall i m, 0 <= m <= 24 -> 0 <= i < 2 ^ m -> let inv := (f1 / slit (2 ^ m) 0 : f32)%sc in (IZR (2 ^ m) * val (x2 (hammersley i inv)) = IZR i)%R.
Proof.
  intros i m M I inv. assert (Q : (2 ^ m <= 2 ^ 24)) by (apply Z.pow_le_mono_r; lia). assert (P : 0 < 2 ^ m) by (apply Z.pow_pos_nonneg; lia).
  unfold hammersley. cbn [x2]. destruct f1_f as [F1 V1]. destruct (lit_Z i ltac:(lia)) as [Fi Vi].
  assert (Z2 : IZR (2 ^ m) = bpow radix2 m) by (rewrite <- IZR_Zpower by lia; reflexivity).
  pose proof (bpow_gt_0 radix2 m) as Pm.
  assert (Ln : fin (slit (2 ^ m) 0 : f32) /\ val (slit (2 ^ m) 0 : f32) = IZR (2 ^ m)).
  { destruct (lit_nearest (2 ^ m) ltac:(lia)) as [Fl Vl]. split; [exact Fl|]. change (slit (2 ^ m) 0 : f32) with (b32_lit (2 ^ m) 0). rewrite Vl.
    change (IntVec.rnd32 (IZR (2 ^ m))) with (rnd (IZR (2 ^ m))). rewrite Z2. pose proof (rnd_lit 1 m ltac:(cbn; lia) ltac:(lia)) as K. rewrite Rmult_1_l in K. exact K. }
  destruct Ln as [Fn Vn].
  assert (Vr : rnd (1 / bpow radix2 m) = bpow radix2 (- m)).
  { unfold Rdiv. rewrite Rmult_1_l, <- bpow_opp. pose proof (rnd_lit 1 (- m) ltac:(cbn; lia) ltac:(lia)) as K. rewrite Rmult_1_l in K. exact K. }
  assert (O : (bpow radix2 (- m) <= 1)%R) by (change 1%R with (bpow radix2 0); apply bpow_le; lia). pose proof (bpow_gt_0 radix2 (- m)) as Po.
  destruct (div_small f1 (slit (2 ^ m) 0) F1 Fn) as [Fv Vv]; [rewrite Vn, Z2; lra| |].
  { rewrite V1, Vn, Z2. unfold Rdiv. rewrite Rmult_1_l, <- bpow_opp. apply small_le with 1%R; [|lra]. rewrite Rabs_right; lra. }
  fold inv in Fv, Vv. rewrite V1, Vn, Z2, Vr in Vv.
  assert (PR : (bpow radix2 m * bpow radix2 (- m) = 1)%R) by (rewrite <- bpow_plus, Z.add_opp_diag_r; reflexivity).
  assert (I0 : (0 <= IZR i)%R) by (apply (IZR_le 0); lia). assert (I1 : (IZR i <= bpow radix2 m)%R) by (rewrite <- Z2; apply IZR_le; lia).
  destruct (mul_small (slit i 0) inv Fi Fv) as [A V].
  { rewrite Vi, Vv. apply small_le with 1%R; [|lra]. rewrite Rabs_right; [|nra]. rewrite <- PR. apply Rmult_le_compat_r; lra. }
  rewrite V, Vi, Vv, Z2.
  replace (rnd (IZR i * bpow radix2 (- m))) with (IZR i * bpow radix2 (- m))%R by (symmetry; apply rnd_lit; lia).
  replace (bpow radix2 m * (IZR i * bpow radix2 (- m)))%R with (IZR i * (bpow radix2 m * bpow radix2 (- m)))%R by ring. rewrite PR. ring.
Qed.
Lemma net : forall m k a b, 0 <= k <= m -> m <= 24 -> 0 <= a < 2 ^ k -> 0 <= b < 2 ^ (m - k) -> let inv := (f1 / slit (2 ^ m) 0 : f32)%sc in
  exists! i, 0 <= i < 2 ^ m /\ inCell k (m - k) a b (hammersley i inv).
Proof.
  intros m k a b K M A B inv. assert (P : 2 ^ m = 2 ^ k * 2 ^ (m - k)) by (rewrite <- Z.pow_add_r by lia; f_equal; lia).
  assert (Q : 2 ^ m <= 2 ^ 24) by (apply Z.pow_le_mono_r; lia). assert (Pk : 0 < 2 ^ k) by (apply Z.pow_pos_nonneg; lia). assert (Pj : 0 < 2 ^ (m - k)) by (apply Z.pow_pos_nonneg; lia).
  assert (X : forall i, 0 <= i < 2 ^ m -> inPiece k a (val (x2 (hammersley i inv))) <-> i / 2 ^ (m - k) = a).
  { intros i I. apply piece_scaled; [lia|]. apply x_value; lia. }
  destruct (strata inv (m - k) a b ltac:(lia) ltac:(lia) ltac:(nia) B) as (i & [I Y] & Un).
  assert (Im : 0 <= i < 2 ^ m) by nia. exists i. split.
  - split; [exact Im|]. split; [|exact Y]. apply X; [exact Im|]. symmetry. apply (Z.div_unique i (2 ^ (m - k)) a (i - 2 ^ (m - k) * a)); lia.
  - intros i' [I' [X' Y']]. apply Un. apply X in X'; [|exact I']. split; [|exact Y'].
    pose proof (Z.div_mod i' (2 ^ (m - k)) ltac:(lia)). pose proof (Z.mod_pos_bound i' (2 ^ (m - k)) ltac:(lia)). subst a. lia.
Qed.
