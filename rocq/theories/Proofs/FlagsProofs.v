From Coq Require Import ZArith List Bool Lia.
From Verif.Model Require Import Flags.
From Verif.Spec Require Import FlagsSpec.
From Verif.Proofs Require Import BitLemmas.
Local Open Scope Z_scope.



Lemma toEnum_bit : forall w x i, 0 <= w -> 0 <= i < w -> Z.testbit (toEnum w x) i = Z.testbit x i.
Proof.
  intros w x i Hw Hi. unfold toEnum. rewrite Z.mod_pow2_bits_low by lia. reflexivity.
Qed.

Lemma toEnum_wf : forall w x, 0 <= w -> wfFlag w (toEnum w x).
Proof. intros w x Hw. unfold toEnum, wfFlag. apply Z.mod_pos_bound. apply Z.pow_pos_nonneg; lia. Qed.

Lemma flag_ops_bits : forall w a b i, 0 < w <= 64 -> wfFlag w a -> wfFlag w b -> 0 <= i < w ->
  (member i (flagOr w a b) <-> member i a \/ member i b) /\
  (member i (flagAnd w a b) <-> member i a /\ member i b) /\
  (member i (flagXor w a b) <-> ((member i a /\ ~ member i b) \/ (~ member i a /\ member i b))) /\
  (member i (flagCompl w a) <-> ~ member i a).
Proof.
  intros w a b i Hw Ha Hb Hi. unfold member, flagOr, flagAnd, flagXor, flagCompl.
  rewrite !toEnum_bit by lia. rewrite Z.lor_spec, Z.land_spec, Z.lxor_spec.
  assert (Hc : Z.testbit (2 ^ 64 - 1 - a) i = negb (Z.testbit a i)).
  { replace (2 ^ 64 - 1 - a) with (2 ^ 64 + Z.lnot a) by (unfold Z.lnot; lia).
    rewrite <- (Z.mod_pow2_bits_low (2 ^ 64 + Z.lnot a) 64 i) by lia.
    rewrite Z.add_comm, <- Z.add_mod_idemp_r, Z_mod_same_full, Z.add_0_r by lia.
    rewrite Z.mod_pow2_bits_low by lia. apply Z.lnot_spec. lia. }
  rewrite Hc.
  destruct (Z.testbit a i), (Z.testbit b i); cbn; intuition discriminate.
Qed.

Lemma flag_ops_wf : forall w a b, 0 <= w ->
  wfFlag w (flagOr w a b) /\ wfFlag w (flagAnd w a b) /\ wfFlag w (flagXor w a b) /\
  wfFlag w (flagCompl w a) /\ wfFlag w (flagNot w a).
Proof. intros w a b Hw. repeat split; apply toEnum_wf; assumption. Qed.

Lemma flagAnd_eq : forall w a b, 0 <= w -> wfFlag w a -> wfFlag w b -> flagAnd w a b = Z.land a b.
Proof.
  intros w a b Hw Ha Hb. unfold flagAnd, toEnum, wfFlag in *. apply Z.mod_small.
  split; [apply Z.land_nonneg; lia|].
  destruct (Z.eq_dec (Z.land a b) 0) as [->|Hn]; [lia|].
  assert (0 <= Z.land a b) by (apply Z.land_nonneg; lia).
  apply Z.log2_lt_pow2; [lia|].
  assert (Z.log2 a < w \/ a = 0) as [Hl|Hl].
  { destruct (Z.eq_dec a 0); [auto|]. left. apply Z.log2_lt_pow2; lia. }
  - pose proof (Z.log2_land a b ltac:(lia) ltac:(lia)). lia.
  - subst a. rewrite Z.land_0_l in Hn. congruence.
Qed.

Lemma hasAnyFlag_iff : forall w a b, 0 < w <= 64 -> wfFlag w a -> wfFlag w b ->
  (hasAnyFlag w a b = true <-> exists i, 0 <= i < w /\ member i a /\ member i b).
Proof.
  intros w a b Hw Ha Hb. unfold hasAnyFlag. rewrite flagAnd_eq by (assumption || lia).
  rewrite negb_true_iff, Z.eqb_neq. unfold member. split.
  - intros Hn.
    assert (0 <= Z.land a b) by (apply Z.land_nonneg; unfold wfFlag in *; lia).
    exists (Z.log2 (Z.land a b)).
    assert (Hb1 : Z.testbit (Z.land a b) (Z.log2 (Z.land a b)) = true) by (apply Z.bit_log2; lia).
    rewrite Z.land_spec in Hb1. apply andb_true_iff in Hb1. destruct Hb1 as [B1 B2].
    split; [|auto]. split; [apply Z.log2_nonneg|].
    destruct (Z.lt_ge_cases (Z.log2 (Z.land a b)) w) as [|Hge]; [assumption|].
    rewrite (testbit_small a w) in B1; [discriminate|exact Ha|lia].
  - intros (i&Hi&H1&H2) E.
    assert (Z.testbit (Z.land a b) i = true) by (rewrite Z.land_spec, H1, H2; reflexivity).
    rewrite E, Z.bits_0 in H. discriminate.
Qed.

(** What hasOneFlag really decides: that [a] has no flag outside [flag]. *)
Lemma hasOneFlag_iff : forall w a b, 0 < w <= 64 -> wfFlag w a -> wfFlag w b ->
  (hasOneFlag w a b = true <-> forall i, 0 <= i < w -> member i a -> member i b).
Proof.
  intros w a b Hw Ha Hb. unfold hasOneFlag. rewrite flagAnd_eq by (assumption || lia).
  rewrite Z.eqb_eq. unfold member. split.
  - intros E i Hi H1. rewrite <- E, Z.land_spec in H1. apply andb_true_iff in H1. tauto.
  - intros H. apply Z.bits_inj'. intros i Hi. rewrite Z.land_spec.
    destruct (Z.testbit a i) eqn:E; [|reflexivity].
    destruct (Z.lt_ge_cases i w).
    + rewrite H by (auto || lia). reflexivity.
    + rewrite (testbit_small a w) in E; [discriminate|exact Ha|lia].
Qed.

Lemma hasOneFlag_wrong : exists w a f, wfFlag w a /\ wfFlag w f /\
  (exists i, 0 <= i < w /\ f = 2 ^ i /\ member i a /\ hasOneFlag w a f = false) /\
  (exists i, 0 <= i < w /\ f = 2 ^ i /\ ~ member i 0 /\ hasOneFlag w 0 f = true).
Proof.
  exists 8, 3, 1. unfold wfFlag, member. split; [lia|]. split; [lia|].
  split; exists 0; cbn; repeat split; try lia; discriminate.
Qed.
