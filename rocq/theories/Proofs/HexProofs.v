From Coq Require Import ZArith List Ascii Bool Lia String.
From Verif.Model Require Import Outcome Hex.
From Verif.Spec Require Import HexSpec.
From Verif.Proofs Require Import BitLemmas.
Import ListNotations.
Local Open Scope Z_scope.

Ltac cases16 d :=
  assert (d = 0 \/ d = 1 \/ d = 2 \/ d = 3 \/ d = 4 \/ d = 5 \/ d = 6 \/ d = 7 \/ d = 8 \/
          d = 9 \/ d = 10 \/ d = 11 \/ d = 12 \/ d = 13 \/ d = 14 \/ d = 15)
    as Hcases16 by lia;
  repeat (destruct Hcases16 as [Hcases16|Hcases16]; [subst d| ]); [.. | subst d].

Lemma hexDigit_spec : forall d, 0 <= d < 16 -> isDigitOf (hexDigit d) d.
Proof.
  intros d Hd. split; [assumption|]. cases16 d; reflexivity.
Qed.

Lemma digitVal_hexDigit : forall d, 0 <= d < 16 -> digitVal (hexDigit d) = Some d.
Proof. intros d Hd. cases16 d; reflexivity. Qed.

Lemma hexDigit_notspace : forall d, 0 <= d < 16 ->
  isSpace (hexDigit d) = false /\ Ascii.eqb (hexDigit d) "-" = false /\
  Ascii.eqb (hexDigit d) "+" = false /\ Ascii.eqb (hexDigit d) "x" = false /\
  Ascii.eqb (hexDigit d) "X" = false.
Proof. intros d Hd. cases16 d; repeat split; reflexivity. Qed.

(** The digit string of [v] with [k] characters, most significant first. *)
Fixpoint digitsOf (v : Z) (k : nat) : list ascii :=
  match k with
  | O => nil
  | S k' => hexDigit ((v / 16 ^ Z.of_nat k') mod 16) :: digitsOf v k'
  end.

Lemma pow2_16 : forall k, 0 <= k -> 2 ^ (4 * k) = 16 ^ k.
Proof. intros k Hk. rewrite Z.pow_mul_r by lia. reflexivity. Qed.

Lemma toHex_eq : forall w v k, 4 * (Z.of_nat k - 1) < w -> toHex w v k = Ok (digitsOf v k).
Proof.
  intros w v k. unfold toHex. induction k as [|k IH]; intros Hw; [reflexivity|].
  cbn [toHexLoop digitsOf].
  destruct (Z.leb_spec w (4 * Z.of_nat k)); [lia|].
  rewrite IH by lia. cbn [bind].
  rewrite land_15, shiftr_div, pow2_16 by lia. reflexivity.
Qed.

Lemma toHex_UB : forall w v k, (0 < k)%nat -> w <= 4 * (Z.of_nat k - 1) -> toHex w v k = UB.
Proof.
  intros w v k Hk Hw. destruct k as [|k]; [lia|]. unfold toHex. cbn [toHexLoop].
  destruct (Z.leb_spec w (4 * Z.of_nat k)); [reflexivity|lia].
Qed.

Lemma digitsOf_length : forall v k, List.length (digitsOf v k) = k.
Proof. intros v k; induction k; cbn; congruence. Qed.

Lemma digitsOf_app : forall v k,
  digitsOf v (S k) = digitsOf (v / 16) k ++ [hexDigit (v mod 16)].
Proof.
  intros v k. induction k as [|k IH].
  - cbn [digitsOf app Z.of_nat]. rewrite Z.pow_0_r, Z.div_1_r. reflexivity.
  - change (digitsOf v (S (S k))) with
      (hexDigit ((v / 16 ^ Z.of_nat (S k)) mod 16) :: digitsOf v (S k)).
    rewrite IH. cbn [digitsOf app]. f_equal. f_equal. f_equal.
    rewrite Z.div_div by lia. f_equal.
    rewrite Nat2Z.inj_succ, Z.pow_succ_r by lia. lia.
Qed.

Lemma digitsOf_denotes : forall k v, denotes (digitsOf v k) (v mod 16 ^ Z.of_nat k).
Proof.
  induction k as [|k IH]; intros v.
  - cbn. rewrite Z.mod_1_r. constructor.
  - rewrite digitsOf_app.
    replace (v mod 16 ^ Z.of_nat (S k)) with
      (16 * ((v / 16) mod 16 ^ Z.of_nat k) + v mod 16).
    + constructor; [apply IH|]. apply hexDigit_spec. apply Z.mod_pos_bound. lia.
    + rewrite Nat2Z.inj_succ, Z.pow_succ_r by lia.
      rewrite Z.rem_mul_r by lia. lia.
Qed.

Lemma denotes_unique : forall s v, denotes s v -> forall v', denotes s v' -> v = v'.
Proof.
  intros s v H. induction H as [|s v c d H IH Hd]; intros v' H'.
  - inversion H' as [|s' v1 c' d' H1 H2 E]; [reflexivity|].
    destruct s'; discriminate.
  - inversion H' as [E|s' v1 c' d' H1 H2 E E2].
    + destruct s; discriminate.
    + apply app_inj_tail in E. destruct E as [E1 E3]. subst s' c'.
      rewrite (IH _ H1).
      assert (d = d'); [|congruence].
      destruct Hd as [Hr Hg], H2 as [Hr' Hg'].
      cases16 d; cases16 d'; try reflexivity; cbv in Hg, Hg'; congruence.
Qed.

Lemma parseDigits_digitsOf : forall k v acc, 0 <= v ->
  parseDigits (digitsOf v k) acc = acc * 16 ^ Z.of_nat k + v mod 16 ^ Z.of_nat k.
Proof.
  induction k as [|k IH]; intros v acc Hv.
  - cbn. rewrite Z.mod_1_r. lia.
  - cbn [digitsOf parseDigits].
    rewrite digitVal_hexDigit by (apply Z.mod_pos_bound; lia).
    rewrite IH by assumption.
    rewrite Nat2Z.inj_succ, Z.pow_succ_r by lia.
    rewrite (Z.mul_comm 16 (16 ^ Z.of_nat k)).
    assert (0 < 16 ^ Z.of_nat k) by (apply Z.pow_pos_nonneg; lia).
    rewrite Z.rem_mul_r by lia. ring.
Qed.

Lemma skipPrefix_digitsOf : forall v k, skipPrefix (digitsOf v k) = digitsOf v k.
Proof.
  intros v k. destruct k as [|[|[|k]]]; try reflexivity.
  cbn [digitsOf].
  unfold skipPrefix.
  destruct (hexDigit_notspace ((v / 16 ^ Z.of_nat (S k)) mod 16)) as (_&_&_&H1&H2);
    [apply Z.mod_pos_bound; lia|].
  rewrite H1, H2. cbn [orb]. rewrite andb_false_r. reflexivity.
Qed.

Lemma stoul16_digitsOf : forall bits v k, (0 < k)%nat -> 0 <= v -> 4 * Z.of_nat k <= bits ->
  stoul16 bits (digitsOf v k) = Ok (v mod 16 ^ Z.of_nat k).
Proof.
  intros bits v k Hk Hv Hb. unfold stoul16.
  destruct k as [|k]; [lia|].
  set (d := (v / 16 ^ Z.of_nat k) mod 16).
  destruct (hexDigit_notspace d) as (Hs&Hm&Hp&_&_); [apply Z.mod_pos_bound; lia|].
  assert (E : skipSpaces (digitsOf v (S k)) = digitsOf v (S k)).
  { cbn [digitsOf skipSpaces]. fold d. rewrite Hs. reflexivity. }
  rewrite E.
  assert (E2 : takeSign (digitsOf v (S k)) = (false, digitsOf v (S k))).
  { cbn [digitsOf takeSign]. fold d. rewrite Hm, Hp. reflexivity. }
  rewrite E2, skipPrefix_digitsOf.
  assert (E3 : startsWithDigit (digitsOf v (S k)) = true).
  { cbn [digitsOf startsWithDigit]. fold d.
    rewrite digitVal_hexDigit by (apply Z.mod_pos_bound; lia). reflexivity. }
  rewrite E3, parseDigits_digitsOf by assumption.
  cbn [Z.mul]. rewrite Z.add_0_l.
  set (n := 16 ^ Z.of_nat (S k)).
  assert (Hn : 0 < n) by (apply Z.pow_pos_nonneg; lia).
  assert (n <= 2 ^ bits).
  { unfold n. rewrite <- pow2_16 by lia. apply Z.pow_le_mono_r; lia. }
  pose proof (Z.mod_pos_bound v n Hn).
  destruct (Z.leb_spec (2 ^ bits) (v mod n)); [lia|reflexivity].
Qed.

Lemma toHex_correct : forall w v k, 0 < w -> 4 * Z.of_nat k <= w + 3 ->
  exists s, toHex w v k = Ok s /\ List.length s = k /\
            forall x, denotes s x <-> x = v mod 16 ^ Z.of_nat k.
Proof.
  intros w v k Hw Hk. exists (digitsOf v k). split; [apply toHex_eq; lia|].
  split; [apply digitsOf_length|].
  intros x; split.
  - intros H. apply (denotes_unique _ _ H). apply digitsOf_denotes.
  - intros ->. apply digitsOf_denotes.
Qed.

Lemma hex_roundtrip32 : forall ulbits v, (ulbits = 32 \/ ulbits = 64) -> 0 <= v < 2 ^ 32 ->
  exists s, toHex 32 v 8 = Ok s /\ List.length s = 8%nat /\ toInt32 ulbits s = Ok v.
Proof.
  intros ulbits v Hu Hv. exists (digitsOf v 8). split; [apply toHex_eq; cbn; lia|].
  split; [apply digitsOf_length|].
  unfold toInt32. rewrite stoul16_digitsOf by (cbn; lia). cbn [omap bind].
  change (16 ^ Z.of_nat 8) with (2 ^ 32). rewrite Z.mod_mod by lia.
  rewrite Z.mod_small by lia. reflexivity.
Qed.

Lemma hex_roundtrip64 : forall v, 0 <= v < 2 ^ 64 ->
  exists s, toHex 64 v 16 = Ok s /\ List.length s = 16%nat /\ toInt64 s = Ok v.
Proof.
  intros v Hv. exists (digitsOf v 16). split; [apply toHex_eq; cbn; lia|].
  split; [apply digitsOf_length|].
  unfold toInt64. rewrite stoul16_digitsOf by (cbn; lia).
  change (16 ^ Z.of_nat 16) with (2 ^ 64).
  rewrite Z.mod_small by lia. reflexivity.
Qed.
