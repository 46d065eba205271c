(** More about versions and flags. *)
From Coq Require Import ZArith List Bool Lia Ascii.
From Verif.Model Require Import Outcome Version Flags.
From Verif.Spec Require Import OrderSpec VersionSpec FlagsSpec.
From Verif.Proofs Require Import BitLemmas VersionProofs FlagsProofs.
Import ListNotations.
Local Open Scope Z_scope.

Definition digitb (c : ascii) : bool := (48 <=? Z.of_N (N_of_ascii c)) && (Z.of_N (N_of_ascii c) <=? 57).
Definition decimalb (s : list ascii) (n : Z) : bool :=
  negb (Nat.eqb (length s) 0) && forallb digitb s && (numeralValue s 0 =? n) &&
  (negb (Ascii.eqb (hd "0"%char s) "0"%char) || Nat.eqb (length s) 1).
Lemma decimalb_ok : forall s n, decimalb s n = true -> decimal s n.
Proof.
  intros s n H. unfold decimalb in H. rewrite !andb_true_iff in H. destruct H as [[[A B] C] D]. split; [|split; [|split]].
  - intros ->. discriminate.
  - apply Forall_forall. intros c Hc. rewrite forallb_forall in B. specialize (B c Hc). unfold digitb in B. unfold isDigit. lia.
  - lia.
  - intros E. rewrite E in D. cbn in D. apply Nat.eqb_eq, D.
Qed.
Lemma byte_decimal : forall n, byte n -> decimal (byteToString n) n.
Proof.
  intros n Hn. apply decimalb_ok. unfold byte in Hn.
  assert (H : forallb (fun k => decimalb (byteToString (Z.of_nat k)) (Z.of_nat k)) (seq 0 256) = true) by (vm_compute; reflexivity).
  rewrite forallb_forall in H. specialize (H (Z.to_nat n)). rewrite Z2Nat.id in H by lia. apply H, in_seq. lia.
Qed.
Lemma version_strings : forall v, wfVersion v ->
  dotted (firstn 4 (parts v)) (versionToString4 v) /\ dotted (firstn 3 (parts v)) (versionToString3 v) /\
  dotted (firstn 2 (parts v)) (versionToString2 v) /\ dotted (firstn 1 (parts v)) (versionToString1 v).
Proof.
  intros v (A & B & C & D). apply byte_decimal in A, B, C, D. unfold parts. cbn [firstn dotted].
  unfold versionToString4, versionToString3, versionToString2, versionToString1; cbn [app].
  split; [|split; [|split]]; repeat (eexists _, _; split; [eassumption|]; split; [|reflexivity]); assumption.
Qed.
Lemma version_index : forall v i b, wfVersion v ->
  (versionAt v i = Ok b <-> 0 <= i < 4 /\ b = versionToUint32 v / 256 ^ (3 - i) mod 256) /\
  (versionAt v i = UB <-> ~ 0 <= i < 4).
Proof.
  intros v i b W. rewrite (versionToUint32_eq v W). destruct W as (A & B & C & D). unfold byte in *.
  assert (K : 0 <= i -> i = 0 \/ i = 1 \/ i = 2 \/ i = 3 \/ 4 <= i) by lia.
  destruct (Z_lt_dec i 0) as [N|N].
  { unfold versionAt. replace (i =? 0) with false by lia. replace (i =? 1) with false by lia.
    replace (i =? 2) with false by lia. replace (i =? 3) with false by lia. split; (split; [|lia || reflexivity]); [discriminate|intros _; lia]. }
  destruct (K ltac:(lia)) as [->|[->|[->|[->|G]]]].
  5: { unfold versionAt. replace (i =? 0) with false by lia. replace (i =? 1) with false by lia.
    replace (i =? 2) with false by lia. replace (i =? 3) with false by lia. split; (split; [|lia || reflexivity]); [discriminate|intros _; lia]. }
  all: cbn [versionAt Z.eqb Pos.eqb]; split; (split; [|try (intros H; exfalso; lia)]); try discriminate.
  all: match goal with
    | |- Ok _ = Ok _ -> _ => intros [= <-]; split; [lia|]
    | |- _ -> Ok _ = Ok _ => intros [_ ->]; f_equal
    end.
  all: match goal with |- context [256 ^ ?k] => let t := eval vm_compute in (256 ^ k) in change (256 ^ k) with t end; Z.div_mod_to_equations; lia.
Qed.
Lemma version_ctor : forall a b c d, wfVersion (versionOf a b c d) /\
  (byte a -> byte b -> byte c -> byte d -> parts (versionOf a b c d) = [a; b; c; d]).
Proof.
  intros. unfold wfVersion, versionOf, parts, byte. cbn [major minor patch build]. split.
  - repeat split; apply Z.mod_pos_bound; lia.
  - intros. rewrite !Z.mod_small by assumption. reflexivity.
Qed.
Lemma flag_not : forall w a, 0 < w -> wfFlag w a ->
  (flagNot w a = 1 <-> forall i, 0 <= i < w -> ~ member i a) /\ (flagNot w a = 0 <-> exists i, 0 <= i < w /\ member i a).
Proof.
  intros w a Hw Ha. unfold flagNot, toEnum.
  assert (P : 1 < 2 ^ w) by (apply Z.pow_gt_1; lia). unfold wfFlag in Ha.
  destruct (Z.eqb_spec a 0) as [->|N].
  - rewrite Z.mod_small by lia. split.
    + split; [|reflexivity]. intros _ i _. unfold member. rewrite Z.bits_0. discriminate.
    + split; [discriminate|]. intros (i & _ & H). unfold member in H. rewrite Z.bits_0 in H. discriminate.
  - rewrite Z.mod_0_l by lia.
    assert (E : exists i, 0 <= i < w /\ member i a).
    { exists (Z.log2 a). split; [split; [apply Z.log2_nonneg|apply Z.log2_lt_pow2; lia]|]. apply Z.bit_log2. lia. }
    split; (split; [|]); try discriminate; try (intros; exact E); try reflexivity.
    intros H. destruct E as (i & Hi & M). destruct (H i Hi M).
Qed.
Lemma flag_assign : forall w a b, flagOrAssign w a b = flagOr w a b /\ flagAndAssign w a b = flagAnd w a b /\ flagXorAssign w a b = flagXor w a b.
Proof. intros; repeat split. Qed.
