From Coq Require Import ZArith List Bool Lia Ascii.
From Verif.Model Require Import Outcome Version.
From Verif.Spec Require Import OrderSpec VersionSpec.
From Verif.Proofs Require Import BitLemmas.
Import ListNotations.
Local Open Scope Z_scope.



Lemma versionToUint32_eq : forall v, wfVersion v ->
  versionToUint32 v =
  major v * 16777216 + minor v * 65536 + patch v * 256 + build v.
Proof.
  intros [ma mi pa bu] (H1&H2&H3&H4); cbn in *. unfold byte in *.
  unfold versionToUint32; cbn [major minor patch build].
  rewrite lor_shiftl_add; [|lia|].
  2:{ split; [apply Z.shiftl_nonneg; lia|]. rewrite Z.shiftl_mul_pow2 by lia. lia. }
  rewrite Z.shiftl_mul_pow2 with (a := mi) by lia.
  replace (ma * 2 ^ 24 + mi * 2 ^ 16) with (Z.shiftl (ma * 256 + mi) 16)
    by (rewrite Z.shiftl_mul_pow2 by lia; ring).
  rewrite lor_shiftl_add; [|lia|].
  2:{ split; [apply Z.shiftl_nonneg; lia|]. rewrite Z.shiftl_mul_pow2 by lia. lia. }
  rewrite Z.shiftl_mul_pow2 with (a := pa) by lia.
  replace ((ma * 256 + mi) * 2 ^ 16 + pa * 2 ^ 8)
    with (Z.shiftl ((ma * 256 + mi) * 256 + pa) 8)
    by (rewrite Z.shiftl_mul_pow2 by lia; ring).
  rewrite lor_shiftl_add by lia. ring.
Qed.

Lemma versionOfUint32_eq : forall v, versionOfUint32 v =
  mkVersion (v / 16777216 mod 256) (v / 65536 mod 256) (v / 256 mod 256) (v mod 256).
Proof.
  intros v. unfold versionOfUint32. rewrite !land_255, !shiftr_div by lia. reflexivity.
Qed.

Lemma version_roundtrip1 : forall v, wfVersion v -> versionOfUint32 (versionToUint32 v) = v.
Proof.
  intros v Hv. rewrite versionOfUint32_eq, versionToUint32_eq by assumption.
  destruct v as [ma mi pa bu], Hv as (H1&H2&H3&H4). unfold byte in *; cbn in *.
  f_equal; Z.div_mod_to_equations; lia.
Qed.

Lemma versionOfUint32_wf : forall n, wfVersion (versionOfUint32 n).
Proof.
  intros n. rewrite versionOfUint32_eq. unfold wfVersion, byte; cbn.
  repeat split; try (apply Z.mod_pos_bound; lia).
  all: match goal with |- ?a mod 256 < 256 => pose proof (Z.mod_pos_bound a 256); lia end.
Qed.

Lemma version_roundtrip2 : forall n, 0 <= n < 2 ^ 32 -> versionToUint32 (versionOfUint32 n) = n.
Proof.
  intros n Hn. rewrite versionToUint32_eq by apply versionOfUint32_wf.
  rewrite versionOfUint32_eq. cbn [major minor patch build].
  Z.div_mod_to_equations; lia.
Qed.

Lemma versionToUint32_range : forall v, wfVersion v -> 0 <= versionToUint32 v < 2 ^ 32.
Proof.
  intros v Hv. rewrite versionToUint32_eq by assumption.
  destruct v as [ma mi pa bu], Hv as (H1&H2&H3&H4). unfold byte in *; cbn in *. lia.
Qed.

Lemma versionLt_lex : forall a b, wfVersion a -> wfVersion b ->
  (versionLt a b = true <-> lexLt (parts a) (parts b)).
Proof.
  intros a b Ha Hb. unfold versionLt.
  rewrite !versionToUint32_eq, Z.ltb_lt by assumption.
  destruct a as [a1 a2 a3 a4], b as [b1 b2 b3 b4].
  destruct Ha as (H1&H2&H3&H4), Hb as (H5&H6&H7&H8). unfold byte in *; cbn in *. lia.
Qed.

Lemma versionEq_iff : forall a b, wfVersion a -> wfVersion b ->
  (versionEq a b = true <-> a = b).
Proof.
  intros a b Ha Hb. unfold versionEq. rewrite Z.eqb_eq. split.
  - intros H. rewrite <- (version_roundtrip1 a), <- (version_roundtrip1 b) by assumption.
    congruence.
  - congruence.
Qed.

Lemma version_order : forall a b, wfVersion a -> wfVersion b ->
  (versionLt a b = true <-> lexLt (parts a) (parts b)) /\
  (versionGt a b = true <-> lexLt (parts b) (parts a)) /\
  (versionLe a b = true <-> ~ lexLt (parts b) (parts a)) /\
  (versionGe a b = true <-> ~ lexLt (parts a) (parts b)) /\
  (versionEq a b = true <-> a = b) /\
  (versionNe a b = true <-> a <> b).
Proof.
  intros a b Ha Hb.
  pose proof (versionLt_lex a b Ha Hb) as H1. pose proof (versionLt_lex b a Hb Ha) as H2.
  pose proof (versionEq_iff a b Ha Hb) as H3.
  unfold versionLt, versionGt, versionLe, versionGe, versionEq, versionNe in *.
  rewrite <- H1, <- H2, <- H3. rewrite negb_true_iff, !Z.ltb_lt, !Z.leb_le, !Z.eqb_eq, Z.eqb_neq.
  lia.
Qed.

(** The dotted string determines the version. *)
Definition isDec (c : ascii) : Prop := c <> "."%char.

Lemma byteToString_nodot_all :
  forallb (fun n => forallb (fun c => negb (Ascii.eqb c "."%char)) (byteToString (Z.of_nat n)))
          (seq 0 256) = true.
Proof. vm_compute. reflexivity. Qed.

Lemma byteToString_nodot : forall n, byte n -> ~ In "."%char (byteToString n).
Proof.
  intros n Hn Hin. unfold byte in Hn.
  pose proof byteToString_nodot_all as H. rewrite forallb_forall in H.
  specialize (H (Z.to_nat n)). rewrite Z2Nat.id in H by lia.
  assert (Hi : In (Z.to_nat n) (seq 0 256)) by (apply in_seq; lia).
  specialize (H Hi). rewrite forallb_forall in H. specialize (H _ Hin). discriminate.
Qed.

(** Reading a decimal numeral back. *)
Definition decVal (s : list ascii) : Z :=
  fold_left (fun acc c => acc * 10 + (Z.of_N (N_of_ascii c) - 48)) s 0.

Lemma decVal_all :
  forallb (fun n => decVal (byteToString (Z.of_nat n)) =? Z.of_nat n) (seq 0 256) = true.
Proof. vm_compute. reflexivity. Qed.

Lemma decVal_byteToString : forall n, byte n -> decVal (byteToString n) = n.
Proof.
  intros n Hn. unfold byte in Hn.
  pose proof decVal_all as H. rewrite forallb_forall in H.
  specialize (H (Z.to_nat n)). rewrite Z2Nat.id in H by lia.
  apply Z.eqb_eq, H, in_seq. lia.
Qed.

Lemma split_at_dot : forall (a b c d : list ascii),
  ~ In "."%char a -> ~ In "."%char b ->
  a ++ "."%char :: c = b ++ "."%char :: d -> a = b /\ c = d.
Proof.
  induction a as [|x a IH]; intros b c d Ha Hb E.
  - destruct b as [|y b]; [inversion E; auto|].
    exfalso. inversion E; subst. apply Hb. left; reflexivity.
  - destruct b as [|y b].
    + exfalso. inversion E; subst. apply Ha. left; reflexivity.
    + inversion E; subst. destruct (IH b c d) as [E1 E2]; auto.
      * intros H; apply Ha; right; assumption.
      * intros H; apply Hb; right; assumption.
      * subst; auto.
Qed.

Lemma byteToString_inj : forall n m, byte n -> byte m -> byteToString n = byteToString m -> n = m.
Proof.
  intros n m Hn Hm E. rewrite <- (decVal_byteToString n), <- (decVal_byteToString m) by assumption.
  congruence.
Qed.

Lemma versionToString4_inj : forall a b, wfVersion a -> wfVersion b ->
  versionToString4 a = versionToString4 b -> a = b.
Proof.
  intros a b (A1&A2&A3&A4) (B1&B2&B3&B4) E. unfold versionToString4 in E.
  cbn [app] in E.
  apply split_at_dot in E; try (apply byteToString_nodot; assumption).
  destruct E as [E1 E]. apply split_at_dot in E; try (apply byteToString_nodot; assumption).
  destruct E as [E2 E]. apply split_at_dot in E; try (apply byteToString_nodot; assumption).
  destruct E as [E3 E4].
  apply byteToString_inj in E1, E2, E3, E4; try assumption.
  destruct a, b; cbn in *; congruence.
Qed.

Lemma version_pack_unpack : forall v, wfVersion v ->
  versionOfUint32 (versionToUint32 v) = v /\ 0 <= versionToUint32 v < 2 ^ 32.
Proof. intros; split; [apply version_roundtrip1 | apply versionToUint32_range]; assumption. Qed.

Lemma version_unpack_pack : forall n, u32 n ->
  versionToUint32 (versionOfUint32 n) = n /\ wfVersion (versionOfUint32 n).
Proof. intros; split; [apply version_roundtrip2; assumption | apply versionOfUint32_wf]. Qed.
