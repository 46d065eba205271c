(** Rational bounds on PI, from Machin's 2-3-7 formula of the standard library. *)
From Coq Require Import Reals Lra Lia ZArith QArith Qreals.
Local Open Scope R_scope.
Definition termQ (n : nat) : Q :=
  let k := Z.of_nat (2 * n + 1) in
  ((if Nat.even n then 1 else -1) * (2 * / inject_Z (3 ^ k * k) + / inject_Z (7 ^ k * k)))%Q.
Fixpoint sumQ (n : nat) : Q := match n with O => termQ 0 | S m => Qred (sumQ m + termQ (S m)) end.
Lemma Q2R_inject : forall z, Q2R (inject_Z z) = IZR z.
Proof. intros z. unfold Q2R, inject_Z. cbn. lra. Qed.
Lemma Ratan_seq_Q : forall p n, (0 < p)%Z ->
  Ratan_seq (/ IZR p) n = Q2R (/ inject_Z (p ^ Z.of_nat (2 * n + 1) * Z.of_nat (2 * n + 1))).
Proof.
  intros p n Hp. rewrite Q2R_inv, Q2R_inject.
  - unfold Ratan_seq. rewrite pow_inv, pow_IZR, mult_IZR, <- INR_IZR_INZ, Rinv_mult. reflexivity.
  - unfold inject_Z, Qeq. cbn [Qnum Qden]. assert (0 < p ^ Z.of_nat (2 * n + 1))%Z by (apply Z.pow_pos_nonneg; lia).
    assert (0 < Z.of_nat (2 * n + 1))%Z by lia. nia.
Qed.
Lemma termQ_ok : forall n, tg_alt PI_2_3_7_tg n = Q2R (termQ n).
Proof.
  intros n. unfold tg_alt, PI_2_3_7_tg, termQ. rewrite !Ratan_seq_Q by reflexivity.
  rewrite Q2R_mult, Q2R_plus, Q2R_mult. replace (Q2R 2) with 2 by (unfold Q2R; cbn; lra). f_equal.
  destruct (Nat.even n) eqn:E.
  - apply Nat.even_spec in E. destruct E as [k ->]. rewrite pow_1_even. unfold Q2R. cbn. lra.
  - assert (O : Nat.odd n = true) by (rewrite <- Nat.negb_even, E; reflexivity).
    apply Nat.odd_spec in O. destruct O as [k ->]. rewrite Nat.add_1_r, pow_1_odd. unfold Q2R. cbn. lra.
Qed.
Lemma sumQ_ok : forall n, sum_f_R0 (tg_alt PI_2_3_7_tg) n = Q2R (sumQ n).
Proof.
  induction n as [|n IH]; cbn [sum_f_R0 sumQ]; [apply termQ_ok|].
  rewrite IH, termQ_ok, <- Q2R_plus. apply Qeq_eqR. symmetry. apply Qred_correct.
Qed.
Lemma PI_upper : PI < 314159265359 / 100000000000.
Proof.
  pose proof (proj2 (PI_2_3_7_ineq 8)) as H. rewrite sumQ_ok in H.
  assert (L : (sumQ (2 * 8) <= 78539816339746 # 100000000000000)%Q) by (apply Qle_bool_imp_le; vm_compute; reflexivity).
  apply Qle_Rle in L. unfold Q2R in L at 2. cbn [Qnum Qden] in L. lra.
Qed.
Lemma PI_lower : 314159265358 / 100000000000 < PI.
Proof.
  pose proof (proj1 (PI_2_3_7_ineq 8)) as H. rewrite sumQ_ok in H.
  assert (L : (78539816339743 # 100000000000000 <= sumQ (S (2 * 8)))%Q) by (apply Qle_bool_imp_le; vm_compute; reflexivity).
  apply Qle_Rle in L. unfold Q2R in L at 1. cbn [Qnum Qden] in L. lra.
Qed.
Lemma pi_close : Rabs (13176795 / 4194304 - PI) <= / 8000000.
Proof. pose proof PI_upper. pose proof PI_lower. apply Rabs_le. lra. Qed.
