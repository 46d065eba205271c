(** Polynomial bounds for the real exponential, logarithm, sine and cosine near 0. *)
From Coq Require Import ZArith Reals Lra Lia Psatz.
From Coquelicot Require Import Coquelicot.
Local Open Scope R_scope.

Definition expT (s : R) : R :=
  1 + s + s^2/2 + s^3/6 + s^4/24 + s^5/120 + s^6/720 + s^7/5040.
Lemma exp_le2 : forall t, t <= 1/2 -> exp t <= 2.
Proof.
  intros t H. pose proof exp_le_3 as E. apply Rle_trans with (exp (1/2)).
  - destruct H as [H| ->]; [left; apply exp_increasing, H|right; reflexivity].
  - assert (S : exp (1/2) * exp (1/2) = exp 1) by (rewrite <- exp_plus; f_equal; lra).
    pose proof (exp_pos (1/2)). nra.
Qed.
Lemma exp_taylor_pos : forall s c, 0 <= s <= 1/2 -> (c = 1 \/ c = -1) ->
  Rabs (exp (c * s) - expT (c * s)) <= s^8 / 20160.
Proof.
  intros s c Hs Hc. destruct (Req_dec s 0) as [->|Hz].
  { rewrite Rmult_0_r, exp_0. unfold expT. replace (1 - _) with 0 by field. rewrite Rabs_R0. lra. }
  set (f := fun t => exp (c * t)).
  assert (D : forall n t, is_derive_n f n t (c ^ n * exp (c * t))).
  { intros n t. apply (is_derive_n_comp_scal exp c n t (exp (c * t))).
    - exists (mkposreal 1 Rlt_0_1). intros y _ k _. 
      destruct k; [exact I|]. exists (exp y). apply (is_derive_n_exp (S k)).
    - apply is_derive_n_exp. }
  destruct (Taylor_Lagrange f 7 0 s ltac:(lra)) as (z & Hz' & E).
  { intros t _ k _. destruct k; [exact I|]. exists (c ^ S k * exp (c * t)). apply (D (S k)). }
  assert (DD : forall n t, Derive_n f n t = c ^ n * exp (c * t)) by (intros; apply is_derive_n_unique, D).
  unfold sum_f_R0 in E. rewrite !DD in E. rewrite !Rmult_0_r, exp_0 in E. unfold f in E. rewrite !Rminus_0_r in E.
  assert (Ez : exp (c * z) <= 2) by (apply exp_le2; destruct Hc; subst c; lra).
  pose proof (exp_pos (c * z)) as Ep.
  replace (exp (c * s) - expT (c * s)) with (s^8 / 40320 * (c^8 * exp (c * z))).
  - assert (C8 : c^8 = 1) by (destruct Hc; subst c; ring). rewrite C8.
    assert (0 < s^8) by (apply pow_lt; lra).
    rewrite Rabs_right by nra. nra.
  - rewrite E. unfold expT. rewrite !fact_simpl, !mult_INR. change (fact 0) with 1%nat. cbn [INR]. field.
Qed.
Lemma exp_taylor : forall s, Rabs s <= 1/2 -> Rabs (exp s - expT s) <= s^8 / 20160.
Proof.
  intros s H. destruct (Rle_dec 0 s) as [P|N].
  - rewrite Rabs_right in H by lra. pose proof (exp_taylor_pos s 1 ltac:(lra) ltac:(left; reflexivity)) as K.
    rewrite !Rmult_1_l in K. exact K.
  - rewrite Rabs_left in H by lra. pose proof (exp_taylor_pos (-s) (-1) ltac:(lra) ltac:(right; reflexivity)) as K.
    replace (-1 * - s) with s in K by ring. replace ((-s)^8) with (s^8) in K by ring. exact K.
Qed.

(** ** 2 atanh *)
Definition at2 (x : R) : R := ln (1 + x) - ln (1 - x).
Fixpoint atS (n : nat) (x : R) : R :=
  match n with O => 2 * x | S k => atS k x + 2 / (2 * INR n + 1) * x ^ (2 * n + 1) end.
Lemma at2_derive : forall x, -1 < x < 1 -> is_derive at2 x (2 / (1 - x^2)).
Proof.
  intros x H. unfold at2. auto_derive; [split; lra|]. field. nra.
Qed.
Lemma is_derive_powS : forall m x, is_derive (fun y => y ^ S m) x (INR (S m) * x ^ m).
Proof. intros m x. apply is_derive_Reals. apply (derivable_pt_lim_pow x (S m)). Qed.
Lemma atS_derive : forall n x, -1 < x < 1 -> is_derive (atS n) x (2 * (1 - x ^ (2 * n + 2)) / (1 - x^2)).
Proof.
  induction n as [|n IH]; intros x H.
  - cbn [atS]. auto_derive; [exact I|]. cbn [Nat.mul Nat.add]. field. nra.
  - cbn [atS].
    assert (Hn : 0 <= INR n) by apply pos_INR.
    evar_last; [apply (is_derive_plus (atS n) (fun x => 2 / (2 * INR (S n) + 1) * x ^ (2 * S n + 1))); [apply IH, H|]|].
    + replace (2 * S n + 1)%nat with (S (2 * n + 2)) by lia. apply is_derive_scal, is_derive_powS.
    + cbn [plus]. unfold plus; cbn -[INR pow Nat.mul]. 
      replace (INR (S (2 * n + 2))) with (2 * INR (S n) + 1) by (rewrite !S_INR, plus_INR, mult_INR; cbn; ring).
      replace (2 * S n + 2)%nat with (2 * n + 2 + 2)%nat by lia.
      rewrite (Rfunctions.pow_add x (2 * n + 2) 2). rewrite S_INR. change (x ^ 2) with (x * (x * 1)).
      generalize (x ^ (2 * n + 2)). intros t. field. split; nra.
Qed.
(** a function with a non-negative derivative that starts at 0 stays non-negative *)
Lemma nonneg_from_derive : forall (h h' : R -> R) b, 0 <= b -> h 0 = 0 ->
  (forall x, 0 <= x <= b -> is_derive h x (h' x)) -> (forall x, 0 <= x <= b -> 0 <= h' x) -> 0 <= h b.
Proof.
  intros h h' b Hb H0 D P. destruct (Req_dec b 0) as [->|Hz]; [lra|].
  destruct (MVT_gen h 0 b h') as (c & Hc & E).
  - intros x Hx. rewrite Rmin_left, Rmax_right in Hx by lra. apply D. lra.
  - intros x Hx. rewrite Rmin_left, Rmax_right in Hx by lra. apply continuity_pt_filterlim.
    apply (@ex_derive_continuous R_AbsRing R_NormedModule h x). exists (h' x). apply D. lra.
  - rewrite Rmin_left, Rmax_right in Hc by lra. specialize (P c Hc). rewrite H0 in E. nra.
Qed.
Lemma atS_0 : forall n, atS n 0 = 0.
Proof. induction n; cbn [atS]; [ring|]. rewrite IHn, pow_i by lia. ring. Qed.
Lemma at2_0 : at2 0 = 0.
Proof. unfold at2. rewrite Rplus_0_r, Rminus_0_r. ring. Qed.
Lemma at2_pos : forall n x, 0 <= x <= 1/3 ->
  0 <= at2 x - atS n x <= 9/4 * x ^ (2 * n + 3) / (2 * INR n + 3).
Proof.
  intros n b Hb. assert (Hn : 0 <= INR n) by apply pos_INR.
  assert (D : forall x, 0 <= x <= b -> is_derive (fun x => at2 x - atS n x) x (2 * x ^ (2 * n + 2) / (1 - x^2))).
  { intros x Hx. evar_last; [apply (is_derive_minus at2 (atS n)); [apply at2_derive; lra|apply atS_derive; lra]|].
    unfold minus, plus, opp; cbn -[pow Nat.mul]. field. cbn. nra. }
  split.
  - apply (nonneg_from_derive (fun x => at2 x - atS n x) (fun x => 2 * x ^ (2 * n + 2) / (1 - x^2))); [lra| |exact D|].
    + rewrite at2_0, atS_0. ring.
    + intros x Hx. assert (0 <= x ^ (2 * n + 2)) by (apply pow_le; lra).
      apply Rmult_le_pos; [lra|]. left. apply Rinv_0_lt_compat. cbn. nra.
  - assert (K : 0 <= 9/4 * b ^ (2 * n + 3) / (2 * INR n + 3) - (at2 b - atS n b)); [|lra].
    apply (nonneg_from_derive (fun x => 9/4 * x ^ (2 * n + 3) / (2 * INR n + 3) - (at2 x - atS n x))
      (fun x => 9/4 * x ^ (2 * n + 2) - 2 * x ^ (2 * n + 2) / (1 - x^2))); [lra| | |].
    + rewrite at2_0, atS_0, pow_i by lia. field. lra.
    + intros x Hx.
      apply (is_derive_minus (fun x => 9/4 * x ^ (2 * n + 3) / (2 * INR n + 3)) (fun x => at2 x - atS n x)); [|apply D, Hx].
      evar_last.
      * apply is_derive_ext with (fun y => 9/4 / (2 * INR n + 3) * y ^ S (2 * n + 2)).
        { intros y. replace (2 * n + 3)%nat with (S (2 * n + 2)) by lia. unfold Rdiv. match goal with |- ?a = ?b => change (@eq R a b) end. ring. }
        apply is_derive_scal, is_derive_powS.
      * replace (INR (S (2 * n + 2))) with (2 * INR n + 3) by (rewrite !S_INR, plus_INR, mult_INR; cbn; ring).
        match goal with |- ?a = ?b => change (@eq R a b) end. field. lra.
    + intros x Hx. assert (P : 0 <= x ^ (2 * n + 2)) by (apply pow_le; lra).
      assert (I : 2 / (1 - x^2) <= 9/4).
      { apply Rmult_le_reg_r with (1 - x^2); [cbn; nra|]. unfold Rdiv at 1. rewrite Rmult_assoc, Rinv_l by (cbn; nra). cbn. nra. }
      unfold Rdiv in *. nra.
Qed.
Lemma at2_odd : forall x, at2 (- x) = - at2 x.
Proof. intros x. unfold at2. replace (1 + - x) with (1 - x) by ring. replace (1 - - x) with (1 + x) by ring. ring. Qed.
Lemma atS_odd : forall n x, atS n (- x) = - atS n x.
Proof.
  induction n; intros x; cbn [atS]; [ring|]. rewrite IHn.
  replace (2 * S n + 1)%nat with (S (2 * S n)) by lia. cbn [pow]. rewrite !pow_mult.
  replace ((- x) ^ 2) with (x ^ 2) by ring. ring.
Qed.
Lemma at2_bound : forall n x, Rabs x <= 1/3 ->
  Rabs (at2 x - atS n x) <= 9/4 * Rabs x ^ (2 * n + 3) / (2 * INR n + 3).
Proof.
  intros n x H. destruct (Rle_dec 0 x) as [P|N].
  - rewrite !(Rabs_right x) in * by lra. destruct (at2_pos n x ltac:(lra)). rewrite Rabs_right by lra. lra.
  - rewrite !(Rabs_left x) in * by lra. destruct (at2_pos n (-x) ltac:(lra)) as [A B].
    rewrite at2_odd, atS_odd in A, B. rewrite Rabs_left1 by lra. lra.
Qed.
Lemma ln_2_bounds : 0.69314718055 < ln 2 < 0.69314718057.
Proof.
  assert (E : ln 2 = at2 (1/3)).
  { unfold at2. rewrite <- ln_div by lra. f_equal. lra. }
  rewrite E. destruct (at2_pos 11 (1/3) ltac:(lra)) as [A B].
  cbn -[pow] in A, B. cbn [pow Nat.add Nat.mul] in A, B. lra.
Qed.
(** the logarithm through its exponent and mantissa *)
Lemma ln_at2 : forall m, 0 < m -> ln m = at2 ((m - 1) / (m + 1)).
Proof.
  intros m H. unfold at2.
  replace (1 + (m - 1) / (m + 1)) with (m * (2 / (m + 1))) by (field; lra).
  replace (1 - (m - 1) / (m + 1)) with (2 / (m + 1)) by (field; lra).
  assert (0 < 2 / (m + 1)) by (apply Rdiv_lt_0_compat; lra).
  rewrite ln_mult by assumption. ring.
Qed.

(** ** sine and cosine *)
Lemma sin_poly : forall x, Rabs x <= 1 -> Rabs (sin x - (x - x^3/6 + x^5/120 - x^7/5040)) <= Rabs x ^ 9 / 362880.
Proof.
  assert (P : forall x, 0 <= x <= 1 -> x - x^3/6 + x^5/120 - x^7/5040 <= sin x <= x - x^3/6 + x^5/120 - x^7/5040 + x^9/362880).
  { intros x H. pose proof PI_RGT_0. pose proof PI2_1 as K. 
    destruct (sin_bound x 1 ltac:(lra) ltac:(lra)) as [A _]. 
    destruct (sin_bound x 1 ltac:(lra) ltac:(lra)) as [_ B]. 
    unfold sin_approx, sin_term, sum_f_R0 in A, B. cbn [Nat.mul Nat.add] in A, B.
    repeat rewrite fact_simpl in A; repeat rewrite mult_INR in A; repeat rewrite fact_simpl in B; repeat rewrite mult_INR in B. change (fact 0) with 1%nat in A, B. cbn [INR] in A, B. split; [eapply Rle_trans; [|exact A]|eapply Rle_trans; [exact B|]]; right; field. }
  intros x H. destruct (Rle_dec 0 x) as [Q|N].
  - rewrite (Rabs_right x) in * by lra. specialize (P x ltac:(lra)). rewrite Rabs_right by lra. lra.
  - rewrite (Rabs_left x) in * by lra. specialize (P (-x) ltac:(lra)). rewrite sin_neg in P.
    replace ((-x)^3) with (-x^3) in P by ring. replace ((-x)^5) with (-x^5) in P by ring.
    replace ((-x)^7) with (-x^7) in P by ring. rewrite Rabs_left1 by lra. lra.
Qed.
Lemma cos_poly : forall x, Rabs x <= 1 -> Rabs (cos x - (1 - x^2/2 + x^4/24 - x^6/720)) <= x ^ 8 / 40320.
Proof.
  intros x H. pose proof PI2_1 as K. pose proof (Rle_abs x). pose proof (Rle_abs (- x)). rewrite Rabs_Ropp in *.
  destruct (cos_bound x 1 ltac:(lra) ltac:(lra)) as [A B].
  unfold cos_approx, cos_term, sum_f_R0 in A, B. cbn [Nat.mul Nat.add] in A, B.
  repeat rewrite fact_simpl in A; repeat rewrite mult_INR in A; repeat rewrite fact_simpl in B; repeat rewrite mult_INR in B. change (fact 0) with 1%nat in A, B. cbn [INR] in A, B.
  assert (A' : 1 - x^2/2 + x^4/24 - x^6/720 <= cos x) by (eapply Rle_trans; [|exact A]; right; field).
  assert (B' : cos x <= 1 - x^2/2 + x^4/24 - x^6/720 + x^8/40320) by (eapply Rle_trans; [exact B|]; right; field).
  rewrite Rabs_right by lra. lra.
Qed.
Definition sinT (x : R) : R := x - x^3/6 + x^5/120 - x^7/5040 + x^9/362880 - x^11/39916800.
Definition cosT (x : R) : R := 1 - x^2/2 + x^4/24 - x^6/720 + x^8/40320 - x^10/3628800.
Lemma sin_poly2 : forall x, Rabs x <= 1 -> Rabs (sin x - sinT x) <= Rabs x ^ 13 / 6227020800.
Proof.
  assert (P : forall x, 0 <= x <= 1 -> sinT x <= sin x <= sinT x + x^13/6227020800).
  { intros x H. pose proof PI_RGT_0. pose proof PI2_1 as K. 
    destruct (sin_bound x 2 ltac:(lra) ltac:(lra)) as [A B].
    unfold sin_approx, sin_term, sum_f_R0 in A, B. cbn [Nat.mul Nat.add] in A, B.
    repeat rewrite fact_simpl in A; repeat rewrite mult_INR in A; repeat rewrite fact_simpl in B; repeat rewrite mult_INR in B.
    change (fact 0) with 1%nat in A, B. cbn [INR] in A, B. unfold sinT.
    split; [eapply Rle_trans; [|exact A]|eapply Rle_trans; [exact B|]]; right; field. }
  intros x H. destruct (Rle_dec 0 x) as [Q|N].
  - rewrite (Rabs_right x) in * by lra. specialize (P x ltac:(lra)). rewrite Rabs_right by lra. lra.
  - rewrite (Rabs_left x) in * by lra. specialize (P (-x) ltac:(lra)). rewrite sin_neg in P.
    assert (O : sinT (-x) = - sinT x) by (unfold sinT; field). rewrite O in P. rewrite Rabs_left1 by lra. lra.
Qed.
Lemma cos_poly2 : forall x, Rabs x <= 1 -> Rabs (cos x - cosT x) <= x ^ 12 / 479001600.
Proof.
  intros x H. pose proof PI2_1 as K. pose proof (Rle_abs x). pose proof (Rle_abs (- x)). rewrite Rabs_Ropp in *.
  destruct (cos_bound x 2 ltac:(lra) ltac:(lra)) as [A B].
  unfold cos_approx, cos_term, sum_f_R0 in A, B. cbn [Nat.mul Nat.add] in A, B.
  repeat rewrite fact_simpl in A; repeat rewrite mult_INR in A; repeat rewrite fact_simpl in B; repeat rewrite mult_INR in B.
  change (fact 0) with 1%nat in A, B. cbn [INR] in A, B.
  assert (A' : cosT x <= cos x) by (eapply Rle_trans; [|exact A]; right; unfold cosT; field).
  assert (B' : cos x <= cosT x + x^12/479001600) by (eapply Rle_trans; [exact B|]; right; unfold cosT; field).
  rewrite Rabs_right by lra. lra.
Qed.
