(** Rounding error and range lemmas for binary32. *)
From Coq Require Import ZArith Bool Reals Lra Lia Psatz.
From Flocq Require Import Core.Core IEEE754.BinarySingleNaN IEEE754.Binary IEEE754.Bits.
From Flocq Require Relative.
From Verif.Model Require Import Scalar.
From Verif.Proofs Require Import OrdScalar F32Round.
Local Open Scope R_scope.

#[local] Instance fexp_ok' : Valid_exp (SpecFloat.fexp 24 128) := fexp_correct 24 128 eq_refl.

Definition u24 : R := bpow radix2 (-24).
Definition eta0 : R := bpow radix2 (-150).
Lemma u24_val : u24 = / 16777216.
Proof. unfold u24. cbn. lra. Qed.
Lemma eta0_pos : 0 < eta0.
Proof. apply bpow_gt_0. Qed.
Lemma eta0_small : eta0 <= / 1000000000000.
Proof.
  unfold eta0. apply Rle_trans with (bpow radix2 (-40)); [apply bpow_le; lia|]. cbn. lra.
Qed.

Lemma rnd_err : forall x, Rabs (rnd x - x) <= u24 * Rabs x + eta0.
Proof.
  intros x.
  destruct (Relative.error_N_FLT radix2 (-149) 24 ltac:(lia) (fun x => negb (Z.even x)) x) as (eps & eta & H1 & H2 & H3 & E).
  change (round radix2 (FLT_exp (-149) 24) (Znearest (fun x => negb (Z.even x))) x) with (rnd x) in E.
  rewrite E. replace (x * (1 + eps) + eta - x) with (x * eps + eta) by ring.
  eapply Rle_trans; [apply Rabs_triang|]. rewrite Rabs_mult.
  assert (Hu : Rabs eps <= u24) by (eapply Rle_trans; [exact H1|]; unfold u24; cbn; lra).
  assert (He : / 2 * bpow radix2 (-149) = eta0).
  { unfold eta0. change (-149)%Z with (1 + -150)%Z. rewrite bpow_plus. cbn [bpow]. change (IZR (Z.pow_pos radix2 1)) with 2. lra. }
  rewrite He in H2. pose proof (Rabs_pos x).
  rewrite (Rmult_comm u24). apply Rplus_le_compat; [apply Rmult_le_compat_l; assumption|assumption].
Qed.

Lemma rnd_lit : forall m e, (Z.abs m < 2 ^ 24)%Z -> (-149 <= e)%Z ->
  rnd (IZR m * bpow radix2 e) = IZR m * bpow radix2 e.
Proof.
  intros m e Hm He. apply round_generic; [apply valid_rnd_round_mode|].
  apply (generic_format_FLT radix2 (-149) 24).
  apply FLT_spec with (Float radix2 m e); [reflexivity|cbn [Fnum]; exact Hm|exact He].
Qed.
Lemma rnd_Z : forall m, (Z.abs m < 2 ^ 24)%Z -> rnd (IZR m) = IZR m.
Proof.
  intros m Hm. pose proof (rnd_lit m 0 Hm ltac:(lia)) as H. cbn [bpow] in H. rewrite Rmult_1_r in H. exact H.
Qed.
Lemma rnd_val : forall x : f32, rnd (val x) = val x.
Proof. intros x. apply round_generic; [apply valid_rnd_round_mode|apply generic_format_B2R]. Qed.
Lemma rnd_opp : forall x, rnd (- x) = - rnd x.
Proof.
  intros x. unfold rnd. cbn [round_mode]. apply round_NE_opp.
Qed.

(** upper bounds that survive rounding *)
Lemma rnd_abs_le : forall x m e, (Z.abs m < 2 ^ 24)%Z -> (-149 <= e)%Z -> Rabs x <= IZR m * bpow radix2 e ->
  Rabs (rnd x) <= IZR m * bpow radix2 e.
Proof.
  intros x m e Hm He H. apply Rabs_le_inv in H. destruct H as [H1 H2]. apply Rabs_le. split.
  - apply F32Round.rnd_le in H1. rewrite rnd_opp, rnd_lit in H1 by assumption. exact H1.
  - apply F32Round.rnd_le in H2. rewrite rnd_lit in H2 by assumption. exact H2.
Qed.
Definition small (x : R) : Prop := Rabs x <= bpow radix2 127.
Lemma small_rnd : forall x, small x -> Rabs (rnd x) < maxF.
Proof.
  intros x H. pose proof (rnd_abs_le x 1 127 ltac:(lia) ltac:(lia)) as K. rewrite Rmult_1_l in K.
  apply Rle_lt_trans with (bpow radix2 127); [apply K, H|]. apply bpow_lt. lia.
Qed.
Lemma small_RX : forall x, small x -> RX x = rnd x.
Proof. intros x H. apply RX_normal. apply Rlt_bool_true, small_rnd, H. Qed.
Lemma of_RX : forall (y : f32) r, small r -> num y -> ext y = RX r -> fin y /\ val y = rnd r.
Proof.
  intros y r Hr Hn E. rewrite small_RX in E by exact Hr. pose proof (small_rnd r Hr) as B.
  apply Rabs_def2 in B. assert (F : fin y) by (apply ext_fin; [exact Hn|rewrite E; lra]).
  split; [exact F|]. rewrite <- fin_ext by exact F. exact E.
Qed.
Lemma add_small : forall a b : f32, fin a -> fin b -> small (val a + val b) ->
  fin (a + b)%sc /\ val (a + b)%sc = rnd (val a + val b).
Proof. intros a b Ha Hb H. destruct (add_fin a b Ha Hb). apply of_RX; assumption. Qed.
Lemma sub_small : forall a b : f32, fin a -> fin b -> small (val a - val b) ->
  fin (a - b)%sc /\ val (a - b)%sc = rnd (val a - val b).
Proof. intros a b Ha Hb H. destruct (sub_fin a b Ha Hb). apply of_RX; assumption. Qed.
Lemma mul_small : forall a b : f32, fin a -> fin b -> small (val a * val b) ->
  fin (a * b)%sc /\ val (a * b)%sc = rnd (val a * val b).
Proof. intros a b Ha Hb H. destruct (mul_fin a b Ha Hb). apply of_RX; assumption. Qed.
Lemma div_small : forall a b : f32, fin a -> fin b -> val b <> 0 -> small (val a / val b) ->
  fin (a / b)%sc /\ val (a / b)%sc = rnd (val a / val b).
Proof. intros a b Ha Hb Hz H. destruct (div_fin a b Ha Hb Hz). apply of_RX; assumption. Qed.
Lemma small_le : forall x c, Rabs x <= c -> c <= 1000000 -> small x.
Proof.
  intros x c H Hc. unfold small. apply Rle_trans with c; [exact H|]. apply Rle_trans with (bpow radix2 20).
  - cbn. lra.
  - apply bpow_le. lia.
Qed.
Lemma lit_Z : forall m, (Z.abs m < 2 ^ 24)%Z -> fin (slit m 0 : f32) /\ val (slit m 0 : f32) = IZR m.
Proof. intros m H. destruct (lit_exact m 0 H ltac:(lia)) as [A B]. split; [exact A|]. rewrite B. cbn [bpow]. ring. Qed.
Lemma half_val : fin (fhalf : f32) /\ val (fhalf : f32) = / 2.
Proof.
  destruct (lit_exact 1 (-1) ltac:(lia) ltac:(lia)) as [A B]. split; [exact A|].
  change (fhalf : f32) with (slit 1 (-1) : f32). rewrite B. cbn. lra.
Qed.
