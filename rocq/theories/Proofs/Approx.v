(** An absolute-error calculus for binary32: [ap x X e M] says that the finite number [x] is within
    [e] of the real [X], and that [X] is at most [M] in magnitude. *)
From Coq Require Import ZArith Bool Reals Lra Lia Psatz.
From Flocq Require Import Core.Core IEEE754.BinarySingleNaN IEEE754.Binary IEEE754.Bits.
From Verif.Model Require Import Scalar.
From Verif.Proofs Require Import OrdScalar F32Round F32Err.
Local Open Scope R_scope.

Definition ap (x : f32) (X e M : R) : Prop := fin x /\ Rabs (val x - X) <= e /\ Rabs X <= M.

Lemma fma_small : forall a b c : f32, fin a -> fin b -> fin c -> small (val a * val b + val c) ->
  fin (sfma a b c) /\ val (sfma a b c) = rnd (val a * val b + val c).
Proof.
  intros a b c Ha Hb Hc H. cbn [sfma ScalarF32]. unfold b32_fma.
  pose proof (Binary.Bfma_correct 24 128 eq_refl eq_refl ternop_nan_pl32 mode_NE a b c Ha Hb Hc) as K.
  cbv zeta in K.
  change (round radix2 (SpecFloat.fexp 24 128) (round_mode mode_NE) (val a * val b + val c))
    with (rnd (val a * val b + val c)) in K.
  rewrite (Rlt_bool_true _ _ (small_rnd _ H)) in K. destruct K as (K1 & K2 & _). split; assumption.
Qed.

Lemma u24_pos : 0 < u24. Proof. rewrite u24_val. lra. Qed.

(** the multiply-add of every path: the product rounds or not, the sum rounds *)
Lemma simdfma_val : forall p (a b c : f32), fin a -> fin b -> fin c ->
  Rabs (val a * val b) <= 500000 -> Rabs (val c) <= 400000 ->
  exists d, Rabs d <= u24 * Rabs (val a * val b) + eta0 /\
    fin (simdfma p a b c) /\ val (simdfma p a b c) = rnd (val c + (val a * val b + d)).
Proof.
  intros p a b c Ha Hb Hc Hm Hs. pose proof u24_val as Hu. pose proof eta0_small as He. pose proof eta0_pos as Hp.
  pose proof (Rabs_pos (val a * val b)) as Hq.
  assert (F : exists d, Rabs d <= u24 * Rabs (val a * val b) + eta0 /\
    fin (sfma a b c) /\ val (sfma a b c) = rnd (val c + (val a * val b + d))).
  { exists 0. split; [rewrite Rabs_R0; nra|].
    destruct (fma_small a b c Ha Hb Hc) as [K1 K2].
    - apply small_le with 900000; [|lra]. eapply Rle_trans; [apply Rabs_triang|]. lra.
    - split; [exact K1|]. rewrite K2. f_equal. ring. }
  assert (G : exists d, Rabs d <= u24 * Rabs (val a * val b) + eta0 /\
    fin (c + a * b)%sc /\ val (c + a * b)%sc = rnd (val c + (val a * val b + d))).
  { destruct (mul_small a b Ha Hb) as [M1 M2]; [apply small_le with 500000; lra|].
    exists (rnd (val a * val b) - val a * val b). pose proof (rnd_err (val a * val b)) as R.
    split; [exact R|].
    destruct (add_small c (a * b)%sc Hc M1) as [A1 A2].
    - rewrite M2. apply small_le with 1000000; [|lra].
      replace (val c + rnd (val a * val b)) with (val c + (val a * val b + (rnd (val a * val b) - val a * val b))) by ring.
      eapply Rle_trans; [apply Rabs_triang|].
      eapply Rle_trans; [apply Rplus_le_compat_l, Rabs_triang|]. rewrite Hu in R. lra.
    - split; [exact A1|]. rewrite A2, M2. f_equal. ring. }
  destruct p; assumption.
Qed.

Lemma abs_le2 : forall x a, - a <= x -> x <= a -> Rabs x <= a.
Proof. intros. apply Rabs_le. lra. Qed.
Lemma abs_prod : forall a b A B ea eb MA MB, Rabs (a - A) <= ea -> Rabs (b - B) <= eb ->
  Rabs A <= MA -> Rabs B <= MB -> Rabs (a * b - A * B) <= ea * MB + eb * MA + ea * eb.
Proof.
  intros a b A B ea eb MA MB Ha Hb HA HB.
  replace (a * b - A * B) with ((a - A) * B + ((b - B) * A + (a - A) * (b - B))) by ring.
  eapply Rle_trans; [apply Rabs_triang|].
  eapply Rle_trans; [apply Rplus_le_compat_l, Rabs_triang|]. rewrite !Rabs_mult.
  pose proof (Rabs_pos (a - A)). pose proof (Rabs_pos (b - B)). pose proof (Rabs_pos A). pose proof (Rabs_pos B).
  assert (Rabs (a - A) * Rabs B <= ea * MB) by (apply Rmult_le_compat; lra).
  assert (Rabs (b - B) * Rabs A <= eb * MA) by (apply Rmult_le_compat; lra).
  assert (Rabs (a - A) * Rabs (b - B) <= ea * eb) by (apply Rmult_le_compat; lra).
  lra.
Qed.
Lemma abs_near : forall x X e M, Rabs (x - X) <= e -> Rabs X <= M -> Rabs x <= M + e.
Proof.
  intros x X e M H HM. replace x with (X + (x - X)) by ring. eapply Rle_trans; [apply Rabs_triang|]. lra.
Qed.
(** one rounding on top of an accumulated error *)
Lemma rnd_ap : forall x X e M, Rabs (x - X) <= e -> Rabs X <= M ->
  Rabs (rnd x - X) <= e + u24 * (M + e) + eta0.
Proof.
  intros x X e M H HM. pose proof (rnd_err x) as R. pose proof (abs_near _ _ _ _ H HM) as N.
  replace (rnd x - X) with ((x - X) + (rnd x - x)) by ring. eapply Rle_trans; [apply Rabs_triang|].
  assert (u24 * Rabs x <= u24 * (M + e)) by (apply Rmult_le_compat_l; [left; exact u24_pos|exact N]). lra.
Qed.

Lemma ap_lit : forall m e, (Z.abs m < 2 ^ 24)%Z -> (-149 <= e <= 100)%Z ->
  ap (slit m e) (IZR m * bpow radix2 e) 0 (Rabs (IZR m * bpow radix2 e)).
Proof.
  intros m e Hm He. destruct (lit_exact m e Hm ltac:(lia)) as [A B]. split; [exact A|]. rewrite B.
  unfold Rminus. rewrite Rplus_opp_r, Rabs_R0. split; apply Rle_refl.
Qed.
Lemma ap_exact : forall x : f32, fin x -> ap x (val x) 0 (Rabs (val x)).
Proof.
  intros x H. split; [exact H|]. unfold Rminus. rewrite Rplus_opp_r, Rabs_R0. split; apply Rle_refl.
Qed.
Lemma ap_weak : forall x X e M e' M', ap x X e M -> e <= e' -> M <= M' -> ap x X e' M'.
Proof. intros x X e M e' M' (F & E & B) He HM. split; [exact F|]. split; lra. Qed.
Lemma ap_shift : forall x X Y e d M, ap x X e M -> Rabs (X - Y) <= d -> ap x Y (e + d) (M + d).
Proof.
  intros x X Y e d M (F & E & B) H. split; [exact F|]. split.
  - replace (val x - Y) with ((val x - X) + (X - Y)) by ring. eapply Rle_trans; [apply Rabs_triang|]. lra.
  - apply abs_near with X; [rewrite Rabs_minus_sym; exact H|exact B].
Qed.
Lemma ap_bnd : forall x X e M N, ap x X e M -> Rabs X <= N -> ap x X e N.
Proof. intros x X e M N (F & E & _) H. repeat split; assumption. Qed.

Lemma ap_add : forall (x y : f32) X Y ex ey Mx My M e, ap x X ex Mx -> ap y Y ey My ->
  Rabs (X + Y) <= M -> M + (ex + ey) <= 1000000 -> (ex + ey) + u24 * (M + (ex + ey)) + eta0 <= e ->
  ap (x + y)%sc (X + Y) e M.
Proof.
  intros x y X Y ex ey Mx My M e (Fx & Ex & _) (Fy & Ey & _) HM Hs He.
  assert (K : Rabs (val x + val y - (X + Y)) <= ex + ey).
  { replace (val x + val y - (X + Y)) with ((val x - X) + (val y - Y)) by ring.
    eapply Rle_trans; [apply Rabs_triang|]. lra. }
  destruct (add_small x y Fx Fy) as [F V].
  - apply small_le with (M + (ex + ey)); [apply abs_near with (X + Y); assumption|exact Hs].
  - split; [exact F|]. split; [|exact HM]. rewrite V. eapply Rle_trans; [apply rnd_ap; eassumption|exact He].
Qed.
Lemma ap_sub : forall (x y : f32) X Y ex ey Mx My M e, ap x X ex Mx -> ap y Y ey My ->
  Rabs (X - Y) <= M -> M + (ex + ey) <= 1000000 -> (ex + ey) + u24 * (M + (ex + ey)) + eta0 <= e ->
  ap (x - y)%sc (X - Y) e M.
Proof.
  intros x y X Y ex ey Mx My M e (Fx & Ex & _) (Fy & Ey & _) HM Hs He.
  assert (K : Rabs (val x - val y - (X - Y)) <= ex + ey).
  { replace (val x - val y - (X - Y)) with ((val x - X) + - (val y - Y)) by ring.
    eapply Rle_trans; [apply Rabs_triang|]. rewrite Rabs_Ropp. lra. }
  destruct (sub_small x y Fx Fy) as [F V].
  - apply small_le with (M + (ex + ey)); [apply abs_near with (X - Y); assumption|exact Hs].
  - split; [exact F|]. split; [|exact HM]. rewrite V. eapply Rle_trans; [apply rnd_ap; eassumption|exact He].
Qed.
Lemma ap_mul : forall (x y : f32) X Y ex ey Mx My M e, ap x X ex Mx -> ap y Y ey My ->
  Rabs (X * Y) <= M -> M + (ex * My + ey * Mx + ex * ey) <= 1000000 ->
  (ex * My + ey * Mx + ex * ey) + u24 * (M + (ex * My + ey * Mx + ex * ey)) + eta0 <= e ->
  ap (x * y)%sc (X * Y) e M.
Proof.
  intros x y X Y ex ey Mx My M e (Fx & Ex & Bx) (Fy & Ey & By) HM Hs He.
  pose proof (abs_prod _ _ _ _ _ _ _ _ Ex Ey Bx By) as K.
  destruct (mul_small x y Fx Fy) as [F V].
  - eapply small_le; [apply abs_near with (X * Y); eassumption|exact Hs].
  - split; [exact F|]. split; [|exact HM]. rewrite V. eapply Rle_trans; [apply rnd_ap; eassumption|exact He].
Qed.
(** [P] bounds the product, [M] the result; [g] is the error before the last rounding *)
Lemma ap_fma : forall p (x y z : f32) X Y Z ex ey ez Mx My Mz P g M e,
  ap x X ex Mx -> ap y Y ey My -> ap z Z ez Mz ->
  Rabs (X * Y) <= P -> Rabs (Z + X * Y) <= M ->
  P + (ex * My + ey * Mx + ex * ey) <= 500000 -> Mz + ez <= 400000 ->
  ez + (ex * My + ey * Mx + ex * ey) + (u24 * (P + (ex * My + ey * Mx + ex * ey)) + eta0) <= g ->
  g + u24 * (M + g) + eta0 <= e ->
  ap (simdfma p x y z) (Z + X * Y) e M.
Proof.
  intros p x y z X Y Z ex ey ez Mx My Mz P g M e (Fx & Ex & Bx) (Fy & Ey & By) (Fz & Ez & Bz) HP HM H1 H2 Hg He.
  pose proof (abs_prod _ _ _ _ _ _ _ _ Ex Ey Bx By) as K.
  pose proof (abs_near _ _ _ _ K HP) as K'. pose proof (abs_near _ _ _ _ Ez Bz) as Kz.
  destruct (simdfma_val p x y z Fx Fy Fz) as (d & Hd & F & V); [lra|lra|].
  split; [exact F|]. split; [|exact HM]. rewrite V.
  assert (G : Rabs (val z + (val x * val y + d) - (Z + X * Y)) <= g).
  { replace (val z + (val x * val y + d) - (Z + X * Y)) with ((val z - Z) + ((val x * val y - X * Y) + d)) by ring.
    eapply Rle_trans; [apply Rabs_triang|]. eapply Rle_trans; [apply Rplus_le_compat_l, Rabs_triang|].
    assert (u24 * Rabs (val x * val y) <= u24 * (P + (ex * My + ey * Mx + ex * ey)))
      by (apply Rmult_le_compat_l; [left; exact u24_pos|exact K']). lra. }
  eapply Rle_trans; [apply rnd_ap; eassumption|exact He].
Qed.
Lemma ap_div : forall (x y : f32) X Y ex ey Mx My L M e, ap x X ex Mx -> ap y Y ey My ->
  0 < L -> L <= Y -> ey < L -> Rabs (X / Y) <= M ->
  (ex + M * ey) / (L - ey) + u24 * (M + (ex + M * ey) / (L - ey)) + eta0 <= e ->
  M + (ex + M * ey) / (L - ey) <= 1000000 ->
  ap (x / y)%sc (X / Y) e M.
Proof.
  intros x y X Y ex ey Mx My L M e (Fx & Ex & Bx) (Fy & Ey & By) HL HY Hey HM He Hs.
  assert (Ly : L - ey <= val y) by (apply Rabs_le_inv in Ey; lra).
  assert (K : Rabs (val x / val y - X / Y) <= (ex + M * ey) / (L - ey)).
  { replace (val x / val y - X / Y) with ((val x - X - X / Y * (val y - Y)) / val y) by (field; lra).
    unfold Rdiv at 1. rewrite Rabs_mult, (Rabs_inv (val y)), (Rabs_right (val y)) by lra.
    apply Rmult_le_compat; [apply Rabs_pos|left; apply Rinv_0_lt_compat; lra| |apply Rinv_le_contravar; lra].
    replace (val x - X - X / Y * (val y - Y)) with ((val x - X) + - (X / Y * (val y - Y))) by ring.
    eapply Rle_trans; [apply Rabs_triang|]. rewrite Rabs_Ropp, Rabs_mult.
    apply Rplus_le_compat; [exact Ex|]. apply Rmult_le_compat; try apply Rabs_pos; assumption. }
  destruct (div_small x y Fx Fy) as [F V].
  - lra.
  - eapply small_le; [apply abs_near with (X / Y); eassumption|exact Hs].
  - split; [exact F|]. split; [|exact HM]. rewrite V. eapply Rle_trans; [apply rnd_ap; eassumption|exact He].
Qed.
Lemma ap_fma' : forall p (x y z : f32) X Y Z ex ey ez Mx My Mz P g M e,
  ap x X ex Mx -> ap y Y ey My -> ap z Z ez Mz ->
  Mx * My <= P -> Mz + P <= M ->
  P + (ex * My + ey * Mx + ex * ey) <= 500000 -> Mz + ez <= 400000 ->
  ez + (ex * My + ey * Mx + ex * ey) + (u24 * (P + (ex * My + ey * Mx + ex * ey)) + eta0) <= g ->
  g + u24 * (M + g) + eta0 <= e ->
  ap (simdfma p x y z) (Z + X * Y) e M.
Proof.
  intros p x y z X Y Z ex ey ez Mx My Mz P g M e Hx Hy Hz HP HM H1 H2 Hg He.
  assert (K : Rabs (X * Y) <= P).
  { rewrite Rabs_mult. eapply Rle_trans; [|exact HP]. destruct Hx as (_ & _ & Bx). destruct Hy as (_ & _ & By).
    apply Rmult_le_compat; try apply Rabs_pos; assumption. }
  eapply ap_fma; try eassumption. destruct Hz as (_ & _ & Bz).
  eapply Rle_trans; [apply Rabs_triang|]. lra.
Qed.
Lemma ap_mul' : forall (x y : f32) X Y ex ey Mx My M e, ap x X ex Mx -> ap y Y ey My ->
  Mx * My <= M -> M + (ex * My + ey * Mx + ex * ey) <= 1000000 ->
  (ex * My + ey * Mx + ex * ey) + u24 * (M + (ex * My + ey * Mx + ex * ey)) + eta0 <= e ->
  ap (x * y)%sc (X * Y) e M.
Proof.
  intros x y X Y ex ey Mx My M e Hx Hy HM H1 He. eapply ap_mul; try eassumption.
  rewrite Rabs_mult. eapply Rle_trans; [|exact HM]. destruct Hx as (_ & _ & Bx). destruct Hy as (_ & _ & By).
  apply Rmult_le_compat; try apply Rabs_pos; assumption.
Qed.
Lemma ap_const : forall m e c M, (Z.abs m < 2 ^ 24)%Z -> (-149 <= e <= 100)%Z ->
  IZR m * bpow radix2 e = c -> - M <= c -> c <= M -> ap (slit m e) c 0 M.
Proof.
  intros m e c M Hm He <- H1 H2. eapply ap_bnd; [apply ap_lit; assumption|]. apply Rabs_le. lra.
Qed.
Lemma ap_add' : forall (x y : f32) X Y ex ey Mx My M e, ap x X ex Mx -> ap y Y ey My ->
  Mx + My <= M -> M + (ex + ey) <= 1000000 -> (ex + ey) + u24 * (M + (ex + ey)) + eta0 <= e ->
  ap (x + y)%sc (X + Y) e M.
Proof.
  intros x y X Y ex ey Mx My M e Hx Hy HM H1 He. eapply ap_add; try eassumption.
  destruct Hx as (_ & _ & Bx). destruct Hy as (_ & _ & By). eapply Rle_trans; [apply Rabs_triang|]. lra.
Qed.
Lemma ap_sub' : forall (x y : f32) X Y ex ey Mx My M e, ap x X ex Mx -> ap y Y ey My ->
  Mx + My <= M -> M + (ex + ey) <= 1000000 -> (ex + ey) + u24 * (M + (ex + ey)) + eta0 <= e ->
  ap (x - y)%sc (X - Y) e M.
Proof.
  intros x y X Y ex ey Mx My M e Hx Hy HM H1 He. eapply ap_sub; try eassumption.
  destruct Hx as (_ & _ & Bx). destruct Hy as (_ & _ & By). unfold Rminus. eapply Rle_trans; [apply Rabs_triang|].
  rewrite Rabs_Ropp. lra.
Qed.
