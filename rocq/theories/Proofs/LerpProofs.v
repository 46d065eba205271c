(** lerp and hammersley. *)
From Coq Require Import ZArith Bool List Reals Lra Lia Psatz.
From Flocq Require Import Core.Core IEEE754.BinarySingleNaN IEEE754.Binary IEEE754.Bits.
From Verif.Model Require Import Outcome Scalar Vec Simd IntVec Numeric.
From Verif.Spec Require Import OrderSpec IntSpec NumericSpec.
From Verif.Proofs Require Import OrdScalar F32Round F32Err RealLits Frustum BitReverse IntConv NumericProofs.
Local Open Scope R_scope.

(** ** exact arithmetic *)
Lemma lerp_real : forall a b t : R,
  lerpS a b 0 = a /\ lerpS a b 1 = b /\ lerpLane a b t = lerpS a b t /\
  (unit t -> between a b (lerpS a b t)).
Proof.
  intros a b t. unfold lerpS, lerpLane, between, unit. rewrite ?f1R. cbn [sadd ssub smul ScalarR].
  split; [ring|]. split; [ring|]. split; [ring|]. intros H.
  destruct (Rle_dec a b); [left|right]; nra.
Qed.
Lemma lerp_mono : forall a b t t' : R, a <= b -> t <= t' -> lerpS a b t <= lerpS a b t'.
Proof. intros a b t t' H H'. unfold lerpS. cbn [sadd ssub smul ScalarR]. nra. Qed.
Lemma vlerp_lanes : forall (F : Type) (S : Scalar F) (a b : vec4 F) t, vlerp a b t = lerp4 a b t.
Proof. intros F S [a1 a2 a3 a4] [b1 b2 b3 b4] t. reflexivity. Qed.

(** ** binary32 *)
Lemma eta0_bpow : forall M, bpow radix2 (-120) <= M -> eta0 <= u24 * M.
Proof.
  intros M H. unfold eta0, u24. change (-150)%Z with (-24 + -126)%Z. rewrite bpow_plus.
  apply Rmult_le_compat_l; [apply bpow_ge_0|]. eapply Rle_trans; [apply bpow_le|exact H]. lia.
Qed.
Definition big (M : R) : Prop := bpow radix2 (-120) <= M <= bpow radix2 124.
Lemma big_small : forall M c x, big M -> Rabs x <= c * M -> c <= 8 -> small x.
Proof.
  intros M c x [H1 H2] H Hc. unfold small. assert (0 < M) by (eapply Rlt_le_trans; [apply bpow_gt_0|exact H1]).
  apply Rle_trans with (8 * M); [nra|]. replace (bpow radix2 127) with (8 * bpow radix2 124); [nra|].
  change 127%Z with (3 + 124)%Z. rewrite bpow_plus. cbn [bpow]. change (IZR (Z.pow_pos radix2 3)) with 8. ring.
Qed.
Lemma u24_small : 0 < u24 <= / 16777216.
Proof. rewrite u24_val. lra. Qed.
(** rounding a value of size at most c M costs at most (c + 1) u24 M *)
Lemma rnd_step : forall M c x, big M -> 0 <= c -> Rabs x <= c * M -> Rabs (rnd x - x) <= (c + 1) * (u24 * M).
Proof.
  intros M c x [H1 H2] Hc H. pose proof (rnd_err x) as E. pose proof (eta0_bpow M H1) as He. pose proof u24_small.
  assert (u24 * Rabs x <= u24 * (c * M)) by (apply Rmult_le_compat_l; lra). lra.
Qed.
Lemma abs_mult_unit : forall x t M, 0 <= t <= 1 -> Rabs x <= M -> Rabs (x * t) <= M.
Proof.
  intros x t M Ht H. rewrite Rabs_mult, (Rabs_right t) by lra. pose proof (Rabs_pos x). nra.
Qed.

Lemma lerpS_err : forall (M : R) (a b t : f32), big M -> fin a -> fin b -> fin t ->
  Rabs (val a) <= M -> Rabs (val b) <= M -> unit (val t) ->
  fin (lerpS a b t) /\ Rabs (val (lerpS a b t) - (val a + val t * (val b - val a))) <= 10 * (u24 * M).
Proof.
  intros M a b t HM Fa Fb Ft Ha Hb Ht. unfold unit in Ht. unfold lerpS. pose proof u24_small as Hu.
  assert (HMp : 0 < M) by (destruct HM as [H1 _]; eapply Rlt_le_trans; [apply bpow_gt_0|exact H1]).
  assert (Hd : Rabs (val b - val a) <= 2 * M).
  { apply Rabs_le_inv in Ha. apply Rabs_le_inv in Hb. apply Rabs_le. lra. }
  destruct (sub_small b a Fb Fa (big_small M 2 _ HM Hd ltac:(lra))) as [Fd Vd].
  pose proof (rnd_step M 2 _ HM ltac:(lra) Hd) as Ed. rewrite <- Vd in Ed.
  set (d := val (b - a)%sc) in *.
  assert (Huni : u24 * M <= / 100 * M) by (apply Rmult_le_compat_r; lra).
  assert (Hum : 0 < u24 * M) by (apply Rmult_lt_0_compat; lra).
  assert (Hd' : Rabs d <= 3 * M).
  { apply Rabs_le_inv in Ed. apply Rabs_le_inv in Hd. apply Rabs_le. lra. }
  assert (Hm : Rabs (val t * d) <= 3 * M) by (rewrite Rmult_comm; apply abs_mult_unit; assumption).
  destruct (mul_small t (b - a)%sc Ft Fd (big_small M 3 _ HM Hm ltac:(lra))) as [Fm Vm].
  fold d in Vm. pose proof (rnd_step M 3 _ HM ltac:(lra) Hm) as Em. rewrite <- Vm in Em.
  set (m := val (t * (b - a))%sc) in *.
  assert (Htd : Rabs (val t * d - val t * (val b - val a)) <= 3 * (u24 * M)).
  { replace (val t * d - val t * (val b - val a)) with ((d - (val b - val a)) * val t) by ring.
    apply abs_mult_unit; [lra|]. replace (3 * (u24 * M)) with ((2 + 1) * (u24 * M)) by ring. exact Ed. }
  assert (Hex : Rabs (val a + val t * (val b - val a)) <= M).
  { apply Rabs_le_inv in Ha. apply Rabs_le_inv in Hb. apply Rabs_le. nra. }
  assert (Hs : Rabs (val a + m) <= 2 * M).
  { apply Rabs_le_inv in Em. apply Rabs_le_inv in Htd. apply Rabs_le_inv in Hex. apply Rabs_le. lra. }
  destruct (add_small a (t * (b - a))%sc Fa Fm (big_small M 2 _ HM Hs ltac:(lra))) as [Fs Vs].
  fold m in Vs. pose proof (rnd_step M 2 _ HM ltac:(lra) Hs) as Es. rewrite <- Vs in Es.
  split; [exact Fs|]. apply Rabs_le_inv in Es. apply Rabs_le_inv in Em. apply Rabs_le_inv in Htd. apply Rabs_le. lra.
Qed.

Lemma one_minus_unit : forall t : f32, fin t -> unit (val t) -> fin (f1 - t)%sc /\ val (f1 - t)%sc = rnd (1 - val t) /\
  0 <= val (f1 - t)%sc <= 1 /\ Rabs (val (f1 - t)%sc - (1 - val t)) <= 2 * u24.
Proof.
  intros t Ft [H0 H1]. destruct f1_f as [F1 V1]. destruct (sub_small f1 t F1 Ft) as [A V].
  { apply small_le with 1; [|lra]. rewrite V1. rewrite Rabs_right; lra. }
  rewrite V1 in V. split; [exact A|]. split; [exact V|]. rewrite V.
  pose proof (rnd_Z 1 ltac:(cbn; lia)) as E1.
  split; [split; [rewrite <- rnd_0 at 1|rewrite <- E1 at 2]; apply F32Round.rnd_le; lra|].
  pose proof (rnd_err (1 - val t)) as E. rewrite (Rabs_right (1 - val t)) in E by lra.
  assert (eta0 <= u24) by (unfold eta0, u24; apply bpow_le; lia). pose proof u24_small. nra.
Qed.
Lemma lerpLane_err : forall (M : R) (a b t : f32), big M -> fin a -> fin b -> fin t ->
  Rabs (val a) <= M -> Rabs (val b) <= M -> unit (val t) ->
  fin (lerpLane a b t) /\ Rabs (val (lerpLane a b t) - (val a + val t * (val b - val a))) <= 10 * (u24 * M).
Proof.
  intros M a b t HM Fa Fb Ft Ha Hb Ht. unfold lerpLane. pose proof u24_small as Hu.
  assert (HMp : 0 < M) by (destruct HM as [H1 _]; eapply Rlt_le_trans; [apply bpow_gt_0|exact H1]).
  assert (Huni : u24 * M <= / 100 * M) by (apply Rmult_le_compat_r; lra).
  assert (Hum : 0 < u24 * M) by (apply Rmult_lt_0_compat; lra).
  destruct (one_minus_unit t Ft Ht) as (Fc & _ & Bc & Ec). set (c := val (f1 - t)%sc) in *.
  assert (H1 : Rabs (val a * c) <= 1 * M) by (rewrite Rmult_1_l; apply abs_mult_unit; assumption).
  assert (H2 : Rabs (val b * val t) <= 1 * M) by (rewrite Rmult_1_l; apply abs_mult_unit; assumption).
  destruct (mul_small a (f1 - t)%sc Fa Fc (big_small M 1 _ HM H1 ltac:(lra))) as [Fp Vp].
  destruct (mul_small b t Fb Ft (big_small M 1 _ HM H2 ltac:(lra))) as [Fq Vq]. fold c in Vp.
  pose proof (rnd_step M 1 _ HM ltac:(lra) H1) as Ep. pose proof (rnd_step M 1 _ HM ltac:(lra) H2) as Eq.
  rewrite <- Vp in Ep. rewrite <- Vq in Eq. set (pp := val (a * (f1 - t))%sc) in *. set (q := val (b * t)%sc) in *.
  assert (Hac : Rabs (val a * c - val a * (1 - val t)) <= 2 * (u24 * M)).
  { replace (val a * c - val a * (1 - val t)) with (val a * (c - (1 - val t))) by ring. rewrite Rabs_mult.
    pose proof (Rabs_pos (val a)). pose proof (Rabs_pos (c - (1 - val t))). nra. }
  unfold unit in Ht.
  assert (Hex : Rabs (val a + val t * (val b - val a)) <= M).
  { apply Rabs_le_inv in Ha. apply Rabs_le_inv in Hb. apply Rabs_le. nra. }
  assert (Hs : Rabs (pp + q) <= 2 * M).
  { apply Rabs_le_inv in Ep. apply Rabs_le_inv in Eq. apply Rabs_le_inv in Hac. apply Rabs_le_inv in Hex. apply Rabs_le. lra. }
  destruct (add_small (a * (f1 - t))%sc (b * t)%sc Fp Fq (big_small M 2 _ HM Hs ltac:(lra))) as [Fs Vs].
  fold pp q in Vs. pose proof (rnd_step M 2 _ HM ltac:(lra) Hs) as Es. rewrite <- Vs in Es.
  split; [exact Fs|]. apply Rabs_le_inv in Es. apply Rabs_le_inv in Ep. apply Rabs_le_inv in Eq. apply Rabs_le_inv in Hac.
  apply Rabs_le. lra.
Qed.
(** endpoints of the lane form are exact for all finite numbers *)
Lemma mul_by : forall a c : f32, fin a -> fin c -> (val c = 0 \/ val c = 1) ->
  fin (a * c)%sc /\ val (a * c)%sc = val a * val c.
Proof.
  intros a c Fa Fc H. destruct (mul_fin a c Fa Fc) as [N E]. pose proof maxF_pos.
  apply of_RXval; try assumption.
  - destruct H as [-> | ->].
    + rewrite Rmult_0_r. unfold RX. rewrite rnd_0. apply clampR_id. rewrite Rabs_R0. lra.
    + rewrite Rmult_1_r. apply RX_val.
  - pose proof (B2R_bound a). destruct H as [-> | ->]; lra.
Qed.
Lemma lerpLane_ends : forall a b t : f32, fin a -> fin b -> fin t ->
  (val t = 0 -> fin (lerpLane a b t) /\ val (lerpLane a b t) = val a) /\
  (val t = 1 -> fin (lerpLane a b t) /\ val (lerpLane a b t) = val b).
Proof.
  intros a b t Fa Fb Ft. unfold lerpLane.
  assert (G : val t = 0 \/ val t = 1 -> fin (a * (f1 - t) + b * t)%sc /\
     val (a * (f1 - t) + b * t)%sc = val a * (1 - val t) + val b * val t).
  { intros H. assert (U : unit (val t)) by (unfold unit; destruct H as [-> | ->]; lra).
    destruct (one_minus_unit t Ft U) as (Fc & Vc & _).
    assert (Vc' : val (f1 - t)%sc = 1 - val t).
    { rewrite Vc. destruct H as [-> | ->]; [rewrite Rminus_0_r; apply (rnd_Z 1); cbn; lia|].
      replace (1 - 1) with 0 by lra. apply rnd_0. }
    destruct (mul_by a (f1 - t)%sc Fa Fc) as [Fp Vp]; [rewrite Vc'; destruct H as [-> | ->]; lra|].
    destruct (mul_by b t Fb Ft H) as [Fq Vq]. rewrite Vc' in Vp.
    destruct (add_fin _ _ Fp Fq) as [N E]. rewrite Vp, Vq in E.
    assert (K : val a * (1 - val t) + val b * val t = val a \/ val a * (1 - val t) + val b * val t = val b)
      by (destruct H as [-> | ->]; [left|right]; ring).
    apply of_RXval; try assumption; destruct K as [-> | ->]; try apply RX_val; apply B2R_bound. }
  split; intros H; destruct (G ltac:(auto)) as [A B]; rewrite H in B; (split; [exact A|]); rewrite B; ring.
Qed.
(** the scalar form: exact at 0 unless b - a overflows, wrong at 1 *)
Lemma lerpS_end1_wrong : let a := b32_lit 1 0 in let b := b32_lit 1 (-30) in
  fin a /\ fin b /\ seq (lerpS a b f1) f0 = true /\ slt f0 b = true /\ slt b a = true.
Proof. vm_compute. repeat split. Qed.
Lemma lerpS_end0_wrong : let a := b32_lit (-3) 126 in let b := b32_lit 3 126 in
  fin a /\ fin b /\ snan (lerpS a b f0) = true.
Proof. vm_compute. repeat split. Qed.
Lemma lerpLane_not_between : let a := b32_lit 13684099 (-23) in let t := b32_lit 11265529 (-24) in
  fin a /\ fin t /\ slt f0 t = true /\ slt t f1 = true /\ slt (lerpLane a a t) a = true.
Proof. vm_compute. repeat split. Qed.

(** ** hammersley *)
Lemma pow31R : Rlit (2 ^ 31) 0 = 2147483648.
Proof. unfold Rlit. cbn [powerRZ]. rewrite Rmult_1_r. reflexivity. Qed.
Lemma hammersley_real : forall i n, u32 i -> u32 n -> (i < n)%Z ->
  let h := hammersley i (1 / IZR n) in
  x2 h = IZR i / IZR n /\ y2 h = IZR (reverseBits i) / 4294967296 /\
  reversal32 i (reverseBits i) /\ 0 <= x2 h < 1 /\ 0 <= y2 h < 1.
Proof.
  intros i n Hi Hn H h. unfold h, hammersley. cbn [x2 y2]. cbn [smul sdiv slit ScalarR].
  rewrite fhalfR, pow31R. unfold u32 in *.
  assert (L : forall m, Rlit m 0 = IZR m) by (intros m; unfold Rlit; cbn [powerRZ]; ring). rewrite !L.
  pose proof (reverse_spec i Hi) as R. destruct (R) as [[R1 R2] _].
  apply IZR_le in R1. apply IZR_lt in R2.
  assert (N : 0 < IZR n) by (apply (IZR_lt 0); lia). assert (I0 : 0 <= IZR i) by (apply (IZR_le 0); lia).
  assert (I1 : IZR i < IZR n) by (apply IZR_lt; lia).
  split; [field; lra|]. split; [field|]. split; [exact R|].
  split.
  - replace (IZR i * (1 / IZR n)) with (IZR i / IZR n) by (field; lra). split.
    + apply Rmult_le_pos; [exact I0|]. apply Rlt_le, Rinv_0_lt_compat, N.
    + apply Rmult_lt_reg_r with (IZR n); [exact N|]. unfold Rdiv. rewrite Rmult_assoc, Rinv_l; lra.
  - change (2 ^ 32)%Z with 4294967296%Z in R2. lra.
Qed.
Lemma hammersley_top : exists i n : Z, u32 i /\ u32 n /\ (i < n)%Z /\ forall inv : f32, seq (y2 (hammersley i inv)) f1 = true.
Proof.
  exists (2 ^ 25 - 1)%Z, (2 ^ 25)%Z. unfold u32. split; [lia|]. split; [lia|]. split; [lia|]. intros inv. vm_compute. reflexivity.
Qed.
Lemma tof_val : fin (fhalf / slit (2 ^ 31) 0 : f32)%sc /\ val (fhalf / slit (2 ^ 31) 0 : f32)%sc = bpow radix2 (-32).
Proof.
  destruct half_val as [Fh Vh]. destruct (lit_nearest (2 ^ 31) ltac:(lia)) as [Fl Vl].
  change (IntVec.rnd32 (IZR (2 ^ 31))) with (rnd (IZR (2 ^ 31))) in Vl.
  assert (E : rnd (IZR (2 ^ 31)) = bpow radix2 31).
  { change (IZR (2 ^ 31)) with (bpow radix2 31). pose proof (rnd_lit 1 31 ltac:(cbn; lia) ltac:(lia)) as K.
    rewrite Rmult_1_l in K. exact K. }
  rewrite E in Vl. change (b32_lit (2 ^ 31) 0) with (slit (2 ^ 31) 0 : f32) in *.
  destruct (div_small fhalf (slit (2 ^ 31) 0) Fh Fl) as [A B].
  - rewrite Vl. apply Rgt_not_eq, bpow_gt_0.
  - apply small_le with 1; [|lra]. rewrite Vh, Vl. cbn. rewrite Rabs_right; lra.
  - split; [exact A|]. rewrite B, Vh, Vl. pose proof (rnd_lit 1 (-32) ltac:(cbn; lia) ltac:(lia)) as K. rewrite Rmult_1_l in K.
    rewrite <- K. f_equal. cbn. lra.
Qed.
(** the second coordinate in binary32: the nearest float of the reversal, scaled *)
Lemma hammersley_y : forall i (inv : f32), u32 i ->
  fin (y2 (hammersley i inv)) /\
  val (y2 (hammersley i inv)) = rnd (IZR (reverseBits i)) * bpow radix2 (-32) /\
  0 <= val (y2 (hammersley i inv)) <= 1.
Proof.
  intros i inv Hi. destruct (reverse_spec i Hi) as [R _]. unfold hammersley. cbn [y2].
  destruct (lit_nearest (reverseBits i) ltac:(lia)) as [Fl Vl].
  change (IntVec.rnd32 (IZR (reverseBits i))) with (rnd (IZR (reverseBits i))) in Vl. destruct tof_val as [Ft Vt].
  change (b32_lit (reverseBits i) 0) with (slit (reverseBits i) 0 : f32) in *.
  set (r := rnd (IZR (reverseBits i))) in *.
  assert (B : 0 <= r <= bpow radix2 32).
  { pose proof (rnd_lit 1 32 ltac:(cbn; lia) ltac:(lia)) as K. rewrite Rmult_1_l in K. unfold r. split.
    - rewrite <- rnd_0. apply F32Round.rnd_le, (IZR_le 0). lia.
    - rewrite <- K. apply F32Round.rnd_le. change (bpow radix2 32) with (IZR (2 ^ 32)). apply IZR_le. lia. }
  assert (Hr : 0 <= r * bpow radix2 (-32) <= 1).
  { pose proof (bpow_gt_0 radix2 (-32)). split; [nra|]. replace 1 with (bpow radix2 32 * bpow radix2 (-32)).
    - apply Rmult_le_compat_r; lra.
    - rewrite <- bpow_plus. reflexivity. }
  destruct (mul_small _ _ Fl Ft) as [A V].
  { rewrite Vl, Vt. apply small_le with 1; [|lra]. rewrite Rabs_right; lra. }
  rewrite Vl, Vt in V.
  assert (E : rnd (r * bpow radix2 (-32)) = r * bpow radix2 (-32)).
  { unfold r. destruct (Req_dec (IZR (reverseBits i)) 0) as [Z0|NZ]; [rewrite Z0, rnd_0, Rmult_0_l; apply rnd_0|].
    apply round_generic; [apply valid_rnd_round_mode|].
    assert (P24 : Prec_gt_0 24) by reflexivity.
    change (generic_format radix2 (FLT_exp (-149) 24) (round radix2 (FLT_exp (-149) 24) ZnearestE (IZR (reverseBits i)) * bpow radix2 (-32))).
    destruct (FLT_format_generic radix2 (-149) 24 _ (generic_format_round radix2 (FLT_exp (-149) 24) ZnearestE (IZR (reverseBits i)))) as [f Ef Hm He].
    rewrite Ef.
    (* an integer of at least 1 has exponent at least -23 in canonical form; use the scaled integer *)
    assert (Hge : 1 <= F2R f).
    { rewrite <- Ef. change (1 <= rnd (IZR (reverseBits i))). rewrite <- (rnd_Z 1) by (cbn; lia). apply F32Round.rnd_le.
      apply IZR_le. assert (reverseBits i <> 0)%Z by (intros Z0; apply NZ; rewrite Z0; reflexivity). lia. }
    apply (generic_format_FLT radix2 (-149) 24). apply FLT_spec with (Float radix2 (Fnum f) (Fexp f - 32)).
    - unfold F2R. cbn [Fnum Fexp]. rewrite Rmult_assoc, <- bpow_plus. reflexivity.
    - exact Hm.
    - cbn [Fexp].
      destruct (Z.lt_ge_cases (Fexp f) (-24)) as [L|L]; [|lia]. exfalso. revert Hge. unfold F2R.
      assert (IZR (Fnum f) < bpow radix2 24).
      { change (bpow radix2 24) with (IZR (2 ^ 24)). apply IZR_lt. change (radix2 ^ 24)%Z with (2 ^ 24)%Z in Hm. lia. }
      assert (bpow radix2 (Fexp f) <= bpow radix2 (-25)) by (apply bpow_le; lia).
      pose proof (bpow_gt_0 radix2 (Fexp f)).
      assert (K : bpow radix2 24 * bpow radix2 (-25) < 1) by (rewrite <- bpow_plus; cbn; lra).
      pose proof (bpow_gt_0 radix2 24). nra. }
  rewrite E in V. split; [exact A|]. rewrite V. split; [reflexivity|exact Hr].
Qed.
(** up to 2^24 samples everything is exact, distinct and below 1 *)
Lemma hammersley_small : forall i (inv : f32), (0 <= i < 2 ^ 24)%Z ->
  val (y2 (hammersley i inv)) = IZR (reverseBits i) / 4294967296 /\ 0 <= val (y2 (hammersley i inv)) < 1.
Proof.
  intros i inv Hi. assert (U : u32 i) by (unfold u32; lia).
  destruct (hammersley_y i inv U) as (_ & V & _). destruct (reverse_small i Hi) as (m & E & Hm).
  assert (Er : rnd (IZR (reverseBits i)) = IZR (reverseBits i)).
  { rewrite E, mult_IZR. change (IZR (2 ^ 8)) with (bpow radix2 8). apply rnd_lit; lia. }
  rewrite V, Er. destruct (reverse_spec i U) as [[R1 R2] _]. apply IZR_le in R1. apply IZR_lt in R2.
  change (2 ^ 32)%Z with 4294967296%Z in R2.
  replace (bpow radix2 (-32)) with (/ 4294967296) by (cbn; lra). split; [reflexivity|]. lra.
Qed.
Lemma hammersley_distinct : forall i j (inv : f32), (0 <= i < 2 ^ 24)%Z -> (0 <= j < 2 ^ 24)%Z -> i <> j ->
  val (y2 (hammersley i inv)) <> val (y2 (hammersley j inv)).
Proof.
  intros i j inv Hi Hj N. rewrite (proj1 (hammersley_small i inv Hi)), (proj1 (hammersley_small j inv Hj)).
  intros E. apply N, reverse_distinct; try (unfold u32; lia). apply eq_IZR. lra.
Qed.
(** the first coordinate with the count rounded to binary32 *)
Lemma hammersley_x : forall i n, (0 <= i < n)%Z -> (n <= 2 ^ 23)%Z ->
  let inv := (f1 / slit n 0 : f32)%sc in
  fin (x2 (hammersley i inv)) /\ 0 <= val (x2 (hammersley i inv)) < 1.
Proof.
  intros i n Hi Hn inv. unfold hammersley. cbn [x2]. destruct f1_f as [F1 V1].
  destruct (lit_Z i ltac:(lia)) as [Fi Vi]. destruct (lit_Z n ltac:(lia)) as [Fn Vn].
  assert (N1 : 1 <= IZR n) by (apply IZR_le; lia).
  assert (Nb : IZR n <= 8388608) by (apply (IZR_le n 8388608); lia).
  assert (I0 : 0 <= IZR i) by (apply (IZR_le 0); lia).
  assert (I1 : IZR i + 1 <= IZR n) by (rewrite <- plus_IZR; apply IZR_le; lia).
  assert (Iv : 0 < / IZR n <= 1).
  { split; [apply Rinv_0_lt_compat; lra|]. rewrite <- Rinv_1. apply Rinv_le; lra. }
  destruct (div_small f1 (slit n 0) F1 Fn) as [Fv Vv]; [rewrite Vn; lra| |].
  { rewrite V1, Vn. unfold Rdiv. rewrite Rmult_1_l. apply small_le with 1; [|lra]. rewrite Rabs_right; lra. }
  fold inv in Fv, Vv. rewrite V1, Vn in Vv. unfold Rdiv in Vv. rewrite Rmult_1_l in Vv.
  assert (Hv : 0 <= val inv <= / IZR n + u24 * / IZR n + eta0).
  { rewrite Vv. split; [rewrite <- rnd_0; apply F32Round.rnd_le; lra|].
    pose proof (rnd_err (/ IZR n)) as E. rewrite (Rabs_right (/ IZR n)) in E by lra. apply Rabs_le_inv in E. lra. }
  pose proof u24_val as Eu. pose proof eta0_small as He. pose proof eta0_pos.
  assert (He3 : eta0 <= bpow radix2 (-90)) by (unfold eta0; apply bpow_le; lia).
  assert (Hni : / IZR n * IZR n = 1) by (apply Rinv_l; lra).
  assert (Hb : IZR i * val inv <= 1 - u24).
  { assert (A : IZR i * val inv <= (IZR n - 1) * (/ IZR n + u24 * / IZR n + eta0)).
    { apply Rmult_le_compat; lra. }
    assert (B : (IZR n - 1) * (/ IZR n + u24 * / IZR n + eta0) = 1 + u24 - / IZR n - u24 * / IZR n + (IZR n - 1) * eta0).
    { replace ((IZR n - 1) * (/ IZR n + u24 * / IZR n + eta0)) with ((/ IZR n * IZR n) * (1 + u24) - / IZR n - u24 * / IZR n + (IZR n - 1) * eta0) by ring.
      rewrite Hni. ring. }
    assert (C : / 8388608 <= / IZR n) by (apply Rinv_le; lra).
    assert (D : (IZR n - 1) * eta0 <= 8388608 * bpow radix2 (-90)) by (apply Rmult_le_compat; lra).
    rewrite B in A. clear B. rewrite Eu in A |- *.
    assert (E : / 16777216 * / 8388608 <= / 16777216 * / IZR n) by (apply Rmult_le_compat_l; lra).
    assert (Dd : 8388608 * bpow radix2 (-90) <= / 16777216 * / 8388608) by (cbn; lra).
    lra. }
  assert (H0 : 0 <= IZR i * val inv) by (apply Rmult_le_pos; lra).
  destruct (mul_small (slit i 0) inv Fi Fv) as [A V].
  { rewrite Vi. apply small_le with 1; [|lra]. rewrite Rabs_right; lra. }
  rewrite Vi in V. split; [exact A|]. rewrite V. split.
  - rewrite <- rnd_0. apply F32Round.rnd_le, H0.
  - assert (K : rnd (1 - u24) = 1 - u24).
    { pose proof (rnd_lit 16777215 (-24) ltac:(cbn; lia) ltac:(lia)) as K. change (bpow radix2 (-24)) with u24 in K.
      replace (1 - u24) with (16777215 * u24) by (rewrite Eu; lra). exact K. }
    apply Rle_lt_trans with (1 - u24); [|lra]. rewrite <- K. apply F32Round.rnd_le, Hb.
Qed.
