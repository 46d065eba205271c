(** C143: centre, extent and moves of boxes in binary32. *)
From Coq Require Import ZArith Bool List Reals Lra Lia.
From Flocq Require Import Core.Core Mult_error IEEE754.Binary IEEE754.Bits.
From Verif.Model Require Import Outcome Scalar Vec Simd Aabb.
From Verif.Spec Require Import BoxErrSpec.
From Verif.Proofs Require Import OrdScalar F32Round F32Err NumericProofs SphereErr SatErr AabbWitness.
Import ListNotations.
Local Open Scope R_scope.

#[local] Instance prec24 : Prec_gt_0 24 := eq_refl.
(** ** Rounding *)
Notation big := (bpow radix2 126).
Lemma big2 : bpow radix2 127 = 2 * big. Proof. change 127%Z with (1 + 126)%Z. rewrite bpow_plus. reflexivity. Qed.
Lemma big1 : big = 2 * bpow radix2 125. Proof. change 126%Z with (1 + 125)%Z. rewrite bpow_plus. reflexivity. Qed.
Lemma big_pos : 0 < bpow radix2 125. Proof. apply bpow_gt_0. Qed.
Lemma eta_val : bpow radix2 (-147) = 8 * eta0.
Proof. unfold eta0. change (-147)%Z with (3 + -150)%Z. rewrite bpow_plus. reflexivity. Qed.
Lemma format_val : forall x : f32, generic_format radix2 (FLT_exp (-149) 24) (val x).
Proof. intros x. apply (generic_format_B2R 24 128 x). Qed.
Lemma grid_val : forall x : f32, grid (-149) (val x).
Proof.
  intros x. destruct (FLT_format_generic radix2 (-149) 24 _ (format_val x)) as [[m e] E M L]. cbn [Fnum Fexp] in *.
  apply (grid_finer e); [exact L|]. exists m. exact E.
Qed.
Lemma rnd_format : forall x, generic_format radix2 (FLT_exp (-149) 24) x -> rnd x = x.
Proof. intros x H. apply round_generic; [apply valid_rnd_N|exact H]. Qed.
Lemma twice_exact : forall x : f32, rnd (2 * val x) = 2 * val x.
Proof.
  intros x. apply rnd_format. replace (2 * val x) with (val x * bpow radix2 1) by (cbn; lra). apply mult_bpow_pos_exact_FLT; [apply format_val|lia].
Qed.
(** sums and differences of binary32 numbers: exact when tiny, else relative error *)
Lemma tiny_exact : forall w, grid (-149) w -> Rabs w < bpow radix2 (-125) -> rnd w = w.
Proof.
  intros w [m ->] H. apply rnd_lit; [|lia]. rewrite Rabs_mult, (Rabs_pos_eq (bpow radix2 (-149))) in H by apply bpow_ge_0.
  change (-125)%Z with (24 + -149)%Z in H. rewrite bpow_plus in H. apply Rmult_lt_reg_r in H; [|apply bpow_gt_0].
  rewrite <- abs_IZR in H. apply lt_IZR. exact H.
Qed.
Lemma grid_err : forall w, grid (-149) w -> Rabs (rnd w - w) <= u24 * Rabs w.
Proof.
  intros w G. destruct (Rlt_dec (Rabs w) (bpow radix2 (-125))) as [T|T].
  - rewrite (tiny_exact w G T), Rminus_eq_0, Rabs_R0. rewrite u24_val. pose proof (Rabs_pos w). lra.
  - destruct (RayErr.rel_normal w) as (e & He & ->); [apply Rle_trans with (bpow radix2 (-125)); [apply bpow_le; lia|lra]|].
    replace (w * (1 + e) - w) with (e * w) by ring. rewrite Rabs_mult. apply Rmult_le_compat_r; [apply Rabs_pos|exact He].
Qed.
(** halving *)
Lemma half_err : forall x, generic_format radix2 (FLT_exp (-149) 24) x -> Rabs (rnd (x / 2) - x / 2) <= 2 * eta0.
Proof.
  intros x Fx. pose proof eta0_pos as E0. destruct (Rlt_dec (Rabs x) (bpow radix2 (-125))) as [T|T].
  - pose proof (rnd_err (x / 2)) as R. assert (H : Rabs (x / 2) <= bpow radix2 (-126)).
    { unfold Rdiv. rewrite Rabs_mult, (Rabs_pos_eq (/ 2)) by lra. change (-125)%Z with (1 + -126)%Z in T. rewrite bpow_plus in T. change (bpow radix2 1) with 2 in T. lra. }
    assert (E : u24 * bpow radix2 (-126) = eta0). { rewrite u24_val. unfold eta0. change (-126)%Z with (24 + -150)%Z. rewrite bpow_plus. change (bpow radix2 24) with 16777216. field. }
    rewrite u24_val in *. lra.
  - rewrite rnd_format; [rewrite Rminus_eq_0, Rabs_R0; lra|]. replace (x / 2) with (x * bpow radix2 (-1)) by (cbn; lra).
    apply mult_bpow_exact_FLT; [exact Fx|]. assert (mag radix2 x > -125)%Z; [|lia]. apply Z.lt_gt. apply mag_gt_bpow. lra.
Qed.
Lemma half_rnd : forall x : f32, fin x -> fin (x * fhalf)%sc /\ val (x * fhalf)%sc = rnd (val x / 2).
Proof.
  intros x F. destruct half_val as [Fh Vh]. assert (V' : val (fhalf : f32) = / 2) by exact Vh.
  assert (S : Rabs (val x) < maxF) by apply abs_B2R_lt_emax. pose proof (Rabs_pos (val x)) as P.
  assert (B : Rabs (val x / 2) <= Rabs (val x)) by (unfold Rdiv; rewrite Rabs_mult, (Rabs_pos_eq (/ 2)); lra).
  assert (K : Rabs (rnd (val x / 2)) <= Rabs (val x)).
  { apply Rabs_le_inv in B. apply Rabs_le. pose proof (rnd_le _ _ (proj1 B)) as L. pose proof (rnd_le _ _ (proj2 B)) as U. rewrite rnd_opp in L.
    assert (E : rnd (Rabs (val x)) = Rabs (val x)).
    { destruct (Rle_dec 0 (val x)); [rewrite Rabs_pos_eq by assumption; apply rnd_val|]. rewrite Rabs_left by lra. rewrite rnd_opp, rnd_val. reflexivity. }
    rewrite E in L, U. lra. }
  destruct (mul_fin x fhalf F Fh) as [N E]. change (val fhalf) with (val (fhalf : f32)) in E. rewrite V' in E. fold (val x / 2) in E. unfold RX in E. rewrite clampR_id in E by lra.
  assert (F' : fin (x * fhalf)%sc) by (apply ext_fin; [exact N|]; rewrite E; apply Rabs_le_inv in K; lra).
  rewrite fin_ext in E by exact F'. split; assumption.
Qed.
Lemma sum_safe : forall a b, Rabs a <= big -> Rabs b <= big -> small (a + b) /\ small (a - b).
Proof.
  intros a b A B. unfold small. rewrite big2. split; [|unfold Rminus].
  - pose proof (Rabs_triang a b). lra.
  - pose proof (Rabs_triang a (- b)) as T. rewrite Rabs_Ropp in T. lra.
Qed.
Lemma max_sum : forall a b, (Rabs (a + b) + Rabs (b - a)) / 2 = Rmax (Rabs a) (Rabs b).
Proof. intros a b. unfold Rmax. destruct (Rle_dec (Rabs a) (Rabs b)); unfold Rabs in *; repeat destruct Rcase_abs; lra. Qed.
Lemma rnd_near : forall x y d, Rabs (x - y) <= d -> Rabs (rnd x - y) <= d + u24 * (Rabs y + d) + eta0.
Proof.
  intros x y d H. pose proof (rnd_err x) as R. pose proof (Rabs_triang (rnd x - x) (x - y)) as T. replace (rnd x - x + (x - y)) with (rnd x - y) in T by ring.
  pose proof (Rabs_triang (x - y) y) as T'. replace (x - y + y) with x in T' by ring. rewrite u24_val in *. lra.
Qed.

(** ** One axis *)
Lemma halved : forall w, grid (-149) w -> Rabs (rnd (rnd w / 2) - w / 2) <= u24 * (Rabs w / 2) + 2 * eta0.
Proof.
  intros w G. pose proof (grid_err w G) as E. pose proof (half_err (rnd w) (generic_format_round radix2 (FLT_exp (-149) 24) ZnearestE w)) as H.
  pose proof (Rabs_triang (rnd (rnd w / 2) - rnd w / 2) ((rnd w - w) * / 2)) as T. replace (rnd (rnd w / 2) - rnd w / 2 + (rnd w - w) * / 2) with (rnd (rnd w / 2) - w / 2) in T by field.
  rewrite (Rabs_mult (rnd w - w)), (Rabs_pos_eq (/ 2)) in T by lra. rewrite u24_val in *. lra.
Qed.
Lemma centre1 : forall a b : f32, fin a -> fin b -> Rabs (val a) <= big -> Rabs (val b) <= big -> let c := ((a + b) * fhalf)%sc in
  fin c /\ Rabs (val c - (val a + val b) / 2) <= u24 * (Rabs (val a + val b) / 2) + 2 * eta0 /\ (val a <= val b -> val a <= val c <= val b).
Proof.
  intros a b Fa Fb Ba Bb c. destruct (add_small a b Fa Fb) as [F V]; [apply sum_safe; assumption|]. destruct (half_rnd _ F) as (Fc & Vc). fold c in Fc, Vc.
  rewrite V in Vc. split; [exact Fc|]. rewrite Vc. split; [apply halved, grid_add; apply grid_val|]. intros L.
  pose proof (rnd_le (2 * val a) (val a + val b) ltac:(lra)) as L1. pose proof (rnd_le (val a + val b) (2 * val b) ltac:(lra)) as L2. rewrite twice_exact in L1, L2.
  pose proof (rnd_le (val a) (rnd (val a + val b) / 2) ltac:(lra)) as L3. pose proof (rnd_le (rnd (val a + val b) / 2) (val b) ltac:(lra)) as L4. rewrite rnd_val in L3, L4. lra.
Qed.
Lemma extent1 : forall a b : f32, fin a -> fin b -> Rabs (val a) <= big -> Rabs (val b) <= big -> let e := ((b - a) * fhalf)%sc in
  fin e /\ Rabs (val e - (val b - val a) / 2) <= u24 * (Rabs (val b - val a) / 2) + 2 * eta0 /\ (val a <= val b -> 0 <= val e <= val b - val a).
Proof.
  intros a b Fa Fb Ba Bb e. destruct (sub_small b a Fb Fa) as [F V]; [apply sum_safe; assumption|]. destruct (half_rnd _ F) as (Fc & Vc). fold e in Fc, Vc.
  assert (G : grid (-149) (val b - val a)) by (apply grid_sub; apply grid_val).
  rewrite V in Vc. split; [exact Fc|]. rewrite Vc. pose proof (halved _ G) as H. split; [exact H|]. intros L. set (w := val b - val a) in *. assert (W : 0 <= w) by (unfold w; lra).
  pose proof (rnd_le 0 w W) as L0. rewrite rnd_0 in L0. pose proof (rnd_le 0 (rnd w / 2) ltac:(lra)) as L3. rewrite rnd_0 in L3. split; [exact L3|].
  destruct (Rlt_dec (Rabs w) (bpow radix2 (-125))) as [T|T].
  - pose proof (tiny_exact w G T) as E. pose proof (rnd_le (w / 2) w ltac:(lra)) as L1. rewrite E in *. exact L1.
  - rewrite (Rabs_pos_eq w W) in H, T. apply Rabs_le_inv in H. assert (E : 8 * eta0 <= w).
    { rewrite <- eta_val. apply Rle_trans with (bpow radix2 (-125)); [apply bpow_le; lia|lra]. }
    rewrite u24_val in H. lra.
Qed.
Lemma corner1 : forall a b : f32, fin a -> fin b -> Rabs (val a) <= big -> Rabs (val b) <= big -> let q := (a + (b - a) * fhalf)%sc in
  fin q /\ within 1.01 (Rmax (Rabs (val a)) (Rabs (val b))) (val q) ((val a + val b) / 2) /\ (val a <= val b -> val a <= val q <= val b).
Proof.
  intros a b Fa Fb Ba Bb q. destruct (extent1 a b Fa Fb Ba Bb) as (Fe & He & Le). cbv zeta in *. set (e := ((b - a) * fhalf)%sc) in *. clearbody e.
  rewrite <- max_sum. pose proof eta0_pos as E0. pose proof (Rabs_pos (val a + val b)) as P1. pose proof (Rabs_pos (val b - val a)) as P2.
  assert (S : small (val a + val e)).
  { unfold small. rewrite big2. pose proof (Rabs_triang (val e - (val b - val a) / 2) ((val b - val a) / 2 + val a)) as T.
    replace (val e - (val b - val a) / 2 + ((val b - val a) / 2 + val a)) with (val a + val e) in T by ring.
    replace ((val b - val a) / 2 + val a) with ((val a + val b) * / 2) in T by field. rewrite (Rabs_mult (val a + val b)), (Rabs_pos_eq (/ 2)) in T by lra.
    pose proof (Rabs_triang (val a) (val b)). pose proof (Rabs_triang (val b) (- val a)) as T2. rewrite Rabs_Ropp in T2. fold (val b - val a) in T2.
    rewrite u24_val in He. pose proof eta0_small. assert (1 <= big) by (change 1 with (bpow radix2 0); apply bpow_le; lia). lra. }
  destruct (add_small a e Fa Fe S) as [F V]. fold q in F, V. split; [exact F|]. rewrite V. split.
  - unfold within. rewrite eta_val. assert (H : Rabs (val a + val e - (val a + val b) / 2) <= u24 * (Rabs (val b - val a) / 2) + 2 * eta0).
    { replace (val a + val e - (val a + val b) / 2) with (val e - (val b - val a) / 2) by field. exact He. }
    apply rnd_near in H. assert (K : Rabs ((val a + val b) / 2) = Rabs (val a + val b) / 2) by (unfold Rdiv; rewrite Rabs_mult, (Rabs_pos_eq (/ 2)); lra).
    rewrite K, u24_val in H. lra.
  - intros L. specialize (Le L). pose proof (rnd_le (val a) (val a + val e) ltac:(lra)) as L3. pose proof (rnd_le (val a + val e) (val b) ltac:(lra)) as L4. rewrite rnd_val in L3, L4. lra.
Qed.
(** the corners made of a position and an extent *)
Section Build.
  Variables (q e : f32) (Fq : fin q) (Fe : fin e) (Bq : Rabs (val q) <= bpow radix2 125) (Be : Rabs (val e) <= bpow radix2 125).
  Lemma build1 : fin (q - e)%sc /\ fin (q + e)%sc /\ Rabs (val (q - e)%sc) <= big /\ Rabs (val (q + e)%sc) <= big /\
    Rabs (val (q - e)%sc - (val q - val e)) <= u24 * Rabs (val q - val e) /\ Rabs (val (q + e)%sc - (val q + val e)) <= u24 * Rabs (val q + val e) /\
    (0 <= val e -> val (q - e)%sc <= val q <= val (q + e)%sc).
  Proof.
    pose proof big_pos as P. assert (Bq' : Rabs (val q) <= big) by (rewrite big1; lra). assert (Be' : Rabs (val e) <= big) by (rewrite big1; lra).
    destruct (sum_safe (val q) (val e) Bq' Be') as [S1 S2].
    destruct (add_small q e Fq Fe S1) as [F1 V1]. destruct (sub_small q e Fq Fe S2) as [F2 V2].
    assert (R : forall x, Rabs x <= big -> Rabs (rnd x) <= big).
    { intros x H. assert (E : rnd big = big) by (pose proof (rnd_lit 1 126 ltac:(lia) ltac:(lia)) as L; rewrite Rmult_1_l in L; exact L).
      apply Rabs_le_inv in H. apply Rabs_le. pose proof (rnd_le _ _ (proj1 H)) as L3. pose proof (rnd_le _ _ (proj2 H)) as L4. rewrite rnd_opp in L3. rewrite E in L3, L4. lra. }
    split; [exact F2|]. split; [exact F1|]. rewrite V1, V2. pose proof (Rabs_triang (val q) (val e)) as T1. pose proof (Rabs_triang (val q) (- val e)) as T2. rewrite Rabs_Ropp in T2.
    split; [apply R; unfold Rminus; rewrite big1; lra|]. split; [apply R; rewrite big1; lra|].
    split; [apply grid_err, grid_sub; apply grid_val|]. split; [apply grid_err, grid_add; apply grid_val|].
    intros L. pose proof (rnd_le (val q - val e) (val q) ltac:(lra)) as L3. pose proof (rnd_le (val q) (val q + val e) ltac:(lra)) as L4. rewrite rnd_val in L3, L4. lra.
  Qed.
  Lemma back1 : let a := (q - e)%sc in let b := (q + e)%sc in
    within 2.01 (Rmax (Rabs (val q)) (Rabs (val e))) (val ((a + b) * fhalf)%sc) (val q) /\ within 2.01 (Rmax (Rabs (val q)) (Rabs (val e))) (val ((b - a) * fhalf)%sc) (val e).
  Proof.
    intros a b. destruct build1 as (Fa & Fb & Ba & Bb & Ea & Eb & _). fold a b in Fa, Fb, Ba, Bb, Ea, Eb.
    destruct (centre1 a b Fa Fb Ba Bb) as (_ & C & _). destruct (extent1 a b Fa Fb Ba Bb) as (_ & X & _). cbv zeta in *.
    set (c := ((a + b) * fhalf)%sc) in *. set (x := ((b - a) * fhalf)%sc) in *. clearbody c x a b. unfold within. rewrite eta_val. rewrite <- max_sum.
    pose proof eta0_pos as E0. rewrite (Rabs_minus_sym (val e)). set (m1 := Rabs (val q + val e)) in *. set (m2 := Rabs (val q - val e)) in *.
    assert (0 <= m1) by apply Rabs_pos. assert (0 <= m2) by apply Rabs_pos.
    assert (Q1 : Rabs (val q) <= (m1 + m2) / 2). { unfold m1, m2. rewrite (Rabs_minus_sym (val q)), max_sum. apply Rmax_l. }
    assert (Q2 : Rabs (val e) <= (m1 + m2) / 2). { unfold m1, m2. rewrite (Rabs_minus_sym (val q)), max_sum. apply Rmax_r. }
    rewrite u24_val in *.
    assert (S1 : Rabs (val a + val b - 2 * val q) <= / 16777216 * (m1 + m2)).
    { pose proof (Rabs_triang (val a - (val q - val e)) (val b - (val q + val e))) as T. replace (val a - (val q - val e) + (val b - (val q + val e))) with (val a + val b - 2 * val q) in T by ring. lra. }
    assert (S2 : Rabs (val b - val a - 2 * val e) <= / 16777216 * (m1 + m2)).
    { pose proof (Rabs_triang (val b - (val q + val e)) (- (val a - (val q - val e)))) as T. rewrite Rabs_Ropp in T. replace (val b - (val q + val e) + - (val a - (val q - val e))) with (val b - val a - 2 * val e) in T by ring. lra. }
    assert (G : forall z s t, Rabs (z - s / 2) <= / 16777216 * (Rabs s / 2) + 2 * eta0 -> Rabs (s - 2 * t) <= / 16777216 * (m1 + m2) -> Rabs t <= (m1 + m2) / 2 ->
      Rabs (z - t) <= 2.01 / 16777216 * ((m1 + m2) / 2) + 8 * eta0).
    { intros z s t H1 H2 H3. pose proof (Rabs_triang (z - s / 2) ((s - 2 * t) * / 2)) as T. replace (z - s / 2 + (s - 2 * t) * / 2) with (z - t) in T by field.
      rewrite (Rabs_mult (s - 2 * t)), (Rabs_pos_eq (/ 2)) in T by lra. pose proof (Rabs_triang (s - 2 * t) (2 * t)) as T2. replace (s - 2 * t + 2 * t) with s in T2 by ring.
      rewrite (Rabs_mult 2), (Rabs_pos_eq 2) in T2 by lra. lra. }
    split; eapply G; eassumption.
  Qed.
End Build.
(** taking a box apart and putting it together *)
Lemma rebuild1 : forall a b : f32, fin a -> fin b -> Rabs (val a) <= big -> Rabs (val b) <= big -> let c := ((a + b) * fhalf)%sc in let e := ((b - a) * fhalf)%sc in
  within 2.01 (Rmax (Rabs (val a)) (Rabs (val b))) (val (c - e)%sc) (val a) /\ within 2.01 (Rmax (Rabs (val a)) (Rabs (val b))) (val (c + e)%sc) (val b).
Proof.
  intros a b Fa Fb Ba Bb c e. destruct (centre1 a b Fa Fb Ba Bb) as (Fc & C & _). destruct (extent1 a b Fa Fb Ba Bb) as (Fe & X & _). cbv zeta in *. fold c in Fc, C. fold e in Fe, X. clearbody c e.
  unfold within. rewrite eta_val, <- max_sum. pose proof eta0_pos as E0.
  set (m1 := Rabs (val a + val b)) in *. set (m2 := Rabs (val b - val a)) in *. assert (0 <= m1) by apply Rabs_pos. assert (0 <= m2) by apply Rabs_pos.
  assert (Q1 : Rabs (val a) <= (m1 + m2) / 2) by (unfold m1, m2; rewrite max_sum; apply Rmax_l).
  assert (Q2 : Rabs (val b) <= (m1 + m2) / 2) by (unfold m1, m2; rewrite max_sum; apply Rmax_r).
  assert (Q3 : (m1 + m2) / 2 <= big) by (unfold m1, m2; rewrite max_sum; apply Rmax_lub; assumption).
  rewrite u24_val in *.
  assert (D1 : Rabs (val c - val e - val a) <= / 16777216 * ((m1 + m2) / 2) + 4 * eta0).
  { pose proof (Rabs_triang (val c - (val a + val b) / 2) (- (val e - (val b - val a) / 2))) as T. rewrite Rabs_Ropp in T.
    replace (val c - (val a + val b) / 2 + - (val e - (val b - val a) / 2)) with (val c - val e - val a) in T by field. lra. }
  assert (D2 : Rabs (val c + val e - val b) <= / 16777216 * ((m1 + m2) / 2) + 4 * eta0).
  { pose proof (Rabs_triang (val c - (val a + val b) / 2) (val e - (val b - val a) / 2)) as T.
    replace (val c - (val a + val b) / 2 + (val e - (val b - val a) / 2)) with (val c + val e - val b) in T by field. lra. }
  assert (S : forall x y, Rabs (x - y) <= / 16777216 * ((m1 + m2) / 2) + 4 * eta0 -> Rabs y <= (m1 + m2) / 2 -> small x).
  { intros x y H1 H2. unfold small. rewrite big2. pose proof (Rabs_triang (x - y) y) as T. replace (x - y + y) with x in T by ring. pose proof eta0_small.
    assert (1 <= big) by (change 1 with (bpow radix2 0); apply bpow_le; lia). lra. }
  destruct (sub_small c e Fc Fe (S _ _ D1 Q1)) as [_ ->]. destruct (add_small c e Fc Fe (S _ _ D2 Q2)) as [_ ->].
  apply rnd_near in D1, D2. rewrite u24_val in *. split; lra.
Qed.

(** ** Boxes *)
Lemma each : forall P : (vec4 f32 -> f32) -> Prop, P vx -> P vy -> P vz -> forall i, In i axes -> P i.
Proof. intros P X Y Z i [<-|[<-|[<-|[]]]]; assumption. Qed.
Lemma lane_pos : forall i (b : aabb f32), In i axes -> i (getPosition b) = ((i (bmin b) + i (bmax b)) * fhalf)%sc.
Proof. intros i b. revert i. apply each; reflexivity. Qed.
Lemma lane_ext : forall i (b : aabb f32), In i axes -> i (getExtent b) = ((i (bmax b) - i (bmin b)) * fhalf)%sc.
Proof. intros i b. revert i. apply each; reflexivity. Qed.
Lemma lane_ext2 : forall i (b : aabb f32), In i axes -> i (fst (getExtentPos b)) = ((i (bmax b) - i (bmin b)) * fhalf)%sc /\
  i (snd (getExtentPos b)) = (i (bmin b) + (i (bmax b) - i (bmin b)) * fhalf)%sc.
Proof. intros i b. revert i. apply each; split; reflexivity. Qed.
Lemma lane_set : forall i (e q : vec4 f32), In i axes -> i (bmin (setExtent e q)) = (i q - i e)%sc /\ i (bmax (setExtent e q)) = (i q + i e)%sc /\
  i (bmin (setSize e q)) = (i q - i e * fhalf)%sc /\ i (bmax (setSize e q)) = (i q + i e * fhalf)%sc.
Proof. intros i e q. revert i. apply each; repeat split; reflexivity. Qed.
Lemma lane_move : forall i (b : aabb f32) t v, In i axes -> i (bmin (translateBox b t)) = (i (bmin b) + i t)%sc /\ i (bmax (translateBox b t)) = (i (bmax b) + i t)%sc /\ i (vadd v t) = (i v + i t)%sc.
Proof. intros i b t v. revert i. apply each; repeat split; reflexivity. Qed.
Notation larger b i := (Rmax (Rabs (on i (bmin b))) (Rabs (on i (bmax b)))).
Theorem box_centre : forall b, properBox b -> inside b (getPosition b) /\ inside b (snd (getExtentPos b)) /\
  forall i, In i axes -> within 1 (Rabs (on i (bmin b) + on i (bmax b)) / 2) (on i (getPosition b)) ((on i (bmin b) + on i (bmax b)) / 2) /\
    within 1.01 (larger b i) (on i (snd (getExtentPos b))) ((on i (bmin b) + on i (bmax b)) / 2) /\
    0 <= on i (getExtent b) /\ within 1 ((on i (bmax b) - on i (bmin b)) / 2) (on i (getExtent b)) ((on i (bmax b) - on i (bmin b)) / 2) /\ on i (fst (getExtentPos b)) = on i (getExtent b).
Proof.
  intros b (Lo & Hi & Ord). pose proof eta0_pos as E0.
  assert (G : forall i, In i axes -> (fin (i (getPosition b)) /\ on i (bmin b) <= on i (getPosition b) <= on i (bmax b)) /\ (fin (i (snd (getExtentPos b))) /\ on i (bmin b) <= on i (snd (getExtentPos b)) <= on i (bmax b)) /\
    within 1 (Rabs (on i (bmin b) + on i (bmax b)) / 2) (on i (getPosition b)) ((on i (bmin b) + on i (bmax b)) / 2) /\
    within 1.01 (larger b i) (on i (snd (getExtentPos b))) ((on i (bmin b) + on i (bmax b)) / 2) /\
    0 <= on i (getExtent b) /\ within 1 ((on i (bmax b) - on i (bmin b)) / 2) (on i (getExtent b)) ((on i (bmax b) - on i (bmin b)) / 2) /\ on i (fst (getExtentPos b)) = on i (getExtent b)).
  { intros i Hi'. destruct (Lo i Hi') as [Fa Ba], (Hi i Hi') as [Fb Bb]. pose proof (Ord i Hi') as L. unfold on in *. rewrite (lane_pos i b Hi'), (lane_ext i b Hi').
    destruct (lane_ext2 i b Hi') as [-> ->].
    destruct (centre1 _ _ Fa Fb Ba Bb) as (F1 & C1 & I1), (extent1 _ _ Fa Fb Ba Bb) as (F2 & C2 & I2), (corner1 _ _ Fa Fb Ba Bb) as (F3 & C3 & I3). cbv zeta in *.
    specialize (I1 L). specialize (I2 L). specialize (I3 L). split; [split; [exact F1|exact I1]|]. split; [split; [exact F3|exact I3]|].
    unfold within in *. rewrite eta_val in *. rewrite u24_val in C1, C2. rewrite (Rabs_pos_eq (val (i (bmax b)) - val (i (bmin b)))) in C2 by lra.
    split; [eapply Rle_trans; [exact C1|]; lra|]. split; [exact C3|]. split; [apply I2|]. split; [eapply Rle_trans; [exact C2|]; lra|reflexivity]. }
  split; [intros i Hi'; apply (G i Hi')|]. split; [intros i Hi'; apply (G i Hi')|]. intros i Hi'. destruct (G i Hi') as (_ & _ & K). exact K.
Qed.
Lemma halves : forall x : f32, fin x -> 0 <= val x <= bpow radix2 125 -> fin (x * fhalf)%sc /\ 0 <= val (x * fhalf)%sc /\ Rabs (val (x * fhalf)%sc) <= bpow radix2 125.
Proof.
  intros x F H. destruct (half_rnd x F) as [F' V]. split; [exact F'|]. rewrite V. pose proof (rnd_le 0 (val x / 2) ltac:(lra)) as L. pose proof (rnd_le (val x / 2) (val x) ltac:(lra)) as U.
  rewrite rnd_0 in L. rewrite rnd_val in U. split; [exact L|]. rewrite Rabs_pos_eq; lra.
Qed.
Theorem box_around : forall e q, upTo 125 e -> upTo 125 q -> (forall i, In i axes -> 0 <= on i e) -> inside (setExtent e q) q /\ inside (setSize e q) q.
Proof.
  intros e q He Hq P. split; intros i Hi; destruct (He i Hi) as [Fe Be], (Hq i Hi) as [Fq Bq]; pose proof (P i Hi) as Pe; destruct (lane_set i e q Hi) as (L1 & L2 & L3 & L4); (split; [exact Fq|]); unfold on in *.
  - rewrite L1, L2. apply (build1 _ _ Fq Fe Bq Be). exact Pe.
  - rewrite L3, L4. rewrite Rabs_pos_eq in Be by exact Pe. destruct (halves _ Fe (conj Pe Be)) as (F & N & B). apply (build1 _ _ Fq F Bq B). exact N.
Qed.
Theorem box_back : forall e q, upTo 125 e -> upTo 125 q -> forall i, In i axes -> let m := Rmax (Rabs (on i q)) (Rabs (on i e)) in
  within 2.01 m (on i (getPosition (setExtent e q))) (on i q) /\ within 2.01 m (on i (getExtent (setExtent e q))) (on i e).
Proof.
  intros e q He Hq i Hi m. destruct (He i Hi) as [Fe Be], (Hq i Hi) as [Fq Bq]. destruct (lane_set i e q Hi) as (L1 & L2 & _).
  unfold m, on in *. rewrite (lane_pos _ _ Hi), (lane_ext _ _ Hi), L1, L2. apply (back1 _ _ Fq Fe Bq Be).
Qed.
Theorem box_rebuild : forall b, properBox b -> forall i, In i axes -> let r := setExtent (getExtent b) (getPosition b) in
  within 2.01 (larger b i) (on i (bmin r)) (on i (bmin b)) /\ within 2.01 (larger b i) (on i (bmax r)) (on i (bmax b)).
Proof.
  intros b (Lo & Hi & Ord) i Hi' r. destruct (Lo i Hi') as [Fa Ba], (Hi i Hi') as [Fb Bb]. destruct (lane_set i (getExtent b) (getPosition b) Hi') as (L1 & L2 & _).
  unfold r, on in *. rewrite L1, L2, (lane_pos _ _ Hi'), (lane_ext _ _ Hi'). apply (rebuild1 _ _ Fa Fb Ba Bb).
Qed.
Theorem box_move : forall b t v, properBox b -> upTo 126 t -> inside b v -> inside (translateBox b t) (vadd v t).
Proof.
  intros b t v (Lo & Hi & _) Ht Hv i Hi'. destruct (Lo i Hi') as [Fa Ba], (Hi i Hi') as [Fb Bb], (Ht i Hi') as [Ft Bt], (Hv i Hi') as [Fv [V1 V2]].
  destruct (lane_move i b t v Hi') as (L1 & L2 & L3). unfold on in *. rewrite L1, L2, L3.
  assert (Bv : Rabs (val (i v)) <= big) by (apply Rabs_le_inv in Ba, Bb; apply Rabs_le; lra).
  destruct (add_small _ _ Fa Ft (proj1 (sum_safe _ _ Ba Bt))) as [F1 ->], (add_small _ _ Fb Ft (proj1 (sum_safe _ _ Bb Bt))) as [F2 ->], (add_small _ _ Fv Ft (proj1 (sum_safe _ _ Bv Bt))) as [F3 V3].
  split; [exact F3|]. change (B2R 24 128 (i v + i t)%sc) with (val (i v + i t)%sc). rewrite V3. split; apply rnd_le; lra.
Qed.

(** ** What does not hold *)
Notation same x := (V4 x x x (f0 : f32)).
Lemma up_same : forall k (x : f32), fin x -> Rabs (val x) <= bpow radix2 k -> upTo k (same x).
Proof. intros k x F B i. revert i. apply each; split; assumption. Qed.
Lemma lit_up : forall m e, (Z.abs m < 2 ^ 24)%Z -> (-149 <= e <= 1)%Z -> fin (slit m e : f32) /\ val (slit m e : f32) = IZR m * bpow radix2 e /\ Rabs (val (slit m e : f32)) <= bpow radix2 125.
Proof.
  intros m e Hm He. destruct (lit_exact m e Hm ltac:(lia)) as [F V]. split; [exact F|]. split; [exact V|]. rewrite V, Rabs_mult, (Rabs_pos_eq (bpow radix2 e)) by apply bpow_ge_0.
  apply Rle_trans with (bpow radix2 24 * bpow radix2 e); [apply Rmult_le_compat_r; [apply bpow_ge_0|]; rewrite <- abs_IZR; change (bpow radix2 24) with (IZR (2 ^ 24)); apply IZR_le; lia|].
  rewrite <- bpow_plus. apply bpow_le. lia.
Qed.
(** the box taken apart and put together again does not cover the box *)
Lemma not_covered : exists b v, properBox b /\ inside b v /\ ~ inside (setExtent (getExtent b) (getPosition b)) v.
Proof.
  destruct (lit_up 1 0 ltac:(lia) ltac:(lia)) as (F1 & V1 & B1). destruct (lit_up 8388609 (-23) ltac:(lia) ltac:(lia)) as (F2 & V2 & B2).
  pose proof big_pos as P. assert (Bb : bpow radix2 125 <= big) by (rewrite big1; lra).
  set (x := slit 1 0 : f32) in *. set (y := slit 8388609 (-23) : f32) in *.
  assert (L : val x <= val y) by (rewrite V1, V2; change (bpow radix2 0) with 1; change (bpow radix2 (-23)) with (/ 8388608); lra).
  exists (mkAabb (same x) (same y)), (same y). split; [|split].
  - split; [apply up_same; [exact F1|lra]|]. split; [apply up_same; [exact F2|lra]|]. cbn [bmin bmax]. apply each; exact L.
  - intros i. revert i. cbn [bmin bmax]. apply each; (split; [exact F2|split; [exact L|apply Rle_refl]]).
  - intros H. destruct (H vx (or_introl eq_refl)) as [_ [_ K]]. unfold on in K. cbn [vx] in K.
    assert (E : vx (bmax (setExtent (getExtent (mkAabb (same x) (same y))) (getPosition (mkAabb (same x) (same y))))) = x) by (apply same_bits; vm_compute; reflexivity).
    rewrite E in K. rewrite V1, V2 in K. change (bpow radix2 0) with 1 in K. change (bpow radix2 (-23)) with (/ 8388608) in K. lra.
Qed.
(** a small box away from the origin has no extent *)
Lemma extent_lost : exists e q, upTo 125 e /\ upTo 125 q /\ (forall i, In i axes -> on i e = bpow radix2 (-25) /\ on i q = 2 /\ on i (getExtent (setExtent e q)) = 0).
Proof.
  destruct (lit_up 1 (-25) ltac:(lia) ltac:(lia)) as (F1 & V1 & B1). destruct (lit_up 2 0 ltac:(lia) ltac:(lia)) as (F2 & V2 & B2).
  set (x := slit 1 (-25) : f32) in *. set (y := slit 2 0 : f32) in *. exists (same x), (same y). split; [apply up_same; assumption|]. split; [apply up_same; assumption|].
  assert (Z : ((y + x - (y - x)) * fhalf)%sc = f0) by (apply same_bits; vm_compute; reflexivity).
  assert (V2' : val y = 2) by (rewrite V2; change (bpow radix2 0) with 1; lra). rewrite Rmult_1_l in V1.
  intros i Hi. unfold on. rewrite (lane_ext _ _ Hi). destruct (lane_set i (same x) (same y) Hi) as (-> & -> & _).
  revert i Hi. apply each; (split; [exact V1|]; split; [exact V2'|]; cbn [vx vy vz]; rewrite Z; reflexivity).
Qed.
(** without the bound on the coordinates the centre of a proper box can be infinite *)
Lemma centre_overflow : exists b, (forall i, In i axes -> fin (i (bmin b)) /\ fin (i (bmax b)) /\ on i (bmin b) <= on i (bmax b)) /\ ~ inside b (getPosition b).
Proof.
  exists (mkAabb (same (fltMax : f32)) (same (fltMax : f32))). assert (F : fin (fltMax : f32)) by (vm_compute; reflexivity). split.
  - intros i. revert i. cbn [bmin bmax]. apply each; (split; [exact F|]; split; [exact F|apply Rle_refl]).
  - intros H. destruct (H vx (or_introl eq_refl)) as [K _]. assert (X : is_finite 24 128 (vx (getPosition (mkAabb (same (fltMax : f32)) (same (fltMax : f32))))) = false) by (vm_compute; reflexivity).
    rewrite X in K. discriminate K.
Qed.
