(** View matrices in binary32. *)
From Coq Require Import ZArith Bool List Reals Lra Lia Psatz.
From Flocq Require Import Core.Core IEEE754.Binary.
From Verif.Model Require Import Scalar Vec Simd Lanes Matrix Transform.
From Verif.Spec Require Import ViewSpec.
From Verif.Proofs Require Import OrdScalar F32Round F32Err Approx NormProofs RayErr SphereErr CullProofs DepthProofs NumericProofs MatErrProofs QuatErr QuatRot QuatMat ModelErr.
Import ListNotations.
Local Open Scope R_scope.

(** ** Real vectors *)
Lemma dist3_sym : forall a b, dist3 a b = dist3 b a.
Proof. intros a b. unfold dist3, len3. f_equal. unfold dotS, minusS. cbn [vx vy vz vw]. ring. Qed.
Lemma len3_diff : forall a b, Rabs (len3 a - len3 b) <= dist3 a b.
Proof. intros a b. pose proof (len3_near a b). pose proof (len3_near b a). rewrite (dist3_sym b a) in *. apply Rabs_le. lra. Qed.
Lemma unit_diff : forall a b, 0 < len3 a -> 0 < len3 b -> dist3 (unit3 a) (unit3 b) <= 2 * (dist3 a b / len3 b).
Proof.
  intros a b A B. unfold dist3 at 1.
  replace (minusS (unit3 a) (unit3 b)) with (add3 (mul3 (/ len3 b) (minusS a b)) (mul3 (/ len3 a - / len3 b) a)).
  2:{ unfold add3, mul3, minusS, unit3. cbn [vx vy vz vw]. f_equal; field; lra. }
  eapply Rle_trans; [apply len3_add|]. rewrite !len3_mul. fold (dist3 a b).
  rewrite (Rabs_right (/ len3 b)) by (apply Rle_ge, Rlt_le, Rinv_0_lt_compat, B).
  assert (E : Rabs (/ len3 a - / len3 b) * len3 a = Rabs (len3 a - len3 b) / len3 b).
  { rewrite <- (Rabs_right (len3 a)) at 2 by lra. rewrite <- Rabs_mult. unfold Rdiv.
    rewrite <- (Rabs_right (/ len3 b)) at 2 by (apply Rle_ge, Rlt_le, Rinv_0_lt_compat, B). rewrite <- Rabs_mult.
    rewrite <- Rabs_Ropp. f_equal. field. lra. }
  rewrite E. pose proof (len3_diff a b) as D. assert (I : 0 < / len3 b) by (apply Rinv_0_lt_compat, B).
  unfold Rdiv. apply (Rmult_le_compat_r (/ len3 b)) in D; lra.
Qed.
Lemma unit3_len : forall a, 0 < len3 a -> len3 (unit3 a) = 1.
Proof.
  intros a A. replace (len3 (unit3 a)) with (len3 (mul3 (/ len3 a) a)).
  - rewrite len3_mul, Rabs_right by (apply Rle_ge, Rlt_le, Rinv_0_lt_compat, A). field. lra.
  - f_equal. unfold mul3, unit3. f_equal; unfold Rdiv; ring.
Qed.
Lemma cross_diff : forall a b a' b', dist3 (crossS a b) (crossS a' b') <= len3 a * dist3 b b' + dist3 a a' * len3 b'.
Proof.
  intros a b a' b'. unfold dist3 at 1.
  replace (minusS (crossS a b) (crossS a' b')) with (add3 (crossS a (minusS b b')) (crossS (minusS a a') b')).
  - eapply Rle_trans; [apply len3_add|]. apply Rplus_le_compat; apply len3_cross.
  - unfold add3, minusS, crossS. cbn [vx vy vz vw]. f_equal; ring.
Qed.
Lemma cauchy3 : forall a b, Rabs (vx a * vx b) + Rabs (vy a * vy b) + Rabs (vz a * vz b) <= len3 a * len3 b.
Proof.
  intros a b. pose proof (len3_sq a) as A. pose proof (len3_sq b) as B. unfold dotS in A, B.
  pose proof (cauchy4abs (vx a) (vy a) (vz a) 0 (vx b) (vy b) (vz b) 0 (len3 a) (len3 b) (len3_nn a) (len3_nn b) ltac:(lra) ltac:(lra)) as C.
  rewrite Rmult_0_l, Rabs_R0 in C. lra.
Qed.
Lemma dot_le : forall a b, Rabs (dotS a b) <= len3 a * len3 b.
Proof.
  intros a b. eapply Rle_trans; [|apply cauchy3]. unfold dotS. eapply Rle_trans; [apply Rabs_triang|]. apply Rplus_le_compat_r, Rabs_triang.
Qed.
Lemma len3_bound : forall (v : vec4 f32) M, 0 <= M -> boundedBy M (l43 v) -> len3 (valQ v) <= 1.733 * M.
Proof.
  intros v M HM B. unfold boundedBy, l43 in B. inversion B as [|? ? X B1]; subst. inversion B1 as [|? ? Y B2]; subst. inversion B2 as [|? ? Z _]; subst.
  apply sq_le; [apply len3_nn|lra|]. rewrite len3_sq. unfold dotS, valQ. cbn [vx vy vz vw]. apply abs2 in X, Y, Z. nra.
Qed.
Lemma len3_bounded : forall (v : vec4 f32) M, len3 (valQ v) <= M -> boundedBy M (l43 v).
Proof.
  intros v M H. destruct (len3_lane (valQ v)) as (X & Y & Z). cbn [valQ vx vy vz vw] in X, Y, Z.
  unfold boundedBy, l43. repeat apply Forall_cons; try apply Forall_nil; lra.
Qed.
Lemma bounded_le : forall M N l, M <= N -> boundedBy M l -> boundedBy N l.
Proof. intros M N l H B. eapply Forall_impl; [|exact B]. intros x X. cbv beta in *. lra. Qed.

(** ** Steps of the computation *)
Lemma norm_len3 : forall v : vec4 f32, norm (l43 v) = len3 (valQ v).
Proof. intros v. unfold norm, len3. f_equal. unfold l43, dotS, valQ. cbn [inner vx vy vz vw]. ring. Qed.
Lemma inner_len3 : forall v : vec4 f32, inner (l43 v) (l43 v) = len3 (valQ v) * len3 (valQ v).
Proof. intros v. rewrite len3_sq. unfold l43, dotS, valQ. cbn [inner vx vy vz vw]. ring. Qed.
Lemma lanes_rel : forall a n e t, 0 <= e -> 0 <= t -> len3 n = 1 ->
  Rabs (vx a - vx n) <= e * Rabs (vx n) + t -> Rabs (vy a - vy n) <= e * Rabs (vy n) + t -> Rabs (vz a - vz n) <= e * Rabs (vz n) + t ->
  dist3 a n <= e + 2 * t.
Proof.
  intros a n e t E T N X Y Z. pose proof (len3_sq n) as S. rewrite N in S. unfold dotS in S.
  apply sq_le; [apply len3_nn|lra|]. unfold dist3. rewrite len3_sq. unfold dotS, minusS. cbn [vx vy vz vw].
  assert (Q : forall r, r * r = Rabs r * Rabs r) by (intros r; rewrite <- Rabs_mult, Rabs_right; [reflexivity|apply Rle_ge, Rle_0_sqr]).
  rewrite (Q (vx n)), (Q (vy n)), (Q (vz n)) in S. rewrite (Q (vx a - vx n)), (Q (vy a - vy n)), (Q (vz a - vz n)).
  pose proof (Rabs_pos (vx n)) as P1. pose proof (Rabs_pos (vy n)) as P2. pose proof (Rabs_pos (vz n)) as P3.
  pose proof (Rabs_pos (vx a - vx n)) as P4. pose proof (Rabs_pos (vy a - vy n)) as P5. pose proof (Rabs_pos (vz a - vz n)) as P6.
  set (x := Rabs (vx n)) in *. set (y := Rabs (vy n)) in *. set (z := Rabs (vz n)) in *.
  set (i := Rabs (vx a - vx n)) in *. set (j := Rabs (vy a - vy n)) in *. set (h := Rabs (vz a - vz n)) in *.
  assert (SM : x + y + z <= 2) by (apply sq_le; [lra|lra|]; pose proof (Rle_0_sqr (x - y)); pose proof (Rle_0_sqr (x - z)); pose proof (Rle_0_sqr (y - z)); unfold Rsqr in *; lra).
  assert (I2 : i * i <= (e * x + t) * (e * x + t)) by (apply Rmult_le_compat; assumption).
  assert (J2 : j * j <= (e * y + t) * (e * y + t)) by (apply Rmult_le_compat; assumption).
  assert (H2 : h * h <= (e * z + t) * (e * z + t)) by (apply Rmult_le_compat; assumption).
  assert (ET : 0 <= e * t) by (apply Rmult_le_pos; assumption).
  assert (K : e * t * (x + y + z) <= e * t * 2) by (apply Rmult_le_compat_l; assumption).
  assert (K2 : e * e * (x * x + y * y + z * z) = e * e * 1) by (f_equal; lra).
  pose proof (Rle_0_sqr t) as T2. unfold Rsqr in T2. lra.
Qed.
Lemma norm3_near : forall p (v : vec4 f32), moderate (l43 v) -> allFin (l43 (normalize3 p v)) /\
  dist3 (valQ (normalize3 p v)) (unit3 (valQ v)) <= 5.11 / 16777216.
Proof.
  intros p v M. destruct (normalize_near p) as (_ & _ & _ & N & _). destruct (N v M) as [F E]. split; [exact F|].
  destruct (norm_range (l43 v) M) as [[A _] _]. rewrite norm_len3 in A.
  assert (LP : 0 < len3 (valQ v)) by (unfold sl in A; lra).
  unfold l43 in E. inversion E as [|? ? ? ? X E1]; subst. inversion E1 as [|? ? ? ? Y E2]; subst. inversion E2 as [|? ? ? ? Z _]; subst.
  fold (l43 v) in X, Y, Z. rewrite norm_len3 in X, Y, Z. change (bpow radix2 (-150)) with eta0 in *.
  pose proof eta0_pos as EP. pose proof eta0_small as ES.
  eapply Rle_trans; [apply (lanes_rel _ _ (5.1 / 16777216) (2 * eta0)); [lra|lra|apply unit3_len, LP|exact X|exact Y|exact Z]|]. lra.
Qed.
Lemma cross_near : forall p (a b : vec4 f32), allFin (l43 a) -> allFin (l43 b) -> boundedBy (bpow radix2 61) (l43 a) -> boundedBy (bpow radix2 61) (l43 b) ->
  allFin (l43 (cross3 p a b)) /\
  dist3 (valQ (cross3 p a b)) (crossS (valQ a) (valQ b)) <= 3.49 / 16777216 * (len3 (valQ a) * len3 (valQ b)) + 18 * eta0.
Proof.
  intros p a b Fa Fb Ba Bb. pose proof (cross3_err p a b Fa Fb Ba Bb) as C. unfold crossErr, l43 in C.
  destruct C as ((F0 & E0) & (F1 & E1) & (F2 & E2)). change (bpow radix2 (-150)) with eta0 in *. pose proof eta0_pos as EP.
  split; [unfold allFin, l43; repeat (apply Forall_cons; [assumption|]); apply Forall_nil|].
  pose proof (len3_nn (valQ a)) as AN. pose proof (len3_nn (valQ b)) as BN. pose proof (len3_sq (valQ a)) as AS. pose proof (len3_sq (valQ b)) as BS.
  set (A := len3 (valQ a)) in *. set (B := len3 (valQ b)) in *. unfold dotS in AS, BS. cbn [valQ vx vy vz vw] in AS, BS.
  pose proof (fun r => Rle_0_sqr r) as SQ. unfold Rsqr in SQ.
  pose proof (SQ (val (vx a))). pose proof (SQ (val (vy a))). pose proof (SQ (val (vz a))).
  pose proof (SQ (val (vx b))). pose proof (SQ (val (vy b))). pose proof (SQ (val (vz b))).
  assert (K0 : Rabs (val (vy a) * val (vz b)) + Rabs (val (vz a) * val (vy b)) <= A * B) by (apply cau2; lra).
  assert (K1 : Rabs (val (vz a) * val (vx b)) + Rabs (val (vx a) * val (vz b)) <= A * B) by (apply cau2; lra).
  assert (K2 : Rabs (val (vx a) * val (vy b)) + Rabs (val (vy a) * val (vx b)) <= A * B) by (apply cau2; lra).
  assert (P : 0 <= A * B) by (apply Rmult_le_pos; assumption).
  eapply Rle_trans; [apply lanes3 with (e := 2.01 / 16777216 * (A * B) + 10 * eta0); [lra|..]; cbn [valQ crossS vx vy vz vw]; lra|]. lra.
Qed.
Lemma sub_near : forall a b : vec4 f32, spot a -> spot b -> allFin (l43 (vsub a b)) /\
  dist3 (valQ (vsub a b)) (minusS (valQ a) (valQ b)) <= / 16777216 * dist3 (valQ a) (valQ b).
Proof.
  intros a b [Fa Ba] [Fb Bb]. unfold allFin, boundedBy, l43 in *.
  inversion Fa as [|? ? A1 Fa1]; subst. inversion Fa1 as [|? ? A2 Fa2]; subst. inversion Fa2 as [|? ? A3 _]; subst. clear Fa Fa1 Fa2.
  inversion Fb as [|? ? B1 Fb1]; subst. inversion Fb1 as [|? ? B2 Fb2]; subst. inversion Fb2 as [|? ? B3 _]; subst. clear Fb Fb1 Fb2.
  inversion Ba as [|? ? a1 Ba1]; subst. inversion Ba1 as [|? ? a2 Ba2]; subst. inversion Ba2 as [|? ? a3 _]; subst. clear Ba Ba1 Ba2.
  inversion Bb as [|? ? b1 Bb1]; subst. inversion Bb1 as [|? ? b2 Bb2]; subst. inversion Bb2 as [|? ? b3 _]; subst. clear Bb Bb1 Bb2.
  assert (G : forall x y : f32, fin x -> fin y -> Rabs (val x) <= bpow radix2 40 -> Rabs (val y) <= bpow radix2 40 ->
    fin (x - y)%sc /\ exists e, Rabs e <= / 16777216 /\ val (x - y)%sc - (val x - val y) = e * (val x - val y)).
  { intros x y Fx Fy X Y. destruct (sub_small x y Fx Fy) as [F V].
    - replace (bpow radix2 40) with 1099511627776 in X, Y by (cbn; lra). apply abs2 in X, Y. apply small_num, Rabs_le. lra.
    - split; [exact F|]. destruct (sub_rel x y) as (e & E1 & E2). exists e. split; [rewrite u24_val in E1; exact E1|]. rewrite V, E2. ring. }
  destruct (G _ _ A1 B1 a1 b1) as (F1 & e1 & E1 & V1). destruct (G _ _ A2 B2 a2 b2) as (F2 & e2 & E2 & V2). destruct (G _ _ A3 B3 a3 b3) as (F3 & e3 & E3 & V3).
  split; [unfold vsub, map2_4; cbn [vx vy vz vw]; repeat apply Forall_cons; try apply Forall_nil; assumption|].
  pose proof (len3_nn (minusS (valQ a) (valQ b))) as N. pose proof (len3_sq (minusS (valQ a) (valQ b))) as S. fold (dist3 (valQ a) (valQ b)) in N, S.
  apply sq_le; [apply len3_nn|apply Rmult_le_pos; [lra|exact N]|]. unfold dist3 at 1 2. rewrite len3_sq.
  replace (/ 16777216 * dist3 (valQ a) (valQ b) * (/ 16777216 * dist3 (valQ a) (valQ b))) with
    (/ 16777216 * / 16777216 * (dist3 (valQ a) (valQ b) * dist3 (valQ a) (valQ b))) by ring.
  rewrite S. unfold dotS, minusS, valQ, vsub, map2_4. cbn [vx vy vz vw]. rewrite V1, V2, V3.
  assert (Q : forall e d, Rabs e <= / 16777216 -> e * d * (e * d) <= / 16777216 * / 16777216 * (d * d)).
  { intros e d H. replace (e * d * (e * d)) with (e * e * (d * d)) by ring. apply Rmult_le_compat_r; [apply Rle_0_sqr|].
    apply abs2 in H. nra. }
  pose proof (Q e1 (val (vx a) - val (vx b)) E1). pose proof (Q e2 (val (vy a) - val (vy b)) E2). pose proof (Q e3 (val (vz a) - val (vz b)) E3). lra.
Qed.

(** ** The axes *)
Lemma bp : bpow radix2 40 = 1099511627776 /\ bpow radix2 (-40) = / 1099511627776 /\ bpow radix2 20 = 1048576 /\ bpow radix2 (-20) = / 1048576 /\
  bpow radix2 61 = 2305843009213693952 /\ bpow radix2 100 = 1267650600228229401496703205376 /\ bpow radix2 (-100) = / 1267650600228229401496703205376.
Proof. do 6 (split; [cbn; lra|]). cbn; lra. Qed.
Lemma eta0_tiny : eta0 <= / 1000000000000000000000000000000.
Proof. unfold eta0. cbn. lra. Qed.
Lemma moderate_len : forall v : vec4 f32, allFin (l43 v) -> / 1125899906842624 <= len3 (valQ v) <= 1125899906842624 -> moderate (l43 v).
Proof.
  intros v F [A B]. destruct bp as (_ & _ & _ & _ & _ & E1 & E2). split; [exact F|]. rewrite E1, E2, inner_len3. set (l := len3 (valQ v)) in *. split.
  - apply Rle_trans with (/ 1125899906842624 * / 1125899906842624); [lra|]. apply Rmult_le_compat; lra.
  - apply Rle_trans with (1125899906842624 * 1125899906842624); [|lra]. apply Rmult_le_compat; lra.
Qed.
Theorem frame_near : forall p k (from to up : vec4 f32), camera k from to up ->
  let f := normalize3 p (vsub to from) in let s := normalize3 p (cross3 p up f) in let u := cross3 p f s in
  let F := ahead (valQ from) (valQ to) in let S := aside (valQ from) (valQ to) (valQ up) in
  len3 F = 1 /\ len3 S = 1 /\ 1 <= k <= 1024 /\
  (allFin (l43 f) /\ dist3 (valQ f) F <= 7.12 / 16777216) /\
  (allFin (l43 s) /\ dist3 (valQ s) S <= 26.4 * k / 16777216) /\
  (allFin (l43 u) /\ dist3 (valQ u) (crossS F S) <= 37.1 * k / 16777216).
Proof.
  intros p k from to up (Hf & Ht & HD & Fu & HU & HK & HC) f s u F S.
  destruct bp as (E40 & E40' & E20 & E20' & E61 & _). rewrite E40' in HD. rewrite E20, E20' in HU.
  pose proof eta0_pos as EP. pose proof eta0_tiny as ES.
  (* the direction *)
  destruct (sub_near to from Ht Hf) as [Fd Ed]. set (d := vsub to from) in *. set (D := minusS (valQ to) (valQ from)) in *.
  change (dist3 (valQ to) (valQ from)) with (len3 D) in HD, Ed.
  assert (DU : len3 D <= 4 * 1099511627776).
  { destruct Hf as [_ Bf]. destruct Ht as [_ Bt]. rewrite E40 in Bf, Bt. apply len3_bound in Bf; [|lra]. apply len3_bound in Bt; [|lra].
    pose proof (len3_near (valQ to) (valQ from)) as _. replace D with (add3 (valQ to) (mul3 (-1) (valQ from))) by (unfold D, add3, mul3, minusS; cbn [vx vy vz vw]; f_equal; ring).
    eapply Rle_trans; [apply len3_add|]. rewrite len3_mul, Rabs_left by lra. lra. }
  pose proof (len3_diff (valQ d) D) as Ld. assert (Ld' : / 16777216 * len3 D <= / 16777216 * len3 D) by lra.
  assert (LD : / 1099511627776 * 0.999 <= len3 (valQ d) <= 5 * 1099511627776) by (apply abs2 in Ld; lra).
  destruct (norm3_near p d) as [Ff Ef]; [apply moderate_len; [exact Fd|lra]|]. fold f in Ff, Ef.
  assert (NF : len3 F = 1) by (apply unit3_len; fold D; lra).
  assert (Ef2 : dist3 (valQ f) F <= 7.12 / 16777216).
  { eapply Rle_trans; [apply (dist3_triangle _ (unit3 (valQ d)))|]. change F with (unit3 D).
    pose proof (unit_diff (valQ d) D ltac:(lra) ltac:(lra)) as U.
    assert (Q : dist3 (valQ d) D / len3 D <= / 16777216) by (apply Rmult_le_reg_r with (len3 D); [lra|]; unfold Rdiv; rewrite Rmult_assoc, Rinv_l by lra; lra).
    lra. }
  (* the side *)
  set (n := len3 (valQ up)) in *. set (C := crossS (valQ up) F) in *. change (crossS (valQ up) (ahead (valQ from) (valQ to))) with C in HC.
  assert (Lf : len3 (valQ f) <= 1.000001) by (pose proof (len3_near (valQ f) F); lra). pose proof (len3_nn (valQ f)) as Lf0.
  destruct (cross_near p up f Fu Ff) as [Fc Ec]; [apply len3_bounded; rewrite E61; fold n; lra|apply len3_bounded; rewrite E61; lra|].
  set (c := cross3 p up f) in *. fold n in Ec.
  assert (Ec2 : dist3 (valQ c) C <= 10.62 / 16777216 * n).
  { eapply Rle_trans; [apply (dist3_triangle _ (crossS (valQ up) (valQ f)))|]. unfold C.
    pose proof (cross_diff (valQ up) (valQ f) (valQ up) F) as X. rewrite NF in X. fold n in X.
    assert (Z : dist3 (valQ up) (valQ up) = 0).
    { unfold dist3, len3. rewrite <- sqrt_0. f_equal. unfold dotS, minusS. cbn [vx vy vz vw]. ring. }
    rewrite Z in X. assert (Y : n * dist3 (valQ f) F <= n * (7.12 / 16777216)) by (apply Rmult_le_compat_l; lra).
    assert (Y2 : n * len3 (valQ f) <= n * 1.000001) by (apply Rmult_le_compat_l; lra). lra. }
  assert (LC0 : 0 < len3 C) by (destruct (Rle_lt_dec (len3 C) 0) as [H|H]; [|exact H]; exfalso; pose proof (Rmult_le_compat_l k _ _ ltac:(lra) H); lra).
  assert (KC : k * len3 C <= 1024 * len3 C) by (apply Rmult_le_compat_r; lra).
  assert (LC : len3 C <= n) by (unfold C; eapply Rle_trans; [apply len3_cross|]; rewrite NF; fold n; lra).
  pose proof (len3_diff (valQ c) C) as Lc.
  assert (LC' : / 1048576 * / 1024 * 0.99 <= len3 (valQ c) <= 2 * 1048576) by (apply abs2 in Lc; lra).
  destruct (norm3_near p c) as [Fs Es]; [apply moderate_len; [exact Fc|lra]|]. fold s in Fs, Es.
  assert (NS : len3 S = 1) by (apply unit3_len; exact LC0).
  assert (Es2 : dist3 (valQ s) S <= 26.4 * k / 16777216).
  { eapply Rle_trans; [apply (dist3_triangle _ (unit3 (valQ c)))|]. change S with (unit3 C).
    pose proof (unit_diff (valQ c) C ltac:(lra) ltac:(lra)) as U.
    assert (Q : dist3 (valQ c) C / len3 C <= 10.62 / 16777216 * k) by (apply Rmult_le_reg_r with (len3 C); [lra|]; unfold Rdiv at 1; rewrite Rmult_assoc, Rinv_l by lra; lra).
    lra. }
  (* upwards *)
  assert (Ls : len3 (valQ s) <= 1.002) by (pose proof (len3_near (valQ s) S); lra). pose proof (len3_nn (valQ s)) as Ls0.
  destruct (cross_near p f s Ff Fs) as [Fw Ew]; [apply len3_bounded; rewrite E61; lra|apply len3_bounded; rewrite E61; lra|]. fold u in Fw, Ew.
  split; [exact NF|]. split; [exact NS|]. split; [exact HK|]. split; [split; assumption|]. split; [split; assumption|]. split; [exact Fw|].
  eapply Rle_trans; [apply (dist3_triangle _ (crossS (valQ f) (valQ s)))|].
  pose proof (cross_diff (valQ f) (valQ s) F S) as X. rewrite NS in X.
  assert (Y : len3 (valQ f) * dist3 (valQ s) S <= 1.000001 * (26.4 * k / 16777216)) by (apply Rmult_le_compat; try assumption; apply len3_nn).
  assert (Y2 : len3 (valQ f) * len3 (valQ s) <= 1.000001 * 1.002) by (apply Rmult_le_compat; assumption). lra.
Qed.

(** ** The coordinates *)
Lemma rows_transpose : forall p (m : mat4 f32), rowsOf4 (transpose4x4 p m) = colsOf4 m.
Proof. intros p [[] [] [] []]. destruct p; reflexivity. Qed.
Lemma lane_seen : forall p (a from v : vec4 f32) A e (r : f32), 0 <= e <= 0.01 -> allFin (l43 a) -> dist3 (valQ a) A <= e -> len3 A = 1 -> spot from -> spot v ->
  let t := (- dot3 p a from)%sc in
  (fin t /\ Rabs (val t) <= 1.02 * len3 (valQ from) + 11 * eta0) /\
  (innerErr 4.01 r [vx a; vy a; vz a; t] [vx v; vy v; vz v; f1] ->
   fin r /\ Rabs (val r - dotS A (minusS (valQ v) (valQ from))) <= (e + 7.2 / 16777216) * (len3 (valQ from) + len3 (valQ v)) + 21 * eta0).
Proof.
  intros p a from v A e r He Fa Ea NA [Ff Bf] [Fv Bv] t. destruct bp as (E40 & _). rewrite E40 in Bf, Bv.
  pose proof eta0_pos as EP. pose proof eta0_tiny as ES.
  pose proof (len3_bound from 1099511627776 ltac:(lra) Bf) as LF. pose proof (len3_bound v 1099511627776 ltac:(lra) Bv) as LV.
  pose proof (len3_nn (valQ from)) as LF0. pose proof (len3_nn (valQ v)) as LV0. pose proof (len3_nn (valQ a)) as La0.
  assert (La : len3 (valQ a) <= 1.01) by (pose proof (len3_near (valQ a) A); lra).
  set (L := len3 (valQ from)) in *. set (M := len3 (valQ v)) in *.
  assert (IA : forall w : vec4 f32, innerAbs (l43 a) (l43 w) <= 1.01 * len3 (valQ w)).
  { intros w. pose proof (cauchy3 (valQ a) (valQ w)) as K. unfold l43. cbn [innerAbs valQ vx vy vz vw] in *.
    pose proof (Rmult_le_compat_r (len3 (valQ w)) _ _ (len3_nn (valQ w)) La). lra. }
  assert (ID : forall w : vec4 f32, Rabs (inner (l43 a) (l43 w) - dotS A (valQ w)) <= e * len3 (valQ w)).
  { intros w. replace (inner (l43 a) (l43 w) - dotS A (valQ w)) with (dotS (minusS (valQ a) A) (valQ w)) by (unfold l43, dotS, minusS; cbn [inner valQ vx vy vz vw]; ring).
    eapply Rle_trans; [apply dot_le|]. fold (dist3 (valQ a) A). apply Rmult_le_compat_r; [apply len3_nn|exact Ea]. }
  destruct (dots_simd p a from) as [D3 _]. destruct D3 as [Fd Ed]; [exact Fa|exact Ff|pose proof (IA from) as K; fold L in K; eapply Rle_trans; [exact K|]; lra|].
  change (bpow radix2 (-150)) with eta0 in Ed. pose proof (IA from) as IF. fold L in IF. pose proof (ID from) as DF. fold L in DF.
  destruct (neg_fin (dot3 p a from) Fd) as [Ft Vt].
  assert (AF : Rabs (inner (l43 a) (l43 from)) <= 1.01 * L).
  { eapply Rle_trans; [|exact IF]. unfold l43. cbn [inner innerAbs]. eapply Rle_trans; [apply Rabs_triang|]. apply Rplus_le_compat_l.
    eapply Rle_trans; [apply Rabs_triang|]. apply Rplus_le_compat_l. eapply Rle_trans; [apply Rabs_triang|]. apply Rplus_le_compat_l. rewrite Rabs_R0. lra. }
  assert (TB : Rabs (val t) <= 1.02 * L + 11 * eta0) by (unfold t; rewrite Vt, Rabs_Ropp; apply abs2 in Ed, AF; apply Rabs_le; lra).
  split; [split; [exact Ft|exact TB]|].
  intros [Fr Er]. split; [exact Fr|]. change (bpow radix2 (-150)) with eta0 in Er. destruct one_lit as [_ V1].
  cbn [inner innerAbs] in Er. rewrite V1 in Er. rewrite !Rmult_1_r in Er. pose proof (IA v) as IV. pose proof (ID v) as DV. fold M in IV, DV. unfold l43 in IV, DV. cbn [inner innerAbs] in IV, DV.
  replace (dotS A (minusS (valQ v) (valQ from))) with (dotS A (valQ v) - dotS A (valQ from)) by (unfold dotS, minusS; cbn [vx vy vz vw]; ring).
  fold t in Vt. assert (EM : 0 <= e * M) by (apply Rmult_le_pos; lra). assert (EL : 0 <= e * L) by (apply Rmult_le_pos; lra).
  rewrite Vt in Er, TB. rewrite Rabs_Ropp in Er, TB.
  set (dd := val (dot3 p a from)) in *. set (ia := inner (l43 a) (l43 from)) in *. 
  apply abs2 in Er, DV, DF, Ed. apply Rabs_le. lra.
Qed.

Lemma axis_near : forall e (a : vec4 f32) A, allFin (l43 a) -> dist3 (valQ a) A <= e / 16777216 -> axisNear e (l43 a) A.
Proof.
  intros e a A F E. unfold axisNear, l43. split; [exact F|]. replace (dist3 _ A) with (dist3 (valQ a) A); [exact E|].
  unfold dist3, minusS, valQ. reflexivity.
Qed.
Theorem look_frame : forall p k (from to up : vec4 f32), camera k from to up ->
  let F := ahead (valQ from) (valQ to) in let S := aside (valQ from) (valQ to) (valQ up) in let U := above (valQ from) (valQ to) (valQ up) in
  (exists (s u f : list f32) (ts tu tf : f32), rowsOf4 (lookAt p from to up) = [s ++ [ts]; u ++ [tu]; f ++ [tf]; [f0; f0; f0; f1]] /\
    axisNear (26.4 * k) s S /\ axisNear (37.1 * k) u U /\ axisNear 7.12 f F) /\
  (let m := rotateLook p from to up in axisNear (26.4 * k) (l43 (c0 m)) S /\ axisNear (37.1 * k) (l43 (c1 m)) U /\ axisNear 7.12 (l43 (c2 m)) F).
Proof.
  intros p k from to up H F S U. destruct (frame_near p k from to up H) as (NF & NS & HK & (F1 & E1) & (F2 & E2) & (F3 & E3)).
  fold F S in NF, NS, E1, E2, E3. change (crossS F S) with U in E3.
  assert (G1 := axis_near _ _ _ F1 E1). assert (G2 := axis_near _ _ _ F2 E2). assert (G3 := axis_near _ _ _ F3 E3).
  split; [|exact (conj G2 (conj G3 G1))].
  unfold lookAt. cbv zeta. set (f := normalize3 p (vsub to from)) in *. set (s := normalize3 p (cross3 p up f)) in *. set (u := cross3 p f s) in *.
  exists (l43 s), (l43 u), (l43 f), (- dot3 p s from)%sc, (- dot3 p u from)%sc, (- dot3 p f from)%sc.
  split; [rewrite rows_transpose; reflexivity|]. exact (conj G2 (conj G3 G1)).
Qed.
Lemma last_row : forall p (m : mat4 f32) (v : vec4 f32), spot v -> vw (c0 m) = f0 -> vw (c1 m) = f0 -> vw (c2 m) = f0 -> vw (c3 m) = f1 ->
  fin (vw (mulV p m (withW v f1))) /\ val (vw (mulV p m (withW v f1))) = 1.
Proof.
  intros p m v [Fv _] A B C D. destruct one_lit as [F1 V1]. destruct (lit_Z 0 ltac:(lia)) as [F0 V0]. change (fin (f0 : f32)) in F0. change (val (f0 : f32) = 0) in V0.
  unfold allFin, l43 in Fv. inversion Fv as [|? ? FX Fv1]; subst. inversion Fv1 as [|? ? FY Fv2]; subst. inversion Fv2 as [|? ? FZ _]; subst.
  assert (EW : vw (mulV p m (withW v f1)) = four p (vw (c0 m)) (vw (c1 m)) (vw (c2 m)) (vw (c3 m)) (vx v) (vy v) (vz v) f1) by (destruct p; reflexivity).
  rewrite EW, A, B, C, D. assert (H1 : holds (four p f0 f0 f0 f1 (vx v) (vy v) (vz v) f1) (rnd (val (f1 : f32) * val (f1 : f32)))).
  { apply four_fourth; try assumption; rewrite ?V0, ?V1; try ring. rewrite Rmult_1_r. apply small_le with 1; [rewrite Rabs_R1|]; lra. }
  destruct H1 as [FH VH]. split; [exact FH|]. rewrite VH, V1, Rmult_1_r. exact (rnd_Z 1 ltac:(lia)).
Qed.
Theorem look_sees : forall p k (from to up v : vec4 f32), camera k from to up -> spot v ->
  let r := mulV p (lookAt p from to up) (withW v f1) in let e := seen (valQ from) (valQ to) (valQ up) (valQ v) in
  seenNear (33.6 * k) (vx r) (vx e) from v /\ seenNear (44.3 * k) (vy r) (vy e) from v /\ seenNear 14.4 (vz r) (vz e) from v /\
  fin (vw r) /\ val (vw r) = 1.
Proof.
  intros p k from to up v H Hv r e. pose proof H as (Hf & _).
  destruct (frame_near p k from to up H) as (NF & NS & HK & (F1 & E1) & (F2 & E2) & (F3 & E3)).
  unfold r, lookAt. cbv zeta. clear r. set (f := normalize3 p (vsub to from)) in *. set (s := normalize3 p (cross3 p up f)) in *. set (u := cross3 p f s) in *.
  set (F := ahead (valQ from) (valQ to)) in *. set (S := aside (valQ from) (valQ to) (valQ up)) in *.
  assert (NU : len3 (crossS F S) = 1).
  { assert (Q : dotS F S = 0).
    { unfold S, aside. fold F. unfold unit3. set (c := crossS (valQ up) F). unfold dotS. cbn [vx vy vz vw]. unfold Rdiv.
      replace (_ + _ + _) with ((vx F * vx c + vy F * vy c + vz F * vz c) * / len3 c) by ring.
      replace (vx F * vx c + vy F * vy c + vz F * vz c) with 0; [ring|]. unfold c, crossS. cbn [vx vy vz vw]. ring. }
    apply Rsqr_inj; [apply len3_nn|lra|]. unfold Rsqr. rewrite len3_sq, Rmult_1_r.
    pose proof (len3_sq F) as A. pose proof (len3_sq S) as B. rewrite NF in A. rewrite NS in B.
    replace (dotS (crossS F S) (crossS F S)) with (dotS F F * dotS S S - dotS F S * dotS F S) by (unfold dotS, crossS; cbn [vx vy vz vw]; ring).
    rewrite <- A, <- B, Q. ring. }
  set (m := transpose4x4 p _).
  assert (RM : rowsOf4 m = [[vx s; vy s; vz s; (- dot3 p s from)%sc]; [vx u; vy u; vz u; (- dot3 p u from)%sc]; [vx f; vy f; vz f; (- dot3 p f from)%sc]; [f0; f0; f0; f1]])
    by (unfold m; rewrite rows_transpose; reflexivity).
  destruct (lane_seen p s from v S (26.4 * k / 16777216) (vx (mulV p m (withW v f1))) ltac:(lra) F2 E2 NS Hf Hv) as ((T1 & T1') & L1).
  destruct (lane_seen p u from v (crossS F S) (37.1 * k / 16777216) (vy (mulV p m (withW v f1))) ltac:(lra) F3 E3 NU Hf Hv) as ((T2 & T2') & L2).
  destruct (lane_seen p f from v F (7.12 / 16777216) (vz (mulV p m (withW v f1))) ltac:(lra) F1 E1 NF Hf Hv) as ((T3 & T3') & L3).
  destruct one_lit as [O1 O2]. destruct (lit_Z 0 ltac:(lia)) as [F0 V0]. change (fin (f0 : f32)) in F0. change (val (f0 : f32) = 0) in V0.
  assert (E60 : bpow radix2 60 = 1152921504606846976) by (cbn; lra). destruct bp as (E40 & _).
  pose proof eta0_pos as EP. pose proof eta0_tiny as ES.
  pose proof Hf as [_ Bf]. pose proof Hv as [Fv Bv]. rewrite E40 in Bf, Bv. pose proof (len3_bound from 1099511627776 ltac:(lra) Bf) as LF.
  pose proof (len3_bound v 1099511627776 ltac:(lra) Bv) as LV. pose proof (len3_nn (valQ from)) as LF0. pose proof (len3_nn (valQ v)) as LV0.
  assert (AX : forall (a : vec4 f32) A (t : f32), allFin (l43 a) -> dist3 (valQ a) A <= 0.01 -> len3 A = 1 -> fin t -> Rabs (val t) <= 1.02 * len3 (valQ from) + 11 * eta0 ->
    mild [vx a; vy a; vz a; t]).
  { intros a A t Fa Ea Na Ft Bt. pose proof (len3_near (valQ a) A) as N. destruct (len3_lane (valQ a)) as (X & Y & Z). cbn [valQ vx vy vz vw] in X, Y, Z.
    unfold allFin, l43 in Fa. inversion Fa as [|? ? FX Fa1]; subst. inversion Fa1 as [|? ? FY Fa2]; subst. inversion Fa2 as [|? ? FZ _]; subst.
    split; unfold allFin, boundedBy; repeat apply Forall_cons; try apply Forall_nil; try assumption; rewrite E60; lra. }
  assert (MM : mildM (rowsOf4 m)).
  { rewrite RM. unfold mildM. repeat apply Forall_cons; try apply Forall_nil.
    - apply (AX s S); try assumption; lra.
    - apply (AX u (crossS F S)); try assumption; lra.
    - apply (AX f F); try assumption; lra.
    - split; unfold allFin, boundedBy; repeat apply Forall_cons; try apply Forall_nil; try assumption; rewrite E60, ?V0, ?O2, ?Rabs_R0, ?Rabs_R1; lra. }
  assert (MV : mild (l4 (withW v f1))).
  { destruct (len3_lane (valQ v)) as (X & Y & Z). cbn [valQ vx vy vz vw] in X, Y, Z.
    unfold allFin, l43 in Fv. inversion Fv as [|? ? FX Fa1]; subst. inversion Fa1 as [|? ? FY Fa2]; subst. inversion Fa2 as [|? ? FZ _]; subst.
    split; unfold allFin, boundedBy, l4, withW; cbn [vx vy vz vw]; repeat apply Forall_cons; try apply Forall_nil; try assumption; rewrite E60, ?O2, ?Rabs_R1; lra. }
  destruct (action_near p) as (_ & _ & _ & AN & _). specialize (AN m (withW v f1) MM MV). rewrite RM in AN. unfold actionErr, l4 in AN. unfold withW in AN at 5 6 7 8. cbn [vx vy vz vw] in AN.
  inversion AN as [|? ? ? ? A1 AN1]; subst. inversion AN1 as [|? ? ? ? A2 AN2]; subst. inversion AN2 as [|? ? ? ? A3 _]; subst. clear AN AN1 AN2.
  specialize (L1 A1). specialize (L2 A2). specialize (L3 A3).
  assert (TE : 21 * eta0 <= bpow radix2 (-145)).
  { unfold eta0. replace (bpow radix2 (-145)) with (bpow radix2 5 * bpow radix2 (-150)) by (rewrite <- bpow_plus; reflexivity).
    pose proof (bpow_gt_0 radix2 (-150)). change (bpow radix2 5) with 32. lra. }
  assert (LS : 0 <= len3 (valQ from) + len3 (valQ v)) by lra. assert (KS : len3 (valQ from) + len3 (valQ v) <= k * (len3 (valQ from) + len3 (valQ v))) by nra.
  split; [|split; [|split]].
  - destruct L1 as [X Y]. split; [exact X|]. unfold e, seen. cbv zeta. cbn [vx vy vz vw]. fold S. lra.
  - destruct L2 as [X Y]. split; [exact X|]. unfold e, seen, above. cbv zeta. cbn [vx vy vz vw]. fold F S. lra.
  - destruct L3 as [X Y]. split; [exact X|]. unfold e, seen. cbv zeta. cbn [vx vy vz vw]. fold F. lra.
  - injection RM as _ _ _ _ _ _ _ _ _ _ _ _ W0 W1 W2 W3. apply last_row; assumption.
Qed.
