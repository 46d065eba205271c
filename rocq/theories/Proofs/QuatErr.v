(** Quaternions in binary32. *)
From Coq Require Import ZArith Bool List Reals Lra Lia Psatz.
From Flocq Require Import Core.Core IEEE754.BinarySingleNaN IEEE754.Binary IEEE754.Bits.
From Verif.Model Require Import Outcome Scalar Vec Simd Lanes Quaternion.
From Verif.Spec Require Import QuatErrSpec.
From Verif.Proofs Require Import OrdScalar F32Round F32Err Approx ExpProofs ColorProofs NormProofs.
Import ListNotations.
Local Open Scope R_scope.

(** ** Four-dimensional Euclidean space *)
Definition addQ (a b : vec4 R) : vec4 R := V4 (vx a + vx b) (vy a + vy b) (vz a + vz b) (vw a + vw b).
Lemma norm2_nn : forall q, 0 <= norm2 q.
Proof. intros [x y z w]. unfold norm2. cbn [vx vy vz vw]. pose proof (Rle_0_sqr x). pose proof (Rle_0_sqr y). pose proof (Rle_0_sqr z). pose proof (Rle_0_sqr w). unfold Rsqr in *. lra. Qed.
Lemma lenQ_nn : forall q, 0 <= lenQ q. Proof. intros. apply sqrt_pos. Qed.
Lemma lenQ_sq : forall q, lenQ q * lenQ q = norm2 q. Proof. intros. apply sqrt_sqrt, norm2_nn. Qed.
Lemma sq_le : forall a b, 0 <= a -> 0 <= b -> a * a <= b * b -> a <= b.
Proof. intros. nra. Qed.
Lemma sq_abs_le : forall a b, 0 <= b -> a * a <= b * b -> Rabs a <= b.
Proof. intros a b H K. apply sq_le; [apply Rabs_pos|exact H|]. rewrite <- Rabs_mult, Rabs_right; [exact K|]. apply Rle_ge. pose proof (Rle_0_sqr a). exact H0. Qed.
Lemma cauchy4sq : forall a b c d x y z t, (a * x + b * y + c * z + d * t) * (a * x + b * y + c * z + d * t) <=
  (a * a + b * b + c * c + d * d) * (x * x + y * y + z * z + t * t).
Proof.
  intros. apply Rminus_le.
  replace (_ - _) with (- ((a * y - b * x) * (a * y - b * x) + (a * z - c * x) * (a * z - c * x) + (a * t - d * x) * (a * t - d * x)
    + (b * z - c * y) * (b * z - c * y) + (b * t - d * y) * (b * t - d * y) + (c * t - d * z) * (c * t - d * z))) by ring.
  assert (K : forall r, 0 <= r * r) by (intros; nra).
  pose proof (K (a * y - b * x)). pose proof (K (a * z - c * x)). pose proof (K (a * t - d * x)). pose proof (K (b * z - c * y)).
  pose proof (K (b * t - d * y)). pose proof (K (c * t - d * z)). lra.
Qed.
Lemma cauchy4abs : forall a b c d x y z t P Q, 0 <= P -> 0 <= Q ->
  a * a + b * b + c * c + d * d = P * P -> x * x + y * y + z * z + t * t = Q * Q ->
  Rabs (a * x) + Rabs (b * y) + Rabs (c * z) + Rabs (d * t) <= P * Q.
Proof.
  intros a b c d x y z t P Q HP HQ EP EQ.
  assert (S : forall r, Rabs r * Rabs r = r * r) by (intros r; rewrite <- Rabs_mult; apply Rabs_right, Rle_ge, Rle_0_sqr).
  rewrite !Rabs_mult. pose proof (cauchy4sq (Rabs a) (Rabs b) (Rabs c) (Rabs d) (Rabs x) (Rabs y) (Rabs z) (Rabs t)) as C.
  rewrite !S, EP, EQ in C. apply sq_le; [|apply Rmult_le_pos; assumption|].
  - pose proof (fun r s => Rmult_le_pos (Rabs r) (Rabs s) (Rabs_pos r) (Rabs_pos s)) as K.
    pose proof (K a x). pose proof (K b y). pose proof (K c z). pose proof (K d t). lra.
  - eapply Rle_trans; [exact C|]. right. ring.
Qed.
Lemma lenQ_triangle : forall a b, lenQ (addQ a b) <= lenQ a + lenQ b.
Proof.
  intros a b. pose proof (lenQ_nn a) as A. pose proof (lenQ_nn b) as B. pose proof (lenQ_sq a) as A2. pose proof (lenQ_sq b) as B2.
  apply sq_le; [apply lenQ_nn|lra|]. rewrite lenQ_sq.
  pose proof (cauchy4abs (vx a) (vy a) (vz a) (vw a) (vx b) (vy b) (vz b) (vw b) (lenQ a) (lenQ b) A B) as C.
  unfold norm2 in *. specialize (C (eq_sym A2) (eq_sym B2)). unfold addQ. cbn [vx vy vz vw].
  pose proof (Rle_abs (vx a * vx b)). pose proof (Rle_abs (vy a * vy b)). pose proof (Rle_abs (vz a * vz b)). pose proof (Rle_abs (vw a * vw b)). nra.
Qed.
Lemma distQ_triangle : forall a b c, distQ a c <= distQ a b + distQ b c.
Proof.
  intros a b c. unfold distQ. replace (subQ a c) with (addQ (subQ a b) (subQ b c)); [apply lenQ_triangle|].
  unfold addQ, subQ. cbn [vx vy vz vw]. f_equal; ring.
Qed.
Lemma distQ_sym : forall a b, distQ a b = distQ b a.
Proof. intros a b. unfold distQ, lenQ. f_equal. unfold norm2, subQ. cbn [vx vy vz vw]. ring. Qed.
Lemma lenQ_ham : forall a b, lenQ (ham a b) = lenQ a * lenQ b.
Proof.
  intros a b. unfold lenQ. rewrite <- sqrt_mult by apply norm2_nn. f_equal. unfold norm2, ham. cbn [vx vy vz vw]. ring.
Qed.
Lemma ham_split : forall a b c d, subQ (ham a b) (ham c d) = addQ (ham (subQ a c) b) (ham c (subQ b d)).
Proof. intros. unfold subQ, addQ, ham. cbn [vx vy vz vw]. f_equal; ring. Qed.
Lemma lenQ_near : forall a b, lenQ a <= lenQ b + distQ a b.
Proof.
  intros a b. rewrite Rplus_comm. unfold distQ. replace a with (addQ (subQ a b) b) at 1; [apply lenQ_triangle|].
  destruct a as [a1 a2 a3 a4]. unfold addQ, subQ. cbn [vx vy vz vw]. f_equal; ring.
Qed.
Lemma unit_len : forall u, unitQ u -> lenQ u = 1.
Proof. intros u H. unfold lenQ. rewrite H. apply sqrt_1. Qed.
Lemma lanes_dist : forall a b e, 0 <= e -> Rabs (vx a - vx b) <= e -> Rabs (vy a - vy b) <= e -> Rabs (vz a - vz b) <= e -> Rabs (vw a - vw b) <= e ->
  distQ a b <= 2 * e.
Proof.
  intros a b e E X Y Z W. apply sq_le; [apply lenQ_nn|lra|]. unfold distQ. rewrite lenQ_sq. unfold norm2, subQ. cbn [vx vy vz vw].
  apply abs2 in X, Y, Z, W. nra.
Qed.
Lemma lane_dist : forall a b, Rabs (vx a - vx b) <= distQ a b /\ Rabs (vy a - vy b) <= distQ a b /\ Rabs (vz a - vz b) <= distQ a b /\ Rabs (vw a - vw b) <= distQ a b.
Proof.
  intros a b. pose proof (lenQ_sq (subQ a b)) as S. unfold norm2, subQ in S. cbn [vx vy vz vw] in S. fold (subQ a b) in S.
  pose proof (Rle_0_sqr (vx a - vx b)). pose proof (Rle_0_sqr (vy a - vy b)). pose proof (Rle_0_sqr (vz a - vz b)). pose proof (Rle_0_sqr (vw a - vw b)).
  unfold Rsqr in *. unfold distQ. repeat split; apply sq_abs_le; try apply lenQ_nn; lra.
Qed.
Lemma lane_len : forall a, Rabs (vx a) <= lenQ a /\ Rabs (vy a) <= lenQ a /\ Rabs (vz a) <= lenQ a /\ Rabs (vw a) <= lenQ a.
Proof.
  intros a. pose proof (lenQ_sq a) as S. unfold norm2 in S.
  pose proof (Rle_0_sqr (vx a)). pose proof (Rle_0_sqr (vy a)). pose proof (Rle_0_sqr (vz a)). pose proof (Rle_0_sqr (vw a)).
  unfold Rsqr in *. repeat split; apply sq_abs_le; try apply lenQ_nn; lra.
Qed.

(** ** The product *)
Section Four.
  Variables a0 a1 a2 a3 b0 b1 b2 b3 : f32.
  Hypothesis Fa0 : fin a0. Hypothesis Fa1 : fin a1. Hypothesis Fa2 : fin a2. Hypothesis Fa3 : fin a3.
  Hypothesis Fb0 : fin b0. Hypothesis Fb1 : fin b1. Hypothesis Fb2 : fin b2. Hypothesis Fb3 : fin b3.
  Let S := Rabs (val a0 * val b0) + Rabs (val a1 * val b1) + Rabs (val a2 * val b2) + Rabs (val a3 * val b3).
  Ltac start := pose proof eta0_small as ES; pose proof eta0_pos as EP; pose proof u24_val as UV;
    pose proof (Rabs_pos (val a0 * val b0)) as P0; pose proof (Rabs_pos (val a1 * val b1)) as P1;
    pose proof (Rabs_pos (val a2 * val b2)) as P2; pose proof (Rabs_pos (val a3 * val b3)) as P3;
    pose proof (eb_mul a0 b0 Fa0 Fb0 ltac:(unfold S in *; lra)) as M0; pose proof (eb_mul a1 b1 Fa1 Fb1 ltac:(unfold S in *; lra)) as M1;
    pose proof (eb_mul a2 b2 Fa2 Fb2 ltac:(unfold S in *; lra)) as M2; pose proof (eb_mul a3 b3 Fa3 Fb3 ltac:(unfold S in *; lra)) as M3;
    rewrite UV in *.
  Lemma four_pppm : S <= limit -> fin (a0 * b0 + a1 * b1 + a2 * b2 - a3 * b3)%sc /\
    Rabs (val (a0 * b0 + a1 * b1 + a2 * b2 - a3 * b3)%sc - (val a0 * val b0 + val a1 * val b1 + val a2 * val b2 - val a3 * val b3)) <= 4.01 / 16777216 * S + 10 * eta0.
  Proof.
    intros H. start. pose proof (eb_add _ _ _ _ _ _ _ _ M0 M1 ltac:(unfold S in *; lra)) as A. rewrite UV in A.
    pose proof (eb_add _ _ _ _ _ _ _ _ A M2 ltac:(unfold S in *; lra)) as B. rewrite UV in B.
    pose proof (eb_sub _ _ _ _ _ _ _ _ B M3 ltac:(unfold S in *; lra)) as (F & E & _). rewrite UV in E.
    split; [exact F|]. unfold S in *. lra.
  Qed.
  Lemma four_pmmm : S <= limit -> fin (a0 * b0 - a1 * b1 - a2 * b2 - a3 * b3)%sc /\
    Rabs (val (a0 * b0 - a1 * b1 - a2 * b2 - a3 * b3)%sc - (val a0 * val b0 - val a1 * val b1 - val a2 * val b2 - val a3 * val b3)) <= 4.01 / 16777216 * S + 10 * eta0.
  Proof.
    intros H. start. pose proof (eb_sub _ _ _ _ _ _ _ _ M0 M1 ltac:(unfold S in *; lra)) as A. rewrite UV in A.
    pose proof (eb_sub _ _ _ _ _ _ _ _ A M2 ltac:(unfold S in *; lra)) as B. rewrite UV in B.
    pose proof (eb_sub _ _ _ _ _ _ _ _ B M3 ltac:(unfold S in *; lra)) as (F & E & _). rewrite UV in E.
    split; [exact F|]. unfold S in *. lra.
  Qed.
End Four.
Theorem qmul_near : forall a b : vec4 f32, allFin (l4 a) -> allFin (l4 b) -> lenQ (valQ a) * lenQ (valQ b) <= bpow radix2 120 ->
  allFin (l4 (qmul a b)) /\
  distQ (valQ (qmul a b)) (ham (valQ a) (valQ b)) <= 8.02 / 16777216 * (lenQ (valQ a) * lenQ (valQ b)) + bpow radix2 (-145).
Proof.
  intros a b A B H. replace (bpow radix2 120) with 1329227995784915872903807060280344576 in H by (cbn; lra).
  pose proof (lenQ_nn (valQ a)) as NA. pose proof (lenQ_nn (valQ b)) as NB. pose proof (lenQ_sq (valQ a)) as SA. pose proof (lenQ_sq (valQ b)) as SB.
  unfold norm2 in SA, SB. cbn [vx vy vz vw valQ] in SA, SB. pose proof eta0_pos as EP.
  set (P := lenQ (valQ a)) in *. set (Q := lenQ (valQ b)) in *.
  assert (T : 20 * eta0 <= bpow radix2 (-145)).
  { unfold eta0. replace (bpow radix2 (-145)) with (bpow radix2 5 * bpow radix2 (-150)) by (rewrite <- bpow_plus; reflexivity).
    pose proof (bpow_gt_0 radix2 (-150)). change (bpow radix2 5) with 32. lra. }
  fins A. fins B. destruct a as [x y z w], b as [qx qy qz qw]. cbn [vx vy vz vw] in *.
  assert (PQ : 0 <= P * Q) by (apply Rmult_le_pos; assumption).
  assert (C0 : Rabs (val w * val qx) + Rabs (val x * val qw) + Rabs (val y * val qz) + Rabs (val z * val qy) <= P * Q)
    by (apply cauchy4abs; try assumption; [rewrite SA|rewrite SB]; ring).
  assert (C1 : Rabs (val w * val qy) + Rabs (val y * val qw) + Rabs (val z * val qx) + Rabs (val x * val qz) <= P * Q)
    by (apply cauchy4abs; try assumption; [rewrite SA|rewrite SB]; ring).
  assert (C2 : Rabs (val w * val qz) + Rabs (val z * val qw) + Rabs (val x * val qy) + Rabs (val y * val qx) <= P * Q)
    by (apply cauchy4abs; try assumption; [rewrite SA|rewrite SB]; ring).
  assert (C3 : Rabs (val w * val qw) + Rabs (val x * val qx) + Rabs (val y * val qy) + Rabs (val z * val qz) <= P * Q)
    by (apply cauchy4abs; try assumption; [rewrite SA|rewrite SB]; ring).
  destruct (four_pppm w x y z qx qw qz qy) as [F0 E0]; try assumption; [lra|].
  destruct (four_pppm w y z x qy qw qx qz) as [F1 E1]; try assumption; [lra|].
  destruct (four_pppm w z x y qz qw qy qx) as [F2 E2]; try assumption; [lra|].
  destruct (four_pmmm w x y z qw qx qy qz) as [F3 E3]; try assumption; [lra|].
  split; [unfold qmul; repeat (apply Forall_cons; [cbn [vx vy vz vw]; assumption|]); apply Forall_nil|].
  eapply Rle_trans; [apply lanes_dist with (e := 4.01 / 16777216 * (P * Q) + 10 * eta0)|lra]; unfold valQ, qmul, ham; cbn [vx vy vz vw]; [lra|..].
  - eapply Rle_trans; [exact E0|lra].
  - replace (val w * val qy - val x * val qz + val y * val qw + val z * val qx) with (val w * val qy + val y * val qw + val z * val qx - val x * val qz) by ring.
    eapply Rle_trans; [exact E1|lra].
  - replace (val w * val qz + val x * val qy - val y * val qx + val z * val qw) with (val w * val qz + val z * val qw + val x * val qy - val y * val qx) by ring.
    eapply Rle_trans; [exact E2|lra].
  - eapply Rle_trans; [exact E3|lra].
Qed.

(** ** Products of rotations *)
Lemma nearU_mul : forall d e a b u v, 0 <= d -> 0 <= e -> (1 + d) * (1 + e) <= bpow radix2 60 -> nearU d a u -> nearU e b v ->
  nearU ((1 + d) * (1 + e) * (1 + 8.1 / 16777216) - 1) (qmul a b) (ham u v).
Proof.
  intros d e a b u v D E G (Fa & Ua & Da) (Fb & Ub & Db).
  assert (La : lenQ (valQ a) <= 1 + d) by (pose proof (lenQ_near (valQ a) u) as K; rewrite (unit_len u Ua) in K; lra).
  assert (Lb : lenQ (valQ b) <= 1 + e) by (pose proof (lenQ_near (valQ b) v) as K; rewrite (unit_len v Ub) in K; lra).
  pose proof (lenQ_nn (valQ a)) as NA. pose proof (lenQ_nn (valQ b)) as NB.
  assert (LL : lenQ (valQ a) * lenQ (valQ b) <= (1 + d) * (1 + e)) by (apply Rmult_le_compat; assumption).
  assert (X : bpow radix2 60 <= bpow radix2 120) by (apply bpow_le; lia).
  destruct (qmul_near a b Fa Fb) as [F N]; [lra|]. split; [exact F|]. split.
  - unfold unitQ in *. pose proof (lenQ_ham u v) as K. rewrite (unit_len u Ua), (unit_len v Ub) in K. rewrite <- lenQ_sq, K. ring.
  - eapply Rle_trans; [apply (distQ_triangle _ (ham (valQ a) (valQ b)))|].
    assert (K : distQ (ham (valQ a) (valQ b)) (ham u v) <= d * (1 + e) + e).
    { unfold distQ. rewrite ham_split. eapply Rle_trans; [apply lenQ_triangle|]. rewrite !lenQ_ham.
      rewrite (unit_len u Ua). fold (distQ (valQ a) u). fold (distQ (valQ b) v). 
      assert (distQ (valQ a) u * lenQ (valQ b) <= d * (1 + e)) by (apply Rmult_le_compat; try assumption; apply lenQ_nn). lra. }
    assert (T : bpow radix2 (-145) <= 0.08 / 16777216) by (apply Rle_trans with (bpow radix2 (-40)); [apply bpow_le; lia|cbn; lra]).
    assert (0 <= d * e) by (apply Rmult_le_pos; assumption). 
    assert (8.02 / 16777216 * (lenQ (valQ a) * lenQ (valQ b)) <= 8.02 / 16777216 * ((1 + d) * (1 + e))) by (apply Rmult_le_compat_l; lra). nra.
Qed.
Lemma growQ_ge : forall d n, 0 <= d -> 1 <= growQ d n.
Proof. intros d n D. unfold growQ. apply pow_R1_Rle. nra. Qed.
Lemma growQ_S : forall d n, growQ d (S n) = (1 + d) * growQ d n * (1 + 8.1 / 16777216).
Proof. intros d n. unfold growQ. cbn [pow]. ring. Qed.
Lemma growQ_mono : forall d n, 0 <= d -> growQ d n <= growQ d (S n).
Proof. intros d n D. rewrite growQ_S. pose proof (growQ_ge d n D). assert (0 <= d * growQ d n) by (apply Rmult_le_pos; lra). nra. Qed.
Lemma valQ_id : nearU 0 qidentity idQ.
Proof.
  destruct (lit_Z 0 ltac:(lia)) as [A B]. destruct (lit_Z 1 ltac:(lia)) as [C D].
  split; [unfold qidentity, f0, f1; repeat (apply Forall_cons; [cbn [vx vy vz vw]; assumption|]); apply Forall_nil|].
  split; [unfold unitQ, norm2, idQ; cbn; ring|].
  assert (E : valQ qidentity = idQ) by (unfold valQ, qidentity, idQ, f0, f1; cbn [vx vy vz vw]; rewrite B, D; reflexivity).
  rewrite E. right. unfold distQ, lenQ. replace (norm2 _) with 0 by (unfold norm2, subQ; cbn [vx vy vz vw]; ring). apply sqrt_0.
Qed.
Theorem rotations_right : forall d (qs : list (vec4 f32)) us, 0 <= d -> Forall2 (nearU d) qs us -> growQ d (length qs) <= bpow radix2 60 ->
  nearU (growQ d (length qs) - 1) (fold_right qmul qidentity qs) (fold_right ham idQ us).
Proof.
  intros d qs us D H. induction H as [|q u qs us Hq H IH]; intros G.
  - unfold growQ. cbn [length pow fold_right]. rewrite Rminus_diag_eq by reflexivity. exact valQ_id.
  - cbn [length fold_right] in *. pose proof (growQ_mono d (length qs) D) as M. pose proof (growQ_ge d (length qs) D) as O.
    assert (I : nearU (growQ d (length qs) - 1) (fold_right qmul qidentity qs) (fold_right ham idQ us)) by (apply IH; lra).
    rewrite growQ_S in G |- *. replace ((1 + d) * growQ d (length qs)) with ((1 + d) * (1 + (growQ d (length qs) - 1))) by ring.
    apply nearU_mul; try assumption; [lra|]. replace (1 + (growQ d (length qs) - 1)) with (growQ d (length qs)) by ring.
    assert (0 <= (1 + d) * growQ d (length qs)) by (apply Rmult_le_pos; lra). lra.
Qed.
Lemma fold_left_snoc : forall {A B} (f : A -> B -> A) l x a, fold_left f (l ++ [x]) a = f (fold_left f l a) x.
Proof. intros. rewrite fold_left_app. reflexivity. Qed.
Theorem rotations_left : forall d (qs : list (vec4 f32)) us, 0 <= d -> Forall2 (nearU d) qs us -> growQ d (length qs) <= bpow radix2 60 ->
  nearU (growQ d (length qs) - 1) (fold_left qmul qs qidentity) (fold_left ham us idQ).
Proof.
  intros d qs. induction qs as [|q qs IH] using rev_ind; intros us D H G.
  - inversion H; subst. unfold growQ. cbn [length pow fold_left]. rewrite Rminus_diag_eq by reflexivity. exact valQ_id.
  - apply Forall2_app_inv_l in H. destruct H as (us1 & us2 & H1 & H2 & ->). inversion H2 as [|? u ? ? Hq H3]; subst. inversion H3; subst.
    rewrite app_length in *. cbn [length] in *. rewrite Nat.add_1_r in *. rewrite !fold_left_snoc.
    pose proof (growQ_mono d (length qs) D) as M. pose proof (growQ_ge d (length qs) D) as O.
    assert (I : nearU (growQ d (length qs) - 1) (fold_left qmul qs qidentity) (fold_left ham us1 idQ)) by (apply IH; [assumption|assumption|lra]).
    rewrite growQ_S in G |- *. replace ((1 + d) * growQ d (length qs)) with ((1 + (growQ d (length qs) - 1)) * (1 + d)) by ring.
    apply nearU_mul; try assumption; [lra|]. replace (1 + (growQ d (length qs) - 1)) with (growQ d (length qs)) by ring.
    assert (0 <= growQ d (length qs) * (1 + d)) by (apply Rmult_le_pos; lra). lra.
Qed.

(** ** Normalisation and the conjugate *)
Lemma norm_lenQ : forall q : vec4 f32, norm (l4 q) = lenQ (valQ q).
Proof. intros q. unfold norm, lenQ. f_equal. unfold l4, norm2, valQ. cbn [inner vx vy vz vw]. ring. Qed.
Theorem qnormalize_near : forall p (q : vec4 f32), moderate (l4 q) -> nearU (5.2 / 16777216) (qnormalize p q) (unitized (valQ q)).
Proof.
  intros p q M. destruct (normalize_near p) as (_ & _ & _ & _ & N). destruct (N q M) as [F E].
  assert (LP : 0 < lenQ (valQ q)).
  { rewrite <- norm_lenQ. destruct (norm_range (l4 q) M) as [[A _] _]. unfold sl in A. lra. }
  split; [exact F|]. split.
  - unfold unitQ, norm2, unitized. cbn [vx vy vz vw]. pose proof (lenQ_sq (valQ q)) as S. unfold norm2 in S.
    apply (Rmult_eq_reg_r (lenQ (valQ q) * lenQ (valQ q))); [|nra]. rewrite Rmult_1_l. rewrite S at 2. field. lra.
  - rewrite norm_lenQ in E. unfold l4 in E. inversion E as [|? ? ? ? E0 R0]; subst. inversion R0 as [|? ? ? ? E1 R1]; subst.
    inversion R1 as [|? ? ? ? E2 R2]; subst. inversion R2 as [|? ? ? ? E3 R3]; subst. clear E R0 R1 R2 R3.
    assert (U : norm2 (unitized (valQ q)) = 1).
    { unfold norm2, unitized. cbn [vx vy vz vw]. pose proof (lenQ_sq (valQ q)) as S. unfold norm2 in S.
      apply (Rmult_eq_reg_r (lenQ (valQ q) * lenQ (valQ q))); [|nra]. rewrite Rmult_1_l. rewrite S at 2. field. lra. }
    set (x := val (vx q) / lenQ (valQ q)) in *. set (y := val (vy q) / lenQ (valQ q)) in *.
    set (z := val (vz q) / lenQ (valQ q)) in *. set (w := val (vw q) / lenQ (valQ q)) in *.
    unfold unitized in *. cbn [valQ vx vy vz vw] in *. fold x y z w in U |- *. unfold norm2 in U. cbn [vx vy vz vw] in U.
    fold (qnormalize p q) in *. set (r := qnormalize p q) in *.
    assert (T : 2 * bpow radix2 (-150) <= 0.01 / 16777216) by (apply Rle_trans with (bpow radix2 (-60)); [replace 2 with (bpow radix2 1) by reflexivity; rewrite <- bpow_plus; apply bpow_le; lia|cbn; lra]).
    pose proof (bpow_gt_0 radix2 (-150)) as TP. set (t := 2 * bpow radix2 (-150)) in *.
    (* |error| <= 5.1 u |unit| + t (1,1,1,1) *)
    eapply Rle_trans with (lenQ (V4 (5.1 / 16777216 * Rabs x + t) (5.1 / 16777216 * Rabs y + t) (5.1 / 16777216 * Rabs z + t) (5.1 / 16777216 * Rabs w + t))).
    + apply sqrt_le_1_alt. unfold norm2, subQ. cbn [vx vy vz vw valQ].
      assert (K : forall a b, Rabs a <= b -> a * a <= b * b) by (intros a b Hab; apply abs2 in Hab; nra).
      pose proof (K _ _ E0). pose proof (K _ _ E1). pose proof (K _ _ E2). pose proof (K _ _ E3). lra.
    + replace (V4 _ _ _ _) with (addQ (V4 (5.1 / 16777216 * Rabs x) (5.1 / 16777216 * Rabs y) (5.1 / 16777216 * Rabs z) (5.1 / 16777216 * Rabs w)) (V4 t t t t)) by reflexivity.
      eapply Rle_trans; [apply lenQ_triangle|].
      assert (S : forall r, Rabs r * Rabs r = r * r) by (intros s; rewrite <- Rabs_mult; apply Rabs_right, Rle_ge, Rle_0_sqr).
      assert (A : lenQ (V4 (5.1 / 16777216 * Rabs x) (5.1 / 16777216 * Rabs y) (5.1 / 16777216 * Rabs z) (5.1 / 16777216 * Rabs w)) = 5.1 / 16777216).
      { unfold lenQ. replace (norm2 _) with ((5.1 / 16777216) * (5.1 / 16777216)).
        - apply sqrt_square. lra.
        - unfold norm2. cbn [vx vy vz vw]. pose proof (S x). pose proof (S y). pose proof (S z). pose proof (S w). 
          replace (_ + _ + _ + _) with ((5.1 / 16777216) * (5.1 / 16777216) * (Rabs x * Rabs x + Rabs y * Rabs y + Rabs z * Rabs z + Rabs w * Rabs w)) by ring.
          rewrite !S, U. ring. }
      assert (B : lenQ (V4 t t t t) = 2 * t).
      { unfold lenQ. replace (norm2 _) with ((2 * t) * (2 * t)) by (unfold norm2; cbn [vx vy vz vw]; ring). apply sqrt_square. unfold t. lra. }
      rewrite A, B. lra.
Qed.
(** for moderate numbers of products the error grows linearly *)
Lemma pow_quadratic : forall x n, 0 <= x -> INR n * x <= 1 -> (1 + x) ^ n <= 1 + INR n * x + (INR n * x) * (INR n * x).
Proof.
  intros x n X. induction n as [|n IH]; intros H; [cbn; lra|]. rewrite S_INR in *. pose proof (pos_INR n) as N. cbn [pow].
  assert (I : (1 + x) ^ n <= 1 + INR n * x + INR n * x * (INR n * x)) by (apply IH; nra). set (m := INR n) in *. set (P := (1 + x) ^ n) in *.
  assert (0 <= m * x) by (apply Rmult_le_pos; assumption).
  assert (G : m * x * (m * x) * x <= m * x * x + x * x).
  { assert (m * x * (m * x * x) <= 1 * (m * x * x)) by (apply Rmult_le_compat_r; [apply Rmult_le_pos; assumption|nra]). nra. }
  assert ((1 + x) * P <= (1 + x) * (1 + m * x + m * x * (m * x))) by (apply Rmult_le_compat_l; lra). nra.
Qed.
Lemma growQ_linear : forall d n, 0 <= d <= / 64 -> INR n * (d + 8.3 / 16777216) <= / 8 -> growQ d n - 1 <= 1.125 * INR n * (d + 8.3 / 16777216).
Proof.
  intros d n D H. pose proof (pos_INR n) as N. unfold growQ.
  assert (A : ((1 + d) * (1 + 8.1 / 16777216)) ^ n <= (1 + (d + 8.3 / 16777216)) ^ n) by (apply pow_incr; nra).
  pose proof (pow_quadratic (d + 8.3 / 16777216) n ltac:(lra) ltac:(lra)) as Q.
  set (y := INR n * (d + 8.3 / 16777216)) in *. assert (Y : 0 <= y) by (apply Rmult_le_pos; lra).
  replace (1.125 * INR n * (d + 8.3 / 16777216)) with (1.125 * y) by (unfold y; ring). nra.
Qed.
Theorem rotations_linear : forall d (qs : list (vec4 f32)) us, 0 <= d <= / 64 -> Forall2 (nearU d) qs us ->
  INR (length qs) * (d + 8.3 / 16777216) <= / 8 ->
  nearU (1.125 * INR (length qs) * (d + 8.3 / 16777216)) (fold_left qmul qs qidentity) (fold_left ham us idQ) /\
  nearU (1.125 * INR (length qs) * (d + 8.3 / 16777216)) (fold_right qmul qidentity qs) (fold_right ham idQ us).
Proof.
  intros d qs us D H L. pose proof (growQ_linear d (length qs) D L) as G.
  assert (B : growQ d (length qs) <= bpow radix2 60) by (apply Rle_trans with 2; [lra|apply (bpow_le radix2 1 60); lia]).
  destruct (rotations_left d qs us ltac:(lra) H B) as (F1 & U1 & D1). destruct (rotations_right d qs us ltac:(lra) H B) as (F2 & U2 & D2).
  split; (split; [assumption|split; [assumption|lra]]).
Qed.
