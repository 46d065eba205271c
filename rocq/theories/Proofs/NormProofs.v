(** Inner products, lengths and normalisation in binary32. *)
From Coq Require Import ZArith Bool List Reals Lra Lia Psatz.
From Flocq Require Import Core.Core IEEE754.BinarySingleNaN IEEE754.Binary IEEE754.Bits.
From Verif.Model Require Import Outcome Scalar Vec Simd Lanes Quaternion.
From Verif.Spec Require Import NormSpec.
From Verif.Proofs Require Import OrdScalar F32Round F32Err Approx ExpProofs ColorProofs.
Import ListNotations.
Local Open Scope R_scope.

Lemma small_num : forall x, Rabs x <= 170141183460469231731687303715884105728 -> small x.
Proof. intros x H. unfold small. replace (bpow radix2 127) with 170141183460469231731687303715884105728; [exact H|cbn; lra]. Qed.
Lemma abs2 : forall x a, Rabs x <= a -> - a <= x <= a.
Proof. intros x a H. apply Rabs_le_inv in H. exact H. Qed.
(** [x] is within [e] of [X], which is at most [S] *)
Definition eb (x : f32) (X S e : R) : Prop := fin x /\ Rabs (val x - X) <= e /\ Rabs X <= S.
Notation hugeR := 85070591730234615865843651857942052864 (only parsing).
Lemma eb_mul : forall a b : f32, fin a -> fin b -> Rabs (val a * val b) <= hugeR ->
  eb (a * b)%sc (val a * val b) (Rabs (val a * val b)) (u24 * Rabs (val a * val b) + eta0).
Proof.
  intros a b A B H. destruct (mul_small a b A B) as [F V]; [apply small_num; lra|].
  split; [exact F|]. split; [rewrite V; apply rnd_err|apply Rle_refl].
Qed.
Lemma eb_add : forall (x y : f32) X Y S T e g, eb x X S e -> eb y Y T g -> S + T + e + g <= hugeR ->
  eb (x + y)%sc (X + Y) (S + T) (e + g + (u24 * (S + T + e + g) + eta0)).
Proof.
  intros x y X Y S T e g (Fx & Ex & Mx) (Fy & Ey & My) H.
  apply abs2 in Ex, Ey, Mx, My.
  assert (B : Rabs (val x + val y) <= S + T + e + g) by (apply Rabs_le; lra).
  destruct (add_small x y Fx Fy) as [F V]; [apply small_num; lra|].
  split; [exact F|]. split; [|apply Rabs_le; lra].
  rewrite V. pose proof (rnd_err (val x + val y)) as R.
  assert (u24 * Rabs (val x + val y) <= u24 * (S + T + e + g)) by (apply Rmult_le_compat_l; [left; apply u24_pos|exact B]).
  apply abs2 in R. apply Rabs_le. lra.
Qed.
Lemma eb_sub : forall (x y : f32) X Y S T e g, eb x X S e -> eb y Y T g -> S + T + e + g <= hugeR ->
  eb (x - y)%sc (X - Y) (S + T) (e + g + (u24 * (S + T + e + g) + eta0)).
Proof.
  intros x y X Y S T e g (Fx & Ex & Mx) (Fy & Ey & My) H.
  apply abs2 in Ex, Ey, Mx, My.
  assert (B : Rabs (val x - val y) <= S + T + e + g) by (apply Rabs_le; lra).
  destruct (sub_small x y Fx Fy) as [F V]; [apply small_num; lra|].
  split; [exact F|]. split; [|apply Rabs_le; lra].
  rewrite V. pose proof (rnd_err (val x - val y)) as R.
  assert (u24 * Rabs (val x - val y) <= u24 * (S + T + e + g)) by (apply Rmult_le_compat_l; [left; apply u24_pos|exact B]).
  apply abs2 in R. apply Rabs_le. lra.
Qed.
Lemma eb_add0 : forall (x : f32) X S e, eb x X S e -> Rabs (val x) <= hugeR -> eb (x + f0)%sc X S e.
Proof.
  intros x X S e (Fx & Ex & Mx) H. destruct (lit_Z 0 ltac:(lia)) as [F0 V0].
  assert (E0 : val (f0 : f32) = 0) by exact V0.
  destruct (add_small x f0 Fx F0) as [F V]; [rewrite E0, Rplus_0_r; apply small_num; lra|].
  rewrite E0, Rplus_0_r, rnd_val in V. split; [exact F|]. rewrite V. split; assumption.
Qed.
Lemma eb_weak : forall (x : f32) X S e T f, eb x X S e -> S <= T -> e <= f -> eb x X T f.
Proof. intros x X S e T f (A & B & C) H K. split; [exact A|]. split; lra. Qed.
Lemma eb_eq : forall (x : f32) X Y S e, eb x X S e -> X = Y -> eb x Y S e.
Proof. intros x X Y S e H <-. exact H. Qed.

(** inner products of two, three and four terms *)
Lemma eta_val : bpow radix2 (-150) = eta0. Proof. reflexivity. Qed.
Lemma within_of : forall (d : f32) a b k e, eb d (inner a b) (innerAbs a b) e -> e <= k / 16777216 * innerAbs a b + 10 * eta0 -> innerErr k d a b.
Proof. intros d a b k e (F & E & _) H. split; [exact F|]. rewrite eta_val. lra. Qed.
Section Dots.
  Variables a0 a1 a2 a3 b0 b1 b2 b3 : f32.
  Hypothesis Fa0 : fin a0. Hypothesis Fa1 : fin a1. Hypothesis Fa2 : fin a2. Hypothesis Fa3 : fin a3.
  Hypothesis Fb0 : fin b0. Hypothesis Fb1 : fin b1. Hypothesis Fb2 : fin b2. Hypothesis Fb3 : fin b3.
  Ltac start2 := pose proof eta0_small as ES; pose proof eta0_pos as EP; pose proof u24_val as UV;
    pose proof (Rabs_pos (val a0 * val b0)) as P0; pose proof (Rabs_pos (val a1 * val b1)) as P1; cbn [innerAbs] in *.
  Ltac start3 := start2; pose proof (Rabs_pos (val a2 * val b2)) as P2.
  Ltac start := start3; pose proof (Rabs_pos (val a3 * val b3)) as P3.
  Lemma dot2_eb : innerAbs [a0; a1] [b0; b1] <= hugeR / 4 -> innerErr 2.01 (a0 * b0 + a1 * b1)%sc [a0; a1] [b0; b1].
  Proof.
    intros H. start2.
    pose proof (eb_mul a0 b0 Fa0 Fb0 ltac:(lra)) as M0. pose proof (eb_mul a1 b1 Fa1 Fb1 ltac:(lra)) as M1.
    rewrite UV in *. pose proof (eb_add _ _ _ _ _ _ _ _ M0 M1 ltac:(lra)) as A. rewrite UV in A.
    eapply within_of; [eapply eb_weak; [eapply eb_eq; [exact A|cbn [inner]; ring]|cbn [innerAbs]; lra|apply Rle_refl]|cbn [innerAbs]; lra].
  Qed.
  Lemma dot3_eb : innerAbs [a0; a1; a2] [b0; b1; b2] <= hugeR / 4 ->
    innerErr 3.01 (a0 * b0 + a1 * b1 + a2 * b2)%sc [a0; a1; a2] [b0; b1; b2].
  Proof.
    intros H. start3.
    pose proof (eb_mul a0 b0 Fa0 Fb0 ltac:(lra)) as M0. pose proof (eb_mul a1 b1 Fa1 Fb1 ltac:(lra)) as M1.
    pose proof (eb_mul a2 b2 Fa2 Fb2 ltac:(lra)) as M2.
    rewrite UV in *. pose proof (eb_add _ _ _ _ _ _ _ _ M0 M1 ltac:(lra)) as A. rewrite UV in A.
    pose proof (eb_add _ _ _ _ _ _ _ _ A M2 ltac:(lra)) as B. rewrite UV in B.
    eapply within_of; [eapply eb_weak; [eapply eb_eq; [exact B|cbn [inner]; ring]|cbn [innerAbs]; lra|apply Rle_refl]|cbn [innerAbs]; lra].
  Qed.
  Lemma dot30_eb : innerAbs [a0; a1; a2] [b0; b1; b2] <= hugeR / 4 ->
    innerErr 3.01 ((a0 * b0 + a1 * b1) + (a2 * b2 + f0))%sc [a0; a1; a2] [b0; b1; b2].
  Proof.
    intros H. start3.
    pose proof (eb_mul a0 b0 Fa0 Fb0 ltac:(lra)) as M0. pose proof (eb_mul a1 b1 Fa1 Fb1 ltac:(lra)) as M1.
    pose proof (eb_mul a2 b2 Fa2 Fb2 ltac:(lra)) as M2.
    rewrite UV in *. pose proof (eb_add _ _ _ _ _ _ _ _ M0 M1 ltac:(lra)) as A. rewrite UV in A.
    apply eb_add0 in M2.
    2: { destruct M2 as (_ & X & Y). apply abs2 in X, Y. apply Rabs_le. lra. }
    pose proof (eb_add _ _ _ _ _ _ _ _ A M2 ltac:(lra)) as B. rewrite UV in B.
    eapply within_of; [eapply eb_weak; [eapply eb_eq; [exact B|cbn [inner]; ring]|cbn [innerAbs]; lra|apply Rle_refl]|cbn [innerAbs]; lra].
  Qed.
  Lemma dot4_eb : innerAbs [a0; a1; a2; a3] [b0; b1; b2; b3] <= hugeR / 4 ->
    innerErr 4.01 (a0 * b0 + a1 * b1 + a2 * b2 + a3 * b3)%sc [a0; a1; a2; a3] [b0; b1; b2; b3].
  Proof.
    intros H. start.
    pose proof (eb_mul a0 b0 Fa0 Fb0 ltac:(lra)) as M0. pose proof (eb_mul a1 b1 Fa1 Fb1 ltac:(lra)) as M1.
    pose proof (eb_mul a2 b2 Fa2 Fb2 ltac:(lra)) as M2. pose proof (eb_mul a3 b3 Fa3 Fb3 ltac:(lra)) as M3.
    rewrite UV in *. pose proof (eb_add _ _ _ _ _ _ _ _ M0 M1 ltac:(lra)) as A. rewrite UV in A.
    pose proof (eb_add _ _ _ _ _ _ _ _ A M2 ltac:(lra)) as B. rewrite UV in B.
    pose proof (eb_add _ _ _ _ _ _ _ _ B M3 ltac:(lra)) as C. rewrite UV in C.
    eapply within_of; [eapply eb_weak; [eapply eb_eq; [exact C|cbn [inner]; ring]|cbn [innerAbs]; lra|apply Rle_refl]|cbn [innerAbs]; lra].
  Qed.
  Lemma dot22_eb : innerAbs [a0; a1; a2; a3] [b0; b1; b2; b3] <= hugeR / 4 ->
    innerErr 4.01 ((a0 * b0 + a1 * b1) + (a2 * b2 + a3 * b3))%sc [a0; a1; a2; a3] [b0; b1; b2; b3].
  Proof.
    intros H. start.
    pose proof (eb_mul a0 b0 Fa0 Fb0 ltac:(lra)) as M0. pose proof (eb_mul a1 b1 Fa1 Fb1 ltac:(lra)) as M1.
    pose proof (eb_mul a2 b2 Fa2 Fb2 ltac:(lra)) as M2. pose proof (eb_mul a3 b3 Fa3 Fb3 ltac:(lra)) as M3.
    rewrite UV in *. pose proof (eb_add _ _ _ _ _ _ _ _ M0 M1 ltac:(lra)) as A. rewrite UV in A.
    pose proof (eb_add _ _ _ _ _ _ _ _ M2 M3 ltac:(lra)) as B. rewrite UV in B.
    pose proof (eb_add _ _ _ _ _ _ _ _ A B ltac:(lra)) as C. rewrite UV in C.
    eapply within_of; [eapply eb_weak; [eapply eb_eq; [exact C|cbn [inner]; ring]|cbn [innerAbs]; lra|apply Rle_refl]|cbn [innerAbs]; lra].
  Qed.
End Dots.

(** the path-dependent inner products *)
Notation limit := 21267647932558653966460912964485513216 (only parsing).
Ltac fins H := unfold allFin, l2, l3, l4, l43 in H; rewrite !Forall_cons_iff in H; 
  repeat match goal with K : _ /\ _ |- _ => destruct K end.
Lemma dotp2_err : forall a b : vec2 f32, allFin (l2 a) -> allFin (l2 b) -> innerAbs (l2 a) (l2 b) <= limit ->
  innerErr 2.01 (dotp2 a b) (l2 a) (l2 b).
Proof. intros a b A B H. fins A. fins B. apply dot2_eb; try assumption. unfold l2 in H. lra. Qed.
Lemma dotp3_err : forall a b : vec3 f32, allFin (l3 a) -> allFin (l3 b) -> innerAbs (l3 a) (l3 b) <= limit ->
  innerErr 3.01 (dotp3 a b) (l3 a) (l3 b).
Proof. intros a b A B H. fins A. fins B. apply dot3_eb; try assumption. unfold l3 in H. lra. Qed.
Lemma dotp4_err : forall a b : vec4 f32, allFin (l4 a) -> allFin (l4 b) -> innerAbs (l4 a) (l4 b) <= limit ->
  innerErr 4.01 (dotp4 a b) (l4 a) (l4 b).
Proof. intros a b A B H. fins A. fins B. apply dot4_eb; try assumption. unfold l4 in H. lra. Qed.
Lemma dot3_err : forall p (a b : vec4 f32), allFin (l43 a) -> allFin (l43 b) -> innerAbs (l43 a) (l43 b) <= limit ->
  innerErr 3.01 (dot3 p a b) (l43 a) (l43 b).
Proof.
  intros p a b A B H. fins A. fins B. unfold l43 in *.
  destruct p; cbn [dot3]; [apply dot3_eb|apply dot30_eb|apply dot30_eb|apply dot30_eb|apply dot3_eb]; try assumption; lra.
Qed.
Lemma dot4_err : forall p (a b : vec4 f32), allFin (l4 a) -> allFin (l4 b) -> innerAbs (l4 a) (l4 b) <= limit ->
  innerErr 4.01 (dot4 p a b) (l4 a) (l4 b).
Proof.
  intros p a b A B H. fins A. fins B. unfold l4 in *.
  destruct p; cbn [dot4]; [apply dot4_eb|apply dot22_eb|apply dot22_eb|apply dot22_eb|apply dot4_eb]; try assumption; lra.
Qed.

(** square roots *)
Lemma sqrt_fin32 : forall x : f32, fin x -> 0 <= val x -> fin (ssqrt x) /\ val (ssqrt x) = rnd (sqrt (val x)).
Proof.
  intros x F H. cbn [ssqrt ScalarF32]. unfold b32_sqrt.
  destruct (Binary.Bsqrt_correct 24 128 eq_refl eq_refl unop_nan_pl32 mode_NE x) as (K1 & K2 & _).
  split; [|exact K1]. rewrite K2. destruct x as [s|s|s pl e|s m e E]; try reflexivity; try discriminate F.
  destruct s; [|reflexivity]. exfalso. cbn in H. 
  assert (@F2R radix2 {| Fnum := Z.neg m; Fexp := e |} < 0) by (apply F2R_lt_0; reflexivity). lra.
Qed.

(** sums of squares *)
Lemma inner_self : forall l, innerAbs l l = inner l l.
Proof. induction l as [|x l IH]; [reflexivity|]. cbn [inner innerAbs]. rewrite IH, Rabs_right; [reflexivity|]. apply Rle_ge, Rle_0_sqr. Qed.
Lemma inner_pos : forall l, 0 <= inner l l.
Proof. induction l as [|x l IH]; cbn [inner]; [lra|]. pose proof (Rle_0_sqr (val x)) as H. unfold Rsqr in H. lra. Qed.
Lemma inner_lane : forall l x, In x l -> val x * val x <= inner l l.
Proof.
  induction l as [|y l IH]; intros x H; [destruct H|]. cbn [inner]. pose proof (inner_pos l) as P.
  pose proof (Rle_0_sqr (val y)) as Q. unfold Rsqr in Q. destruct H as [<-|H]; [lra|]. specialize (IH x H). lra.
Qed.
Definition lo : R := / 1267650600228229401496703205376.
Definition hi : R := 1267650600228229401496703205376.
Lemma moderate_range : forall l, moderate l -> lo <= inner l l <= hi.
Proof. intros l (_ & A & B). unfold lo, hi. cbn in A, B. lra. Qed.
Lemma moderate_limit : forall l, moderate l -> innerAbs l l <= limit.
Proof. intros l H. rewrite inner_self. pose proof (moderate_range l H) as [_ B]. unfold hi in B. lra. Qed.
Definition sl : R := / 1125899906842624.
Definition sh : R := 1125899906842624.
Lemma norm_range : forall l, moderate l -> sl <= norm l <= sh /\ norm l * norm l = inner l l.
Proof.
  intros l H. pose proof (moderate_range l H) as [A B]. unfold norm.
  assert (P : 0 <= inner l l) by apply inner_pos. split; [|apply sqrt_sqrt, P].
  replace sl with (sqrt lo). replace sh with (sqrt hi). split; apply sqrt_le_1; try assumption; unfold lo, hi in *; try lra.
  - replace hi with (sh * sh) by (unfold hi, sh; lra). apply sqrt_square. unfold sh. lra.
  - replace lo with (sl * sl) by (unfold lo, sl; lra). apply sqrt_square. unfold sl. lra.
Qed.
Lemma eta_tiny : eta0 <= / 1000000000000000000000000000000000000000000000.
Proof. unfold eta0. cbn. lra. Qed.
(** the length computed from an inner product of at most 4.01 errors *)
Lemma length_err : forall (d : f32) l, moderate l -> innerErr 4.01 d l l ->
  fin (ssqrt d) /\ Rabs (val (ssqrt d) - norm l) <= 3.02 / 16777216 * norm l.
Proof.
  intros d l M (F & E). rewrite inner_self, eta_val in E. pose proof (moderate_range l M) as [A B].
  destruct (norm_range l M) as [[N1 N2] NN]. pose proof eta_tiny as ET. pose proof eta0_pos as EP.
  set (n := norm l) in *. set (S := inner l l) in *. apply abs2 in E. unfold lo, hi, sl, sh in *.
  assert (D : S * (1 - 4.011 / 16777216) <= val d <= S * (1 + 4.011 / 16777216)) by lra.
  destruct (sqrt_fin32 d F ltac:(lra)) as [FS VS]. split; [exact FS|]. rewrite VS.
  assert (U : sqrt (val d) <= n * (1 + 2.006 / 16777216)).
  { rewrite <- (sqrt_square (n * (1 + 2.006 / 16777216))) by lra. apply sqrt_le_1; [lra|nra|].
    replace (n * (1 + 2.006 / 16777216) * (n * (1 + 2.006 / 16777216))) with (n * n * ((1 + 2.006 / 16777216) * (1 + 2.006 / 16777216))) by ring.
    rewrite NN. eapply Rle_trans; [apply D|]. apply Rmult_le_compat_l; lra. }
  assert (L : n * (1 - 2.006 / 16777216) <= sqrt (val d)).
  { rewrite <- (sqrt_square (n * (1 - 2.006 / 16777216))) by lra. apply sqrt_le_1; [nra|lra|].
    replace (n * (1 - 2.006 / 16777216) * (n * (1 - 2.006 / 16777216))) with (n * n * ((1 - 2.006 / 16777216) * (1 - 2.006 / 16777216))) by ring.
    rewrite NN. eapply Rle_trans; [|apply D]. apply Rmult_le_compat_l; lra. }
  pose proof (rnd_err (sqrt (val d))) as R. rewrite (Rabs_right (sqrt _)) in R by (apply Rle_ge, sqrt_pos). rewrite u24_val in R.
  apply abs2 in R. apply Rabs_le. lra.
Qed.
(** one lane divided by the length, and multiplied by its reciprocal *)
Lemma div_lane : forall (v L : f32) n, fin v -> fin L -> sl <= n <= sh -> Rabs (val v) <= n ->
  Rabs (val L - n) <= 3.02 / 16777216 * n ->
  fin (v / L)%sc /\ Rabs (val (v / L)%sc - val v / n) <= 5.1 / 16777216 * Rabs (val v / n) + 2 * eta0.
Proof.
  intros v L n Fv FL N V E. unfold sl, sh in N. apply abs2 in E as E'. pose proof eta0_pos as EP.
  assert (LP : 0 < val L) by lra. assert (LN : val L <> 0) by lra.
  set (q := val v / n). assert (Q : Rabs q <= 1).
  { unfold q, Rdiv. rewrite Rabs_mult, (Rabs_right (/ n)) by (left; apply Rinv_0_lt_compat; lra).
    apply (Rmult_le_reg_r n); [lra|]. rewrite Rmult_assoc, Rinv_l by lra. lra. }
  assert (X : Rabs (val v / val L - q) <= 3.021 / 16777216 * Rabs q).
  { replace (val v / val L - q) with (q * ((n - val L) / val L)) by (unfold q; field; lra).
    rewrite Rabs_mult, Rmult_comm. apply Rmult_le_compat_r; [apply Rabs_pos|].
    unfold Rdiv at 1. rewrite Rabs_mult, (Rabs_right (/ val L)) by (left; apply Rinv_0_lt_compat; lra).
    rewrite Rabs_minus_sym. apply (Rmult_le_reg_r (val L)); [lra|]. rewrite Rmult_assoc, Rinv_l by lra. lra. }
  pose proof (Rabs_pos q) as QP.
  assert (Y : Rabs (val v / val L) <= (1 + 3.021 / 16777216) * Rabs q).
  { replace (val v / val L) with (q + (val v / val L - q)) by ring. eapply Rle_trans; [apply Rabs_triang|]. lra. }
  destruct (div_small v L Fv FL LN) as [F W]; [apply small_num; lra|]. split; [exact F|]. rewrite W.
  pose proof (rnd_err (val v / val L)) as R. rewrite u24_val in R.
  replace (rnd (val v / val L) - q) with ((rnd (val v / val L) - val v / val L) + (val v / val L - q)) by ring.
  eapply Rle_trans; [apply Rabs_triang|]. lra.
Qed.
Lemma mul_lane : forall (v L : f32) n, fin v -> fin L -> sl <= n <= sh -> Rabs (val v) <= n ->
  Rabs (val L - n) <= 3.02 / 16777216 * n ->
  fin (v * (f1 / L))%sc /\ Rabs (val (v * (f1 / L))%sc - val v / n) <= 5.1 / 16777216 * Rabs (val v / n) + 2 * eta0.
Proof.
  intros v L n Fv FL N V E. unfold sl, sh in N. apply abs2 in E as E'. pose proof eta0_pos as EP. pose proof eta_tiny as ET.
  assert (LP : 0 < val L) by lra. assert (LN : val L <> 0) by lra.
  destruct f1_fin as [F1 V1].
  assert (I : 0 < / n) by (apply Rinv_0_lt_compat; lra).
  assert (IB : / 1125899906842625 <= / n <= 1125899906842625).
  { split; [apply Rinv_le_contravar; lra|]. rewrite <- (Rinv_inv 1125899906842625). apply Rinv_le_contravar; [apply Rinv_0_lt_compat; lra|lra]. }
  assert (X : Rabs (1 / val L - / n) <= 3.021 / 16777216 * / n).
  { replace (1 / val L - / n) with (/ n * ((n - val L) / val L)) by (field; lra).
    rewrite Rabs_mult, (Rabs_right (/ n)) by lra. rewrite Rmult_comm. apply Rmult_le_compat_r; [lra|].
    unfold Rdiv at 1. rewrite Rabs_mult, (Rabs_right (/ val L)) by (left; apply Rinv_0_lt_compat; lra).
    rewrite Rabs_minus_sym. apply (Rmult_le_reg_r (val L)); [lra|]. rewrite Rmult_assoc, Rinv_l by lra. lra. }
  apply abs2 in X.
  destruct (div_small f1 L F1 FL LN) as [F W]; [rewrite V1; apply small_num, Rabs_le; lra|]. rewrite V1 in W.
  pose proof (rnd_err (1 / val L)) as R. rewrite u24_val, (Rabs_right (1 / val L)) in R by lra. rewrite <- W in R. apply abs2 in R.
  set (c := (f1 / L : f32)%sc) in *.
  assert (C : Rabs (val c - / n) <= 4.03 / 16777216 * / n) by (apply Rabs_le; lra).
  set (q := val v / n). pose proof (Rabs_pos q) as QP.
  assert (Q : Rabs q <= 1).
  { unfold q, Rdiv. rewrite Rabs_mult, (Rabs_right (/ n)) by lra.
    apply (Rmult_le_reg_r n); [lra|]. rewrite Rmult_assoc, Rinv_l by lra. lra. }
  assert (Z : Rabs (val v * val c - q) <= 4.03 / 16777216 * Rabs q).
  { unfold q, Rdiv at 1 3. replace (val v * val c - val v * / n) with (val v * (val c - / n)) by ring. rewrite !Rabs_mult.
    rewrite (Rabs_right (/ n)) by lra. replace (4.03 / 16777216 * (Rabs (val v) * / n)) with (Rabs (val v) * (4.03 / 16777216 * / n)) by ring.
    apply Rmult_le_compat_l; [apply Rabs_pos|exact C]. }
  assert (Y : Rabs (val v * val c) <= (1 + 4.03 / 16777216) * Rabs q).
  { replace (val v * val c) with (q + (val v * val c - q)) by ring. eapply Rle_trans; [apply Rabs_triang|]. lra. }
  destruct (mul_small v c Fv F) as [G K]; [apply small_num; lra|]. split; [exact G|]. rewrite K.
  pose proof (rnd_err (val v * val c)) as RR. rewrite u24_val in RR.
  replace (rnd (val v * val c) - q) with ((rnd (val v * val c) - val v * val c) + (val v * val c - q)) by ring.
  eapply Rle_trans; [apply Rabs_triang|]. lra.
Qed.
Lemma lane_le_norm : forall l x, moderate l -> In x l -> Rabs (val x) <= norm l.
Proof.
  intros l x M H. destruct (norm_range l M) as [[A _] B]. pose proof (inner_lane l x H) as C. rewrite <- B in C.
  unfold sl in A. apply Rabs_le. nra.
Qed.
Lemma div_all : forall l (L : f32), moderate l -> fin L -> Rabs (val L - norm l) <= 3.02 / 16777216 * norm l ->
  unitOf 5.1 (map (fun x => x / L)%sc l) l.
Proof.
  intros l L M FL E. destruct (norm_range l M) as [N _]. pose proof (lane_le_norm l) as B. pose proof M as (A & _). unfold allFin in A.
  assert (K : forall x, In x l -> fin (x / L)%sc /\ Rabs (val (x / L)%sc - val x / norm l) <= 5.1 / 16777216 * Rabs (val x / norm l) + 2 * eta0).
  { intros x Hx. apply div_lane; try assumption; [|apply B; assumption]. rewrite Forall_forall in A. apply A, Hx. }
  unfold unitOf, allFin. rewrite eta_val. clear - K. generalize dependent (norm l). intros n K. induction l as [|x l IH]; cbn [map]; [split; constructor|].
  destruct IH as [I J]; [intros y Hy; apply K; right; exact Hy|]. destruct (K x (or_introl eq_refl)) as [P Q]. split; constructor; assumption.
Qed.
Lemma mul_all : forall l (L : f32), moderate l -> fin L -> Rabs (val L - norm l) <= 3.02 / 16777216 * norm l ->
  unitOf 5.1 (map (fun x => x * (f1 / L))%sc l) l.
Proof.
  intros l L M FL E. destruct (norm_range l M) as [N _]. pose proof (lane_le_norm l) as B. pose proof M as (A & _). unfold allFin in A.
  assert (K : forall x, In x l -> fin (x * (f1 / L))%sc /\ Rabs (val (x * (f1 / L))%sc - val x / norm l) <= 5.1 / 16777216 * Rabs (val x / norm l) + 2 * eta0).
  { intros x Hx. apply mul_lane; try assumption; [|apply B; assumption]. rewrite Forall_forall in A. apply A, Hx. }
  unfold unitOf, allFin. rewrite eta_val. clear - K. generalize dependent (norm l). intros n K. induction l as [|x l IH]; cbn [map]; [split; constructor|].
  destruct IH as [I J]; [intros y Hy; apply K; right; exact Hy|]. destruct (K x (or_introl eq_refl)) as [P Q]. split; constructor; assumption.
Qed.
Lemma errs_weak : forall k d a b, innerErr k d a b -> k <= 4.01 -> 0 <= innerAbs a b -> innerErr 4.01 d a b.
Proof. intros k d a b (F & E) H P. split; [exact F|]. eapply Rle_trans; [exact E|]. apply Rplus_le_compat_r. apply Rmult_le_compat_r; lra. Qed.
Lemma self_err : forall k (d : f32) l, (allFin l -> allFin l -> innerAbs l l <= limit -> innerErr k d l l) -> k <= 4.01 -> moderate l -> innerErr 4.01 d l l.
Proof.
  intros k d l H K M. apply errs_weak with k; [|exact K|rewrite inner_self; apply inner_pos].
  pose proof M as (A & _). apply H; [exact A|exact A|apply moderate_limit, M].
Qed.
(** every computed square of the length *)
Lemma lenSq2 : forall v : vec2 f32, moderate (l2 v) -> innerErr 4.01 (dotp2 v v) (l2 v) (l2 v).
Proof. intros v. apply self_err with 2.01; [apply dotp2_err|lra]. Qed.
Lemma lenSq3 : forall v : vec3 f32, moderate (l3 v) -> innerErr 4.01 (dotp3 v v) (l3 v) (l3 v).
Proof. intros v. apply self_err with 3.01; [apply dotp3_err|lra]. Qed.
Lemma lenSq4 : forall v : vec4 f32, moderate (l4 v) -> innerErr 4.01 (dotp4 v v) (l4 v) (l4 v).
Proof. intros v. apply self_err with 4.01; [apply dotp4_err|lra]. Qed.
Lemma lenSqs3 : forall p (v : vec4 f32), moderate (l43 v) -> innerErr 4.01 (dot3 p v v) (l43 v) (l43 v).
Proof. intros p v. apply self_err with 3.01; [apply dot3_err|lra]. Qed.
Lemma lenSqs4 : forall p (v : vec4 f32), moderate (l4 v) -> innerErr 4.01 (dot4 p v v) (l4 v) (l4 v).
Proof. intros p v. apply self_err with 4.01; [apply dot4_err|lra]. Qed.
Lemma lengths_near : forall p,
  (forall v : vec2 f32, moderate (l2 v) -> fin (lengthp2 v) /\ Rabs (val (lengthp2 v) - norm (l2 v)) <= 3.02 / 16777216 * norm (l2 v)) /\
  (forall v : vec3 f32, moderate (l3 v) -> fin (lengthp3 v) /\ Rabs (val (lengthp3 v) - norm (l3 v)) <= 3.02 / 16777216 * norm (l3 v)) /\
  (forall v : vec4 f32, moderate (l4 v) -> fin (lengthp4 v) /\ Rabs (val (lengthp4 v) - norm (l4 v)) <= 3.02 / 16777216 * norm (l4 v)) /\
  (forall v : vec4 f32, moderate (l43 v) -> fin (length3 p v) /\ Rabs (val (length3 p v) - norm (l43 v)) <= 3.02 / 16777216 * norm (l43 v)) /\
  (forall v : vec4 f32, moderate (l4 v) -> fin (length4 p v) /\ Rabs (val (length4 p v) - norm (l4 v)) <= 3.02 / 16777216 * norm (l4 v)).
Proof.
  intros p. split; [|split; [|split; [|split]]]; intros v M; (apply length_err; [exact M|]).
  - apply lenSq2, M.
  - apply lenSq3, M.
  - apply lenSq4, M.
  - apply lenSqs3, M.
  - apply lenSqs4, M.
Qed.
Lemma normalize_near : forall p,
  (forall v : vec2 f32, moderate (l2 v) -> unitOf 5.1 (l2 (normalizep2 v)) (l2 v)) /\
  (forall v : vec3 f32, moderate (l3 v) -> unitOf 5.1 (l3 (normalizep3 v)) (l3 v)) /\
  (forall v : vec4 f32, moderate (l4 v) -> unitOf 5.1 (l4 (normalizep4 v)) (l4 v)) /\
  (forall v : vec4 f32, moderate (l43 v) -> unitOf 5.1 (l43 (normalize3 p v)) (l43 v)) /\
  (forall v : vec4 f32, moderate (l4 v) -> unitOf 5.1 (l4 (normalize4 p v)) (l4 v)).
Proof.
  intros p. destruct (lengths_near p) as (L2 & L3 & L4 & L43 & L44).
  split; [|split; [|split; [|split]]]; intros v M.
  - destruct (L2 v M) as [A B]. exact (mul_all (l2 v) _ M A B).
  - destruct (L3 v M) as [A B]. exact (mul_all (l3 v) _ M A B).
  - destruct (L4 v M) as [A B]. exact (mul_all (l4 v) _ M A B).
  - destruct (L43 v M) as [A B]. destruct p; [exact (mul_all (l43 v) _ M A B)|exact (div_all (l43 v) _ M A B)|exact (div_all (l43 v) _ M A B)|exact (div_all (l43 v) _ M A B)|exact (mul_all (l43 v) _ M A B)].
  - destruct (L44 v M) as [A B]. destruct p; [exact (mul_all (l4 v) _ M A B)|exact (div_all (l4 v) _ M A B)|exact (div_all (l4 v) _ M A B)|exact (div_all (l4 v) _ M A B)|exact (mul_all (l4 v) _ M A B)].
Qed.
(** the squared length of the result *)
Lemma unit_square : forall r l k, 0 <= k <= 6 -> moderate l -> unitOf k r l ->
  Rabs (inner r r - 1) <= (2 * k + 0.01) / 16777216 + INR (length l) * (6 * eta0) /\ allFin r.
Proof.
  intros r l k K M (Fr & Q). split; [|exact Fr]. destruct (norm_range l M) as [[A A'] B]. unfold sl in A. rewrite eta_val in Q.
  pose proof eta0_pos as EP. pose proof eta_tiny as ET.
  assert (G : Rabs (inner r r - inner l l / (norm l * norm l)) <= (2 * k + 0.01) / 16777216 * (inner l l / (norm l * norm l)) + INR (length l) * (6 * eta0)).
  { assert (Bd : Forall (fun y => Rabs (val y / norm l) <= 1) l).
    { apply Forall_forall. intros y Hy. unfold Rdiv. rewrite Rabs_mult, (Rabs_right (/ norm l)) by (left; apply Rinv_0_lt_compat; lra).
      apply (Rmult_le_reg_r (norm l)); [lra|]. rewrite Rmult_assoc, Rinv_l by lra. rewrite Rmult_1_r, Rmult_1_l. apply lane_le_norm; assumption. }
    assert (NP : 0 < norm l) by lra. clear - K Q EP ET Bd NP. revert Q Bd NP. generalize (norm l) as n. intros n Q Bd NP.
    induction Q as [|x y r l Hxy Q IH].
    - cbn [inner length INR]. unfold Rdiv. rewrite Rmult_0_l, Rminus_0_r, Rabs_R0, !Rmult_0_l, Rmult_0_r. lra.
    - apply Forall_cons_iff in Bd. destruct Bd as [By Bl]. specialize (IH Bl). cbn [inner].
      change (length (y :: l)) with (S (length l)). rewrite S_INR.
      assert (Eq : (val y * val y + inner l l) / (n * n) = val y / n * (val y / n) + inner l l / (n * n)) by (field; lra).
      rewrite Eq. set (q := val y / n) in *. set (W := inner l l / (n * n)) in *. set (V := inner r r) in *. set (N := INR (length l)) in *.
      assert (S : Rabs (val x * val x - q * q) <= (2 * k + 0.01) / 16777216 * (q * q) + 6 * eta0).
      { replace (val x * val x - q * q) with ((val x - q) * ((val x - q) + 2 * q)) by ring. rewrite Rabs_mult.
        pose proof (Rabs_pos q) as QP. pose proof (Rabs_pos (val x - q)) as DP.
        assert (T : Rabs (val x - q + 2 * q) <= Rabs (val x - q) + 2 * Rabs q).
        { eapply Rle_trans; [apply Rabs_triang|]. rewrite Rabs_mult, (Rabs_right 2) by lra. lra. }
        assert (SQ : q * q = Rabs q * Rabs q) by (rewrite <- Rabs_mult; symmetry; apply Rabs_right, Rle_ge, Rle_0_sqr).
        rewrite SQ. set (w := Rabs q) in *. set (dl := Rabs (val x - q)) in *. set (f := k / 16777216).
        assert (Fk : 0 <= f <= 6 / 16777216) by (unfold f; lra).
        assert (H1 : dl <= f * w + 2 * eta0) by exact Hxy.
        apply Rle_trans with ((f * w + 2 * eta0) * (f * w + 2 * eta0 + 2 * w)).
        { apply Rmult_le_compat; try lra. apply Rabs_pos. }
        replace ((2 * k + 0.01) / 16777216) with (2 * f + 0.01 / 16777216) by (unfold f; field).
        assert (E1 : f * w * (f * w) <= (0.005 / 16777216) * (w * w)).
        { replace (f * w * (f * w)) with (f * f * (w * w)) by ring. apply Rmult_le_compat_r; [nra|]. nra. }
        assert (E2 : eta0 * (f * w) <= eta0 * (6 / 16777216)) by (apply Rmult_le_compat_l; nra).
        assert (E3 : eta0 * w <= eta0) by nra. assert (E4 : eta0 * eta0 <= eta0 * / 16777216) by (apply Rmult_le_compat_l; lra).
        nra. }
      replace (val x * val x + V - (q * q + W)) with ((val x * val x - q * q) + (V - W)) by ring.
      assert (IH' : Rabs (V - W) <= (2 * k + 0.01) / 16777216 * W + N * (6 * eta0)) by exact IH.
      eapply Rle_trans; [apply Rabs_triang|]. eapply Rle_trans; [apply Rplus_le_compat; [exact S|exact IH']|].
      right. ring. }
  replace (inner l l / (norm l * norm l)) with 1 in G by (rewrite <- B; field; lra). rewrite Rmult_1_r in G. exact G.
Qed.
Lemma tol_val : fin (slit 8796093 (-43) : f32) /\ val (slit 8796093 (-43) : f32) = 8796093 / 8796093022208.
Proof. destruct (lit_exact 8796093 (-43) ltac:(lia) ltac:(lia)) as [A B]. split; [exact A|]. rewrite B. cbn. lra. Qed.
Lemma close_one : forall (d : f32) r, innerErr 4.01 d r r -> Rabs (inner r r - 1) <= 10.3 / 16777216 ->
  sle (sabs (d - f1)%sc) (slit 8796093 (-43)) = true.
Proof.
  intros d r (F & E) H. rewrite inner_self, eta_val in E. apply abs2 in E, H. pose proof eta_tiny as ET. pose proof eta0_pos as EP.
  destruct f1_fin as [F1 V1]. destruct (sub_small d f1 F F1) as [G K]; [rewrite V1; apply small_num, Rabs_le; lra|]. rewrite V1 in K.
  pose proof (rnd_err (val d - 1)) as R. rewrite u24_val in R.
  assert (B : Rabs (val d - 1) <= 14.4 / 16777216) by (apply Rabs_le; lra). 
  destruct tol_val as [FT VT]. cbn [sabs ScalarF32]. unfold b32_abs.
  rewrite sle_fin; [|rewrite is_finite_Babs; exact G|exact FT]. apply Rle_bool_true.
  rewrite VT, B2R_Babs. change (B2R 24 128 (d - f1)%sc) with (val (d - f1)%sc). rewrite K.
  replace (rnd (val d - 1)) with ((rnd (val d - 1) - (val d - 1)) + (val d - 1)) by ring.
  eapply Rle_trans; [apply Rabs_triang|]. lra.
Qed.
Lemma unit_limit : forall r l, moderate l -> (length l <= 4)%nat -> unitOf 5.1 r l ->
  Rabs (inner r r - 1) <= 10.3 / 16777216 /\ allFin r /\ innerAbs r r <= limit.
Proof.
  intros r l M N U. destruct (unit_square r l 5.1 ltac:(lra) M U) as [A B]. pose proof eta_tiny as ET. pose proof eta0_pos as EP.
  assert (INR (length l) <= 4) by (apply (le_INR _ 4) in N; cbn in N; lra).
  assert (C : Rabs (inner r r - 1) <= 10.3 / 16777216) by (eapply Rle_trans; [exact A|]; nra).
  split; [exact C|]. split; [exact B|]. rewrite inner_self. apply abs2 in C. lra.
Qed.
Lemma normalized_test : forall p,
  (forall v : vec2 f32, moderate (l2 v) -> isNormalizedp2 (normalizep2 v) = true) /\
  (forall v : vec3 f32, moderate (l3 v) -> isNormalizedp3 (normalizep3 v) = true) /\
  (forall v : vec4 f32, moderate (l4 v) -> isNormalizedp4 (normalizep4 v) = true) /\
  (forall v : vec4 f32, moderate (l43 v) -> isNormalized3 p (normalize3 p v) = true) /\
  (forall v : vec4 f32, moderate (l4 v) -> isNormalized4 p (normalize4 p v) = true).
Proof.
  intros p. destruct (normalize_near p) as (N2 & N3 & N4 & N43 & N44).
  split; [|split; [|split; [|split]]]; intros v M.
  - destruct (unit_limit _ _ M ltac:(cbn; lia) (N2 v M)) as (A & B & C). apply close_one with (l2 (normalizep2 v)); [|exact A].
    apply errs_weak with 2.01; [apply dotp2_err; assumption|lra|rewrite inner_self; apply inner_pos].
  - destruct (unit_limit _ _ M ltac:(cbn; lia) (N3 v M)) as (A & B & C). apply close_one with (l3 (normalizep3 v)); [|exact A].
    apply errs_weak with 3.01; [apply dotp3_err; assumption|lra|rewrite inner_self; apply inner_pos].
  - destruct (unit_limit _ _ M ltac:(cbn; lia) (N4 v M)) as (A & B & C). apply close_one with (l4 (normalizep4 v)); [|exact A].
    apply dotp4_err; assumption.
  - destruct (unit_limit _ _ M ltac:(cbn; lia) (N43 v M)) as (A & B & C). apply close_one with (l43 (normalize3 p v)); [|exact A].
    apply errs_weak with 3.01; [apply dot3_err; assumption|lra|rewrite inner_self; apply inner_pos].
  - destruct (unit_limit _ _ M ltac:(cbn; lia) (N44 v M)) as (A & B & C). apply close_one with (l4 (normalize4 p v)); [|exact A].
    apply dot4_err; assumption.
Qed.

(** cross products *)
Lemma det2_err : forall a b c d : f32, fin a -> fin b -> fin c -> fin d ->
  Rabs (val a * val b) + Rabs (val c * val d) <= limit ->
  fin (a * b - c * d)%sc /\
  Rabs (val (a * b - c * d)%sc - (val a * val b - val c * val d)) <=
    2.01 / 16777216 * (Rabs (val a * val b) + Rabs (val c * val d)) + 10 * bpow radix2 (-150).
Proof.
  intros a b c d A B C D H. rewrite eta_val. pose proof eta0_small as ES. pose proof eta0_pos as EP. pose proof u24_val as UV.
  pose proof (Rabs_pos (val a * val b)) as P0. pose proof (Rabs_pos (val c * val d)) as P1.
  pose proof (eb_mul a b A B ltac:(lra)) as M0. pose proof (eb_mul c d C D ltac:(lra)) as M1.
  rewrite UV in *. destruct (eb_sub _ _ _ _ _ _ _ _ M0 M1 ltac:(lra)) as (F & E & _). rewrite UV in E.
  split; [exact F|]. eapply Rle_trans; [exact E|]. lra.
Qed.
Definition lim62 : R := 2305843009213693952.
Lemma prod_lim : forall a b : f32, Rabs (val a) <= lim62 -> Rabs (val b) <= lim62 -> Rabs (val a * val b) <= limit / 4.
Proof.
  intros a b A B. rewrite Rabs_mult. apply Rle_trans with (lim62 * lim62); [apply Rmult_le_compat; try apply Rabs_pos; assumption|unfold lim62; lra].
Qed.
Lemma det2_ok : forall a b c d : f32, fin a -> fin b -> fin c -> fin d ->
  Rabs (val a) <= lim62 -> Rabs (val b) <= lim62 -> Rabs (val c) <= lim62 -> Rabs (val d) <= lim62 -> det2Err (a * b - c * d)%sc a b c d.
Proof.
  intros a b c d A B C D HA HB HC HD. apply det2_err; try assumption. pose proof (prod_lim a b HA HB). pose proof (prod_lim c d HC HD). lra.
Qed.
Lemma det2_swap : forall r a b c d : f32, det2Err r b a c d -> det2Err r a b c d.
Proof. intros r a b c d. unfold det2Err. rewrite (Rmult_comm (val b)). exact (fun H => H). Qed.
Lemma cross_err : forall a b : vec3 f32, allFin (l3 a) -> allFin (l3 b) -> boundedBy (bpow radix2 61) (l3 a) -> boundedBy (bpow radix2 61) (l3 b) ->
  crossErr (l3 (crossp a b)) (l3 a) (l3 b).
Proof.
  intros a b A B HA HB. replace (bpow radix2 61) with lim62 in HA, HB by (cbn; unfold lim62; lra). fins A. fins B.
  unfold boundedBy, l3 in HA, HB. rewrite !Forall_cons_iff in HA, HB. decompose [and] HA. decompose [and] HB.
  unfold crossErr, l3, crossp. cbn [x3 y3 z3].
  split; [|split]; apply det2_ok; assumption.
Qed.
Lemma cross3_err : forall p (a b : vec4 f32), allFin (l43 a) -> allFin (l43 b) -> boundedBy (bpow radix2 61) (l43 a) -> boundedBy (bpow radix2 61) (l43 b) ->
  crossErr (l43 (cross3 p a b)) (l43 a) (l43 b).
Proof.
  intros p a b A B HA HB. replace (bpow radix2 61) with lim62 in HA, HB by (cbn; unfold lim62; lra). fins A. fins B.
  unfold boundedBy, l43 in HA, HB. rewrite !Forall_cons_iff in HA, HB. decompose [and] HA. decompose [and] HB.
  destruct p; unfold crossErr, l43, cross3, swYZXX, ofFloat3, crossp, xyz, vsub, vmul, map2_4; cbn [x3 y3 z3 vx vy vz vw];
    (split; [|split]);
    first [apply det2_ok; assumption|apply det2_swap; apply det2_ok; assumption].
Qed.
Lemma pow124 : 2 ^ 124 = limit. Proof. cbn. lra. Qed.
Lemma dots_plain :
  (forall a b : vec2 f32, allFin (l2 a) -> allFin (l2 b) -> innerAbs (l2 a) (l2 b) <= 2 ^ 124 -> innerErr 2.01 (dotp2 a b) (l2 a) (l2 b)) /\
  (forall a b : vec3 f32, allFin (l3 a) -> allFin (l3 b) -> innerAbs (l3 a) (l3 b) <= 2 ^ 124 -> innerErr 3.01 (dotp3 a b) (l3 a) (l3 b)) /\
  (forall a b : vec4 f32, allFin (l4 a) -> allFin (l4 b) -> innerAbs (l4 a) (l4 b) <= 2 ^ 124 -> innerErr 4.01 (dotp4 a b) (l4 a) (l4 b)).
Proof. rewrite pow124. split; [exact dotp2_err|split; [exact dotp3_err|exact dotp4_err]]. Qed.
Lemma dots_simd : forall p (a b : vec4 f32),
  (allFin (l43 a) -> allFin (l43 b) -> innerAbs (l43 a) (l43 b) <= 2 ^ 124 -> innerErr 3.01 (dot3 p a b) (l43 a) (l43 b)) /\
  (allFin (l4 a) -> allFin (l4 b) -> innerAbs (l4 a) (l4 b) <= 2 ^ 124 -> innerErr 4.01 (dot4 p a b) (l4 a) (l4 b)).
Proof. intros p a b. rewrite pow124. split; [apply dot3_err|apply dot4_err]. Qed.
