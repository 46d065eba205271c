(** Colours as XYZ and Yxy in binary32: the error analysis. *)
From Coq Require Import ZArith Bool List Reals Lra Lia Psatz.
From Flocq Require Import Core.Core IEEE754.BinarySingleNaN IEEE754.Binary IEEE754.Bits.
From Verif.Model Require Import Scalar Vec Simd Matrix Numeric.
From Verif.Spec Require Import NormSpec MatErrSpec YxySpec.
From Verif.Proofs Require Import OrdScalar F32Round F32Err NormProofs MatErrProofs RayErr ViewErr DirProofs.
Import ListNotations.
Local Open Scope R_scope.

Notation U := (/ 16777216).
Definition B120 : R := 1329227995784915872903807060280344576.
Definition ok (V : R) : Prop := / B120 <= V <= B120.
Definition rel (k : R) (x : f32) (X : R) : Prop := fin x /\ (1 - k * U) * X <= val x <= (1 + k * U) * X.
Lemma b120 : bpow radix2 120 = B120. Proof. unfold B120. cbn. lra. Qed.
Lemma bm120 : bpow radix2 (-120) = / B120. Proof. rewrite <- b120. change (-120)%Z with (- (120))%Z. apply bpow_opp. Qed.
Lemma rel_rnd : forall k t V, 0 <= k <= 50 -> ok V -> (1 - k * U) * V <= t <= (1 + k * U) * V ->
  small t /\ (1 - (k + 1.0001) * U) * V <= rnd t <= (1 + (k + 1.0001) * U) * V.
Proof.
  intros k t V K [V1 V2] [T1 T2]. assert (P : 0 < / B120) by (unfold B120; lra).
  assert (T0 : V / 2 <= t) by nra. assert (T3 : t <= 2 * V) by nra.
  split.
  - unfold small. rewrite Rabs_right by lra. apply Rle_trans with (2 * B120); [lra|]. rewrite <- b120.
    replace (2 * bpow radix2 120) with (bpow radix2 121) by (change 121%Z with (1 + 120)%Z; rewrite bpow_plus; cbn; lra). apply bpow_le. lia.
  - destruct (rel_normal t) as (e & He & E).
    { rewrite Rabs_right by lra. apply Rle_trans with (bpow radix2 (-121)); [apply bpow_le; lia|].
      apply Rle_trans with (V / 2); [|exact T0]. replace (bpow radix2 (-121)) with (bpow radix2 (-120) / 2); [rewrite bm120; lra|].
      change (-121)%Z with (-120 + -1)%Z. rewrite bpow_plus. change (bpow radix2 (-1)) with (/ 2). lra. }
    rewrite E. apply Rabs_le_inv in He. rewrite u24_val in He. assert (0 < V) by lra.
    assert (A : (1 - k * U) * (1 - U) >= 1 - (k + 1.0001) * U) by nra.
    assert (B : (1 + k * U) * (1 + U) <= 1 + (k + 1.0001) * U) by nra.
    split.
    + apply Rle_trans with ((1 - k * U) * (1 - U) * V); [nra|].
      apply Rle_trans with (t * (1 - U)); [nra|]. nra.
    + apply Rle_trans with ((1 + k * U) * (1 + U) * V); [|nra].
      apply Rle_trans with (t * (1 + U)); [|nra]. nra.
Qed.
Lemma rel_add : forall a k (x y : f32) X Y, 0 <= a <= 20 -> rel a x X -> rel a y Y -> ok (X + Y) -> a + 1.0001 <= k -> rel k (x + y)%sc (X + Y).
Proof.
  intros a k x y X Y A [Fx [X1 X2]] [Fy [Y1 Y2]] O K.
  destruct (rel_rnd a (val x + val y) (X + Y)) as [S R]; [lra|exact O|split; lra|].
  destruct (add_small x y Fx Fy S) as [F V]. split; [exact F|]. rewrite V. assert (0 <= X + Y) by (destruct O as [O _]; unfold B120 in O; lra). nra.
Qed.
Lemma rel_mul : forall a b k (x y : f32) X Y, 0 <= a <= 20 -> 0 <= b <= 20 -> 0 < X -> 0 < Y -> rel a x X -> rel b y Y -> ok (X * Y) ->
  a + b + 1.0002 <= k -> rel k (x * y)%sc (X * Y).
Proof.
  intros a b k x y X Y A B PX PY [Fx [X1 X2]] [Fy [Y1 Y2]] O K.
  assert (A1 : (1 - a * U) * (1 - b * U) >= 1 - (a + b + 0.0001) * U) by nra.
  assert (B1 : (1 + a * U) * (1 + b * U) <= 1 + (a + b + 0.0001) * U) by nra.
  assert (PXY : 0 < X * Y) by nra. assert (Q1 : 0 <= (1 - a * U) * X) by nra. assert (Q2 : 0 <= (1 - b * U) * Y) by nra.
  destruct (rel_rnd (a + b + 0.0001) (val x * val y) (X * Y)) as [S R]; [lra|exact O| |].
  { split.
    - apply Rle_trans with (((1 - a * U) * X) * ((1 - b * U) * Y)); [|apply Rmult_le_compat; lra].
      replace (((1 - a * U) * X) * ((1 - b * U) * Y)) with ((1 - a * U) * (1 - b * U) * (X * Y)) by ring. apply Rmult_le_compat_r; lra.
    - apply Rle_trans with (((1 + a * U) * X) * ((1 + b * U) * Y)); [apply Rmult_le_compat; lra|].
      replace (((1 + a * U) * X) * ((1 + b * U) * Y)) with ((1 + a * U) * (1 + b * U) * (X * Y)) by ring. apply Rmult_le_compat_r; lra. }
  destruct (mul_small x y Fx Fy S) as [F V]. split; [exact F|]. rewrite V. nra.
Qed.
Lemma rel_div : forall a b k (x y : f32) X Y, 0 <= a <= 20 -> 0 <= b <= 20 -> 0 < X -> 0 < Y -> rel a x X -> rel b y Y -> ok (X / Y) ->
  a + b + 1.0002 <= k -> rel k (x / y)%sc (X / Y).
Proof.
  intros a b k x y X Y A B PX PY [Fx [X1 X2]] [Fy [Y1 Y2]] O K.
  assert (A1 : 1 - a * U >= (1 - (a + b + 0.0001) * U) * (1 + b * U)) by nra.
  assert (B1 : 1 + a * U <= (1 + (a + b + 0.0001) * U) * (1 - b * U)) by nra.
  assert (PXY : 0 < X / Y) by (apply Rdiv_lt_0_compat; lra). assert (Py : 0 < val y) by nra.
  assert (EX : X = X / Y * Y) by (field; lra).
  destruct (rel_rnd (a + b + 0.0001) (val x / val y) (X / Y)) as [S R]; [lra|exact O| |].
  { assert (C1 : 0 <= 1 - (a + b + 0.0001) * U) by nra.
    split.
    - apply Rmult_le_reg_r with (val y); [exact Py|]. replace (val x / val y * val y) with (val x) by (field; lra).
      apply Rle_trans with ((1 - (a + b + 0.0001) * U) * (X / Y) * ((1 + b * U) * Y)).
      { apply Rmult_le_compat_l; [apply Rmult_le_pos; lra|lra]. }
      replace ((1 - (a + b + 0.0001) * U) * (X / Y) * ((1 + b * U) * Y)) with ((1 - (a + b + 0.0001) * U) * (1 + b * U) * X) by (field; lra).
      apply Rle_trans with ((1 - a * U) * X); [apply Rmult_le_compat_r; lra|exact X1].
    - apply Rmult_le_reg_r with (val y); [exact Py|]. replace (val x / val y * val y) with (val x) by (field; lra).
      apply Rle_trans with ((1 + (a + b + 0.0001) * U) * (X / Y) * ((1 - b * U) * Y)).
      2:{ apply Rmult_le_compat_l; [apply Rmult_le_pos; lra|lra]. }
      replace ((1 + (a + b + 0.0001) * U) * (X / Y) * ((1 - b * U) * Y)) with ((1 + (a + b + 0.0001) * U) * (1 - b * U) * X) by (field; lra).
      apply Rle_trans with ((1 + a * U) * X); [exact X2|apply Rmult_le_compat_r; lra]. }
  destruct (div_small x y Fx Fy ltac:(lra) S) as [F V]. split; [exact F|]. rewrite V. nra.
Qed.

Lemma b34 : bpow radix2 34 = 17179869184. Proof. cbn. lra. Qed.
Lemma bm34 : bpow radix2 (-34) = / 17179869184. Proof. cbn. lra. Qed.
Lemma rel_exact : forall x : f32, fin x -> rel 0 x (val x).
Proof. intros x F. split; [exact F|lra]. Qed.
Lemma rel_weak : forall a b (x : f32) X, 0 < X -> a <= b -> rel a x X -> rel b x X.
Proof. intros a b x X P L [F H]. split; [exact F|]. nra. Qed.
Lemma rel_units : forall k (x : f32) X, rel k x X -> units k x X X.
Proof. intros k x X [F H]. split; [exact F|]. apply Rabs_le. lra. Qed.

Lemma step1 : forall a b c xc e, 0 < a -> 0 < b -> 0 < c -> a + b + c = 1 -> (1 - 4.0008 * U) * a <= xc <= (1 + 4.0008 * U) * a -> - U <= e <= U ->
  b + c - (4.0008 * a + 1.0001 * (b + c) + 0.0001) * U <= (1 - xc) * (1 + e) <= b + c + (4.0008 * a + 1.0001 * (b + c) + 0.0001) * U.
Proof.
  intros a b c xc e A B C S X E. set (d := xc - a). assert (D : - (4.0008 * U * a) <= d <= 4.0008 * U * a) by (unfold d; lra).
  replace ((1 - xc) * (1 + e)) with (b + c - d + (b + c - d) * e) by (unfold d; replace (b + c) with (1 - a) by lra; ring).
  assert (Rabs ((b + c - d) * e) <= (b + c + 4.0008 * U * a) * U).
  { rewrite Rabs_mult. apply Rmult_le_compat; [apply Rabs_pos|apply Rabs_pos|apply Rabs_le; lra|apply Rabs_le; lra]. }
  apply Rabs_le_inv in H. lra.
Qed.
Lemma step2 : forall a b c m yc e, 0 < a -> 0 < b -> 0 < c -> a + b + c = 1 -> (1 - 4.0008 * U) * b <= yc <= (1 + 4.0008 * U) * b -> - U <= e <= U ->
  b + c - (4.0008 * a + 1.0001 * (b + c) + 0.0001) * U <= m <= b + c + (4.0008 * a + 1.0001 * (b + c) + 0.0001) * U ->
  c - (4.0008 * (a + b) + 1.0001 * (b + c) + c + 0.0003) * U <= (m - yc) * (1 + e) <= c + (4.0008 * (a + b) + 1.0001 * (b + c) + c + 0.0003) * U.
Proof.
  intros a b c m yc e A B C S Y E M. set (d := m - yc - c).
  assert (D : - ((4.0008 * (a + b) + 1.0001 * (b + c) + 0.0001) * U) <= d <= (4.0008 * (a + b) + 1.0001 * (b + c) + 0.0001) * U) by (unfold d; lra).
  replace ((m - yc) * (1 + e)) with (c + d + (c + d) * e) by (unfold d; ring).
  assert (Rabs ((c + d) * e) <= (c + 10 * U) * U).
  { rewrite Rabs_mult. apply Rmult_le_compat; [apply Rabs_pos|apply Rabs_pos|apply Rabs_le; lra|apply Rabs_le; lra]. }
  apply Rabs_le_inv in H. lra.
Qed.
Lemma ratio : forall b yc, 0 < b -> (1 - 4.0008 * U) * b <= yc <= (1 + 4.0008 * U) * b -> 0 < yc /\ 1 - 4.0011 * U <= b / yc <= 1 + 4.0011 * U.
Proof.
  intros b yc B Y. assert (P : 0 < yc) by lra. split; [exact P|].
  split; (apply Rmult_le_reg_r with yc; [exact P|]); unfold Rdiv; rewrite Rmult_assoc, Rinv_l by lra; lra.
Qed.
(* q = y n up to rounding; w = q / yc *)
Lemma step3 : forall S b c n yc q y eta, 0 < S -> 0 < b -> 0 <= Rabs n <= c + 0.000001 -> c <= 1 -> 0 <= c -> y = b * S -> (1 - 4.0008 * U) * b <= yc <= (1 + 4.0008 * U) * b ->
  Rabs (q - y * n) <= U * Rabs (y * n) + eta -> 0 <= eta -> eta <= 0.00009 * (U * S) * b ->
  Rabs (q / yc - S * n) <= U * S * (5.0013 * Rabs n + 0.0001).
Proof.
  intros S b c n yc q y eta HS B N C1 C0 YS Y Q E0 E. destruct (ratio b yc B Y) as [P Rho].
  replace (q / yc - S * n) with (S * n * (b / yc - 1) + (q - y * n) / yc) by (rewrite YS; field; lra).
  eapply Rle_trans; [apply Rabs_triang|].
  assert (SN : 0 <= S * Rabs n) by (apply Rmult_le_pos; lra).
  assert (A1 : Rabs (S * n * (b / yc - 1)) <= S * Rabs n * (4.0011 * U)).
  { rewrite !Rabs_mult, (Rabs_right S) by lra. apply Rmult_le_compat_l; [exact SN|apply Rabs_le; lra]. }
  assert (A2 : Rabs ((q - y * n) / yc) <= U * (S * Rabs n) * (b / yc) + eta / yc).
  { unfold Rdiv. rewrite Rabs_mult, (Rabs_right (/ yc)) by (apply Rle_ge, Rlt_le, Rinv_0_lt_compat, P).
    replace (U * (S * Rabs n) * (b * / yc) + eta * / yc) with ((U * (y * Rabs n) + eta) * / yc) by (rewrite YS; ring).
    apply Rmult_le_compat_r; [apply Rlt_le, Rinv_0_lt_compat, P|]. rewrite Rabs_mult, (Rabs_right y) in Q by (rewrite YS; apply Rle_ge, Rmult_le_pos; lra). exact Q. }
  assert (A3 : U * (S * Rabs n) * (b / yc) <= U * (S * Rabs n) * 1.0001) by (apply Rmult_le_compat_l; lra).
  assert (A4 : eta / yc <= 0.0001 * (U * S)).
  { apply Rmult_le_reg_r with yc; [exact P|]. unfold Rdiv. rewrite Rmult_assoc, Rinv_l by lra. rewrite Rmult_1_r.
    apply Rle_trans with (0.0001 * (U * S) * (0.9 * b)); [lra|]. apply Rmult_le_compat_l; lra. }
  lra.
Qed.
Lemma step4 : forall S a b c n w r eta, 0 < S -> 0 < a -> 0 < b -> 0 < c -> a + b + c = 1 -> 0 <= Rabs n <= c + 0.000001 ->
  c - (4.0008 * (a + b) + 1.0001 * (b + c) + c + 0.0003) * U <= n <= c + (4.0008 * (a + b) + 1.0001 * (b + c) + c + 0.0003) * U ->
  Rabs (w - S * n) <= U * S * (5.0013 * Rabs n + 0.0001) -> Rabs (r - w) <= U * Rabs w + eta -> eta <= 0.0001 * (U * S) ->
  Rabs w <= 1.2 * S /\ Rabs (r - S * c) <= 8.01 * U * S.
Proof.
  intros S a b c n w r eta HS A B C T N NC W R E.
  assert (SN : 0 <= S * Rabs n <= S * (c + 0.000001)) by (split; [apply Rmult_le_pos|apply Rmult_le_compat_l]; lra).
  assert (W2 : Rabs w <= S * (1.0001 * Rabs n) + 0.0001 * (U * S)).
  { replace w with ((w - S * n) + S * n) by ring. eapply Rle_trans; [apply Rabs_triang|]. rewrite Rabs_mult, (Rabs_right S) by lra. lra. }
  assert (SC : 0 < S * c <= S) by (split; [apply Rmult_lt_0_compat; lra|rewrite <- (Rmult_1_r S) at 2; apply Rmult_le_compat_l; lra]).
  split; [lra|].
  replace (r - S * c) with ((r - w) + (w - S * n) + S * (n - c)) by ring.
  eapply Rle_trans; [apply Rabs_triang|]. eapply Rle_trans; [apply Rplus_le_compat_r, Rabs_triang|].
  assert (K : Rabs (S * (n - c)) <= S * ((4.0008 * (a + b) + 1.0001 * (b + c) + c + 0.0003) * U)).
  { rewrite Rabs_mult, (Rabs_right S) by lra. apply Rmult_le_compat_l; [lra|apply Rabs_le; lra]. }
  assert (Sa : 0 < S * a) by (apply Rmult_lt_0_compat; lra). assert (Sb : 0 < S * b) by (apply Rmult_lt_0_compat; lra).
  assert (ST : S * a + S * b + S * c = S) by (rewrite <- !Rmult_plus_distr_l, T; ring).
  lra.
Qed.

Lemma eta_real : eta0 <= / 1000000000000000000000000000000000000000000000.
Proof. unfold eta0. change (-150)%Z with (- (150))%Z. rewrite bpow_opp. apply Rinv_le; [lra|]. cbn. lra. Qed.

Section Yxy.
  Variables (p : path) (v : vec4 f32).
  Hypothesis T : tristimulus v.
  Let x := val (vx v). Let y := val (vy v). Let z := val (vz v). Let S := x + y + z.
  Let L := / 17179869184. Let H := 17179869184.
  Lemma ranges : fin (vx v) /\ fin (vy v) /\ fin (vz v) /\ L <= x <= H /\ L <= y <= H /\ L <= z <= H.
  Proof.
    destruct T as ([Fx X] & [Fy Y] & [Fz Z]). rewrite b34, bm34 in X, Y, Z. unfold L, H, x, y, z. tauto.
  Qed.
  Lemma sum_rel : rel 2.0003 (dot3 p v (dup4 f1)) S.
  Proof.
    destruct ranges as (Fx & Fy & Fz & X & Y & Z). unfold L, H in *.
    assert (O : forall a : f32, fin a -> holds (a * f1)%sc (val a)).
    { intros a Fa. apply is_eq with (val a * 1); [|ring]. apply mul_is; [exact (conj Fa eq_refl)|exact one_is|].
      apply rep_as with (val a); [exact (rep_val a Fa)|ring]. }
    destruct (O _ Fx) as [Ox Ex]. destruct (O _ Fy) as [Oy Ey]. destruct (O _ Fz) as [Oz Ez].
    assert (R1 : rel 1.0001 (vx v * f1 + vy v * f1)%sc (x + y)).
    { apply rel_add with 0; [lra|split; [exact Ox|rewrite Ex; fold x; lra]|split; [exact Oy|rewrite Ey; fold y; lra]|unfold ok, B120; lra|lra]. }
    assert (R2 : forall t : f32, holds t z -> rel 2.0003 (vx v * f1 + vy v * f1 + t)%sc S).
    { intros t [Ft Et]. apply rel_add with 1.0001; [lra|exact R1|split; [exact Ft|rewrite Et; nra]|unfold ok, B120; lra|lra]. }
    assert (Z0 : holds (vz v * f1 + f0)%sc z).
    { apply is_eq with (z + 0); [|ring]. apply add_is; [exact (O _ Fz)|exact zero_is|]. apply rep_as with z; [exact (rep_val _ Fz)|ring]. }
    pose proof (R2 _ Z0) as G1. pose proof (R2 _ (O _ Fz)) as G2. unfold dot3. destruct p; assumption.
  Qed.
  Lemma S_range : 3 * L <= S <= 3 * H.
  Proof. destruct ranges as (_ & _ & _ & X & Y & Z). unfold S. lra. Qed.
  Lemma share : forall t, L <= t <= H -> / 1000000000000000000000 <= t / S <= 6000000000000000000000.
  Proof.
    intros t Ht. pose proof S_range as HS. unfold L, H in *. split.
    - apply Rmult_le_reg_r with S; [lra|]. unfold Rdiv. rewrite Rmult_assoc, Rinv_l by lra. lra.
    - apply Rmult_le_reg_r with S; [lra|]. unfold Rdiv. rewrite Rmult_assoc, Rinv_l by lra. lra.
  Qed.
  Definition inv := (f1 / dot3 p v (dup4 f1))%sc : f32.
  Lemma inv_rel : rel 3.0005 inv (1 / S).
  Proof.
    pose proof S_range as HS. unfold L, H in *. unfold inv. destruct one_is as [F1 V1].
    apply rel_div with 0 2.0003; [lra|lra|lra|lra|split; [exact F1|rewrite V1; lra]|exact sum_rel| |lra].
    unfold ok, B120. split; (apply Rmult_le_reg_r with S; [lra|]); unfold Rdiv; rewrite ?Rmult_1_l, ?Rinv_l by lra; lra.
  Qed.
  Lemma share_rel : forall t : f32, fin t -> L <= val t <= H -> rel 4.0008 (t * inv)%sc (val t / S).
  Proof.
    intros t Ft Ht. pose proof S_range as HS. pose proof (share _ Ht) as Hq. unfold L, H in *.
    replace (val t / S) with (val t * (1 / S)) in * by (field; lra).
    apply rel_mul with 0 3.0005; [lra|lra|lra|apply Rdiv_lt_0_compat; lra|apply rel_exact; exact Ft|exact inv_rel|unfold ok, B120; lra|lra].
  Qed.
  Theorem to_yxy : let c := xyzToYxy p v in vx c = vy v /\ units 4.01 (vy c) (x / S) (x / S) /\ units 4.01 (vz c) (y / S) (y / S).
  Proof.
    destruct ranges as (Fx & Fy & Fz & X & Y & Z). pose proof (share _ X) as QX. pose proof (share _ Y) as QY.
    split; [reflexivity|]. split; apply rel_units; (eapply rel_weak; [| |apply share_rel; assumption]; lra).
  Qed.
  Definition xc := (vx v * inv)%sc : f32.
  Definition yc := (vy v * inv)%sc : f32.
  Lemma back_x : rel 10.01 (vy v * xc / yc)%sc x.
  Proof.
    destruct ranges as (Fx & Fy & Fz & X & Y & Z). pose proof S_range as HS. pose proof (share _ X) as QX. pose proof (share _ Y) as QY. unfold L, H in *.
    assert (Px : 0 < x / S) by lra. assert (Py : 0 < y / S) by lra.
    assert (M : rel 5.0012 (vy v * xc)%sc (y * (x / S))).
    { apply rel_mul with 0 4.0008; [lra|lra|lra|exact Px|apply rel_exact; exact Fy|apply share_rel; assumption| |lra]. unfold ok, B120. split; nra. }
    replace x with (y * (x / S) / (y / S)) by (field; lra).
    apply rel_div with 5.0012 4.0008; [lra|lra|nra|exact Py|exact M|apply share_rel; assumption| |lra].
    replace (y * (x / S) / (y / S)) with x by (field; lra). unfold ok, B120. lra.
  Qed.
  Lemma back_z : fin (vy v * (f1 - xc - yc) / yc)%sc /\ Rabs (val (vy v * (f1 - xc - yc) / yc)%sc - z) <= 8.01 * U * S.
  Proof.
    destruct ranges as (Fx & Fy & Fz & X & Y & Z). pose proof S_range as HS. pose proof (share _ X) as QX. pose proof (share _ Y) as QY. pose proof (share _ Z) as QZ.
    unfold L, H in *. destruct (share_rel _ Fx X) as [F1 [X1 X2]]. destruct (share_rel _ Fy Y) as [F2 [Y1 Y2]].
    fold xc in F1, X1, X2. fold yc in F2, Y1, Y2. fold x in X1, X2. fold y in Y1, Y2.
    set (a := x / S) in *. set (b := y / S) in *. set (c := z / S) in *.
    assert (ABC : a + b + c = 1) by (unfold a, b, c, S; field; unfold S in HS; lra).
    assert (Pa : 0 < a) by lra. assert (Pb : 0 < b) by lra. assert (Pc : 0 < c) by lra.
    destruct one_is as [FO VO].
    destruct (sub_small f1 xc FO F1) as [Fm Vm]; [apply small_le with 2; [rewrite VO; apply Rabs_le; lra|lra]|].
    destruct (sub_rel f1 xc) as (e1 & E1 & R1). rewrite R1, VO in Vm. apply Rabs_le_inv in E1. rewrite u24_val in E1.
    set (m := (f1 - xc)%sc) in *.
    pose proof (step1 a b c (val xc) e1 Pa Pb Pc ABC (conj X1 X2) E1) as M. rewrite <- Vm in M.
    destruct (sub_small m yc Fm F2) as [Fn Vn]; [apply small_le with 4; [apply Rabs_le; lra|lra]|].
    destruct (sub_rel m yc) as (e2 & E2 & R2). rewrite R2 in Vn. apply Rabs_le_inv in E2. rewrite u24_val in E2.
    set (n := (m - yc)%sc) in *.
    pose proof (step2 a b c (val m) (val yc) e2 Pa Pb Pc ABC (conj Y1 Y2) E2 M) as N. rewrite <- Vn in N.
    assert (Hn : 0 <= Rabs (val n) <= c + 0.000001) by (split; [apply Rabs_pos|apply Rabs_le; lra]).
    assert (Yp : 0 < y) by lra.
    destruct (mul_small (vy v) n Fy Fn) as [Fq Vq].
    { apply small_num. fold y. rewrite Rabs_mult, (Rabs_right y) by lra. apply Rle_trans with (17179869184 * 4); [|lra].
      apply Rmult_le_compat; lra. }
    pose proof (rnd_err (val (vy v) * val n)) as Eq. rewrite <- Vq in Eq. fold y in Eq. rewrite u24_val in Eq.
    set (q := (vy v * n)%sc) in *.
    pose proof eta0_pos as He0. pose proof eta_real as He1.
    destruct (ratio b (val yc) Pb (conj Y1 Y2)) as [Yc _].
    assert (SU : / 100000000000000000 <= U * S) by lra.
    assert (Eb : eta0 <= 0.00009 * (U * S) * b).
    { apply Rle_trans with (0.00009 * / 100000000000000000 * / 1000000000000000000000); [lra|]. apply Rmult_le_compat; lra. }
    assert (YS : y = b * S) by (unfold b; field; lra). assert (SP : 0 < S) by lra.
    pose proof (step3 S b c (val n) (val yc) (val q) y eta0 SP Pb Hn ltac:(lra) ltac:(lra) YS (conj Y1 Y2) Eq ltac:(lra) Eb) as W.
    set (w := val q / val yc) in *. pose proof (rnd_err w) as Er. rewrite u24_val in Er.
    destruct (step4 S a b c (val n) w (rnd w) eta0 SP Pa Pb Pc ABC Hn N W Er ltac:(lra)) as [WB G].
    destruct (div_small q yc Fq F2 ltac:(lra)) as [Fz' Vz]; [apply small_num; fold w; lra|].
    split; [exact Fz'|]. rewrite Vz. fold w. replace z with (S * c) by (unfold c; field; lra). exact G.
  Qed.
  Theorem and_back : let r := yxyToXyz (xyzToYxy p v) in units 10.01 (vx r) x x /\ vy r = vy v /\ units 8.01 (vz r) z S.
  Proof.
    split; [|split].
    - apply rel_units. exact back_x.
    - reflexivity.
    - destruct back_z as [F E]. split; [exact F|]. eapply Rle_trans; [exact E|]. lra.
  Qed.
End Yxy.
