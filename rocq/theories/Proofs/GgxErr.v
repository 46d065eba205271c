(** GGX and reflectance in binary32. *)
From Coq Require Import ZArith Bool List Reals Lra Lia Psatz.
From Flocq Require Import Core.Core IEEE754.BinarySingleNaN IEEE754.Binary IEEE754.Bits.
From Verif.Model Require Import Scalar Vec Simd Numeric.
From Verif.Spec Require Import AngleSpec GgxSpec.
From Verif.Proofs Require Import OrdScalar F32Round F32Err NumericProofs NormProofs PiBounds RayErr YxyErr YxyRgb AngleErr CubeErr.
Local Open Scope R_scope.

(** ** Small quantities: [k] relative errors and an absolute one *)
Definition ap (k T x X : R) : Prop := Rabs (x - X) <= k * U * Rabs X + T * tiny.
Lemma ap_mul : forall T a b k x X y Y, 1 <= T <= 10000 -> 0 <= a <= 10 -> 0 <= b <= 10 -> Rabs X <= 2 -> Rabs Y <= 2 -> ap a T x X -> ap b T y Y -> a + b + 1.0001 <= k ->
  ap k (6 * T) (rnd (x * y)) (X * Y).
Proof.
  intros T a b k x X y Y HT A B HX HY Hx Hy K. unfold ap in *. pose proof (Rabs_pos X) as PX. pose proof (Rabs_pos Y) as PY.
  set (p := Rabs X) in *. set (q := Rabs Y) in *. set (d := x - X) in *. set (e := y - Y) in *.
  assert (PQ : 0 <= p * q) by (apply Rmult_le_pos; assumption). set (t := T * tiny) in *. assert (Ht : tiny <= t <= 10000 * tiny) by (unfold t; lra).
  assert (E : Rabs (x * y - X * Y) <= (a + b + 0.00001) * U * (p * q) + 4.1 * t).
  { replace (x * y - X * Y) with (d * Y + X * e + d * e) by (unfold d, e; ring).
    eapply Rle_trans; [apply Rabs_triang|]. eapply Rle_trans; [apply Rplus_le_compat_r, Rabs_triang|]. rewrite !Rabs_mult. fold p q.
    pose proof (Rabs_pos d) as Pd. pose proof (Rabs_pos e) as Pe.
    assert (tq : t * q <= t * 2) by (apply Rmult_le_compat_l; lra). assert (tp : t * p <= t * 2) by (apply Rmult_le_compat_l; lra).
    assert (tt : t * t <= t * (10000 * tiny)) by (apply Rmult_le_compat_l; lra).
    assert (T1 : Rabs d * q <= a * U * (p * q) + t * q).
    { apply Rle_trans with ((a * U * p + t) * q); [apply Rmult_le_compat_r; assumption|]. right. ring. }
    assert (T2 : p * Rabs e <= b * U * (p * q) + t * p).
    { apply Rle_trans with (p * (b * U * q + t)); [apply Rmult_le_compat_l; assumption|]. right. ring. }
    assert (T3 : Rabs d * Rabs e <= 0.00001 * U * (p * q) + 0.05 * t).
    { assert (Hx' : Rabs d <= 10 * U * p + t) by (apply Rle_trans with (1 := Hx); apply Rplus_le_compat_r, Rmult_le_compat_r; lra).
      assert (Hy' : Rabs e <= 10 * U * q + t) by (apply Rle_trans with (1 := Hy); apply Rplus_le_compat_r, Rmult_le_compat_r; lra).
      eapply Rle_trans; [apply Rmult_le_compat; [exact Pd|exact Pe|exact Hx'|exact Hy']|].
      replace ((10 * U * p + t) * (10 * U * q + t)) with (100 * U * U * (p * q) + 10 * U * (t * p) + 10 * U * (t * q) + t * t) by ring. lra. }
    lra. }
  pose proof (rerr (x * y)) as R. assert (M : Rabs (x * y) <= 1.000002 * (p * q) + 4.1 * t).
  { replace (x * y) with (X * Y + (x * y - X * Y)) by ring. eapply Rle_trans; [apply Rabs_triang|]. rewrite (Rabs_mult X Y). fold p q.
    assert ((a + b + 0.00001) * U * (p * q) <= 0.000002 * (p * q)) by (apply Rmult_le_compat_r; lra). lra. }
  replace (rnd (x * y) - X * Y) with ((rnd (x * y) - x * y) + (x * y - X * Y)) by ring. eapply Rle_trans; [apply Rabs_triang|]. rewrite (Rabs_mult X Y). fold p q.
  assert (U * Rabs (x * y) <= U * (1.000002 * (p * q) + 4.1 * t)) by (apply Rmult_le_compat_l; lra).
  assert ((a + b + 1.0001) * U * (p * q) <= k * U * (p * q)) by (apply Rmult_le_compat_r; [exact PQ|]; lra).
  replace (6 * T * tiny) with (6 * t) by (unfold t; ring). lra.
Qed.
Lemma ap_weak : forall k T T' x X, T <= T' -> ap k T x X -> ap k T' x X.
Proof. intros k T T' x X H A. unfold ap in *. assert (T * tiny <= T' * tiny) by lra. lra. Qed.
Lemma ap_rnd : forall X, ap 1 1 (rnd X) X.
Proof. intros X. unfold ap. pose proof (rerr X). lra. Qed.
Lemma ap_refl : forall X, ap 0 1 X X.
Proof. intros X. unfold ap. replace (X - X) with 0 by ring. rewrite Rabs_R0. lra. Qed.
Lemma ap_in : forall k T x X b, 0 <= k <= 10 -> 0 <= T <= 10000 -> Rabs X <= b -> b <= 2 -> ap k T x X -> - (b + 0.00001) <= x <= b + 0.00001.
Proof.
  intros k T x X b K HT H B A. unfold ap in A. assert (k * U * Rabs X <= 10 * U * 2) by (apply Rmult_le_compat; try apply Rabs_pos; lra).
  assert (T * tiny <= 10000 * tiny) by lra. apply Rabs_le_inv in H. apply Rabs_le_inv in A. lra.
Qed.

(** ** One operation, normal range *)
Lemma rnd_fac : forall t, bpow radix2 (-100) <= Rabs t <= bpow radix2 100 -> small t /\ exists f, fac 1 f /\ rnd t = t * f.
Proof. intros t H. destruct (rnd_step 92 t ltac:(lia) (or_intror H)) as (S & f & F & E & _). split; [exact S|]. exists f. split; assumption. Qed.
Lemma normal_pos : forall t, / 1000000000000000000000000000000 <= t <= 1000000000000000000000000000000 -> bpow radix2 (-100) <= Rabs t <= bpow radix2 100.
Proof.
  intros t H. rewrite Rabs_right by lra. change (bpow radix2 (-100)) with (/ 1267650600228229401496703205376). change (bpow radix2 100) with 1267650600228229401496703205376. lra.
Qed.
Lemma mul_fac : forall a b : f32, fin a -> fin b -> / 1000000000000000000000000000000 <= val a * val b <= 1000000000000000000000000000000 ->
  exists f, fac 1 f /\ fin (a * b)%sc /\ val (a * b)%sc = val a * val b * f.
Proof.
  intros a b A B H. destruct (rnd_fac _ (normal_pos _ H)) as (S & f & F & E). destruct (mul_small a b A B S) as [Fp V]. exists f. split; [exact F|]. split; [exact Fp|]. rewrite V. exact E.
Qed.
Lemma div_fac : forall a b : f32, fin a -> fin b -> 0 < val b -> / 1000000000000000000000000000000 <= val a / val b <= 1000000000000000000000000000000 ->
  exists f, fac 1 f /\ fin (a / b)%sc /\ val (a / b)%sc = val a / val b * f.
Proof.
  intros a b A B P H. destruct (rnd_fac _ (normal_pos _ H)) as (S & f & F & E). destruct (div_small a b A B ltac:(lra) S) as [Fp V]. exists f. split; [exact F|]. split; [exact Fp|]. rewrite V. exact E.
Qed.
Lemma fac_in : forall k f, 0 <= k <= 10 -> fac k f -> 0.999999 <= f <= 1.000001.
Proof. intros k f K F. unfold fac in F. apply Rabs_le_inv in F. lra. Qed.

(** ** GGX *)
Section Ggx.
  Context (n r : f32) (Fn : fin n) (Fr : fin r) (Hn : -1 <= val n <= 1) (Hr : / 512 <= val r <= 1).
  Let N := val n. Let A := val r.
  Let phi : R := (A - 1) * ((A + 1) * (N * N)) + 1.
  Let f : f32 := ((r - f1) * ((r + f1) * (n * n)) + f1)%sc.
  Lemma N2 : 0 <= N * N <= 1.
  Proof. unfold N. split; [apply Rle_0_sqr|]. apply Rle_trans with (Rabs (val n) * Rabs (val n)); [rewrite <- Rabs_mult; apply Rle_abs|].
    assert (Rabs (val n) <= 1) by (apply Rabs_le; exact Hn). rewrite <- (Rmult_1_r 1). apply Rmult_le_compat; try apply Rabs_pos; assumption. Qed.
  Lemma phi_in : A * A <= phi <= 1 /\ / 262144 <= A * A <= 1.
  Proof.
    pose proof N2 as H. fold A in Hr. assert (Q : / 262144 <= A * A <= 1).
    { split; [replace (/ 262144) with (/ 512 * / 512) by lra; apply Rmult_le_compat; lra|rewrite <- (Rmult_1_r 1); apply Rmult_le_compat; lra]. }
    split; [|exact Q]. unfold phi. replace ((A - 1) * ((A + 1) * (N * N)) + 1) with (1 - (1 - A * A) * (N * N)) by ring.
    assert (0 <= (1 - A * A) * (N * N) <= (1 - A * A) * 1) by (split; [apply Rmult_le_pos; lra|apply Rmult_le_compat_l; lra]). lra.
  Qed.
  Lemma f_near : fin f /\ Rabs (val f - phi) <= 5.2 * U.
  Proof.
    pose proof N2 as HN. pose proof phi_in as [P Q]. destruct (lit_Z 1 ltac:(lia)) as [F1 V1]. change (slit 1 0 : f32) with (@f1 f32 ScalarF32) in F1, V1.
    fold A in Hr. fold N in Hn.
    destruct (mul_small n n Fn Fn) as [Fm Vm]; [fold N; apply small10; lra|]. fold N in Vm.
    assert (Am : ap 1 1 (val (n * n)%sc) (N * N)) by (rewrite Vm; apply ap_rnd).
    destruct (add_small r f1 Fr F1) as [Fp Vp]; [rewrite V1; fold A; apply small10; lra|]. rewrite V1 in Vp. fold A in Vp.
    assert (Ap : ap 1 1 (val (r + f1)%sc) (A + 1)) by (rewrite Vp; apply ap_rnd).
    destruct (sub_small r f1 Fr F1) as [Fq Vq]; [rewrite V1; fold A; apply small10; lra|]. rewrite V1 in Vq. fold A in Vq.
    assert (Aq : ap 1 6 (val (r - f1)%sc) (A - 1)) by (apply (ap_weak 1 1); [lra|rewrite Vq; apply ap_rnd]).
    assert (B1 : Rabs (A + 1) <= 2) by (apply Rabs_le; lra). assert (B2 : Rabs (N * N) <= 1) by (apply Rabs_le; lra). assert (B3 : Rabs (A - 1) <= 1) by (apply Rabs_le; lra).
    assert (B4 : Rabs ((A + 1) * (N * N)) <= 2) by (rewrite Rabs_mult; rewrite <- (Rmult_1_r 2); apply Rmult_le_compat; try apply Rabs_pos; assumption).
    pose proof (ap_mul 1 1 1 3.0001 _ _ _ _ ltac:(lra) ltac:(lra) ltac:(lra) B1 (Rle_trans _ 1 2 B2 ltac:(lra)) Ap Am ltac:(lra)) as A1.
    pose proof (ap_in 1 1 _ _ 2 ltac:(lra) ltac:(lra) B1 ltac:(lra) Ap) as I1. pose proof (ap_in 1 1 _ _ 1 ltac:(lra) ltac:(lra) B2 ltac:(lra) Am) as I2.
    pose proof (ap_in 1 6 _ _ 1 ltac:(lra) ltac:(lra) B3 ltac:(lra) Aq) as I3.
    assert (PR : forall x y, -2.5 <= x <= 2.5 -> -2.5 <= y <= 2.5 -> small (x * y)).
    { intros x y X Y. apply small10. assert (Rabs (x * y) <= 2.5 * 2.5) by (rewrite Rabs_mult; apply Rmult_le_compat; try apply Rabs_pos; apply Rabs_le; lra). apply Rabs_le_inv in H. lra. }
    destruct (mul_small (r + f1)%sc (n * n)%sc Fp Fm) as [Fs Vs]; [apply PR; lra|]. rewrite <- Vs in A1. replace (6 * 1) with 6 in A1 by ring.
    pose proof (ap_in 3.0001 6 _ _ 2 ltac:(lra) ltac:(lra) B4 ltac:(lra) A1) as I4.
    pose proof (ap_mul 6 1 3.0001 5.0002 _ _ _ _ ltac:(lra) ltac:(lra) ltac:(lra) (Rle_trans _ 1 2 B3 ltac:(lra)) B4 Aq A1 ltac:(lra)) as A2.
    destruct (mul_small (r - f1)%sc ((r + f1) * (n * n))%sc Fq Fs) as [Ft Vt]; [apply PR; lra|]. rewrite <- Vt in A2. replace (6 * 6) with 36 in A2 by ring.
    set (e := ((r - f1) * ((r + f1) * (n * n)))%sc) in *. unfold ap in A2. assert (B5 : (A - 1) * ((A + 1) * (N * N)) = phi - 1) by (unfold phi; ring). rewrite B5 in A2.
    rewrite (Rabs_left1 (phi - 1)) in A2 by lra. apply Rabs_le_inv in A2.
    destruct (add_small e f1 Ft F1) as [Fz Vz]; [rewrite V1; apply small10; lra|]. rewrite V1 in Vz.
    pose proof (rerr (val e + 1)) as R. rewrite <- Vz in R. split; [exact Fz|]. change f with (e + f1)%sc.
    rewrite (Rabs_right (val e + 1)) in R by lra. apply Rabs_le_inv in R. apply Rabs_le. lra.
  Qed.
  Lemma recip_sq : forall d b, 0 <= b <= 0.082 -> - b <= d <= b -> Rabs (/ ((1 + d) * (1 + d)) - 1) <= 2.5 * b.
  Proof.
    intros d b B D. assert (P : 0.842 <= (1 + d) * (1 + d)) by (replace 0.842 with (0.842 * 1) by ring; nra).
    replace (/ ((1 + d) * (1 + d)) - 1) with (- (d * (2 + d)) * / ((1 + d) * (1 + d))) by (field; lra).
    rewrite Rabs_mult, Rabs_Ropp, Rabs_mult, (Rabs_right (/ _)) by (apply Rle_ge, Rlt_le, Rinv_0_lt_compat; lra).
    apply Rle_trans with (b * 2.082 * / 0.842); [|lra]. assert (0 < / ((1 + d) * (1 + d))) by (apply Rinv_0_lt_compat; lra).
    apply Rmult_le_compat; [apply Rmult_le_pos; apply Rabs_pos|lra| |apply Rinv_le; lra].
    apply Rmult_le_compat; [apply Rabs_pos|apply Rabs_pos|apply Rabs_le; lra|apply Rabs_le; lra].
  Qed.
  Lemma ggx_near : within (18 / (A * A)) (ggx n r) (trowbridgeReitz N A).
  Proof.
    destruct f_near as [Ff Ef]. pose proof phi_in as [P Q]. destruct pi_val as [Fpi Vpi]. apply Rabs_le_inv in Ef. fold A in Hr.
    assert (Hf : / 300000 <= val f <= 1.00001) by lra.
    destruct (mul_fac r r Fr Fr ltac:(fold A; lra)) as (g1 & G1 & F1 & E1). fold A in E1.
    destruct (mul_fac piF f Fpi Ff ltac:(rewrite Vpi; unfold P0; lra)) as (g2 & G2 & F2 & E2). rewrite Vpi in E2.
    pose proof (fac_in 1 g1 ltac:(lra) G1) as I1. pose proof (fac_in 1 g2 ltac:(lra) G2) as I2.
    assert (Pf : 0.00001 <= val (piF * f)%sc <= 3.2).
    { rewrite E2. assert (3 * / 300000 <= P0 * val f <= 3.15) by (unfold P0; lra). assert (P0 * val f * 0.999999 <= P0 * val f * g2 <= P0 * val f * 1.000001) by (split; apply Rmult_le_compat_l; lra). unfold P0 in *; lra. }
    assert (Pff : 0.00001 * / 300000 <= val (piF * f)%sc * val f <= 3.2 * 1.00001) by (split; apply Rmult_le_compat; lra).
    destruct (mul_fac (piF * f)%sc f F2 Ff ltac:(lra)) as (g3 & G3 & F3 & E3). pose proof (fac_in 1 g3 ltac:(lra) G3) as I3.
    assert (Pd : 0.00000000001 <= val (piF * f * f)%sc <= 4).
    { rewrite E3. set (w := val (piF * f)%sc * val f) in *. assert (w * 0.999999 <= w * g3 <= w * 1.000001) by (split; apply Rmult_le_compat_l; lra). lra. }
    assert (Pn : 0.000001 <= val (r * r)%sc <= 1.1).
    { rewrite E1. assert (A * A * 0.999999 <= A * A * g1 <= A * A * 1.000001) by (split; apply Rmult_le_compat_l; lra). lra. }
    assert (Pi : / 4 <= / val (piF * f * f)%sc <= 100000000000).
    { split; [apply Rinv_le; lra|]. replace 100000000000 with (/ 0.00000000001) by lra. apply Rinv_le; lra. }
    destruct (div_fac (r * r)%sc (piF * f * f)%sc F1 F3 ltac:(lra)) as (g4 & G4 & F4 & E4).
    { unfold Rdiv. assert (0.000001 * / 4 <= val (r * r)%sc * / val (piF * f * f)%sc <= 1.1 * 100000000000) by (split; apply Rmult_le_compat; lra). lra. }
    destruct pi_fac as (g0 & G0 & E0). pose proof (fac_in 0.67 g0 ltac:(lra) G0) as I0.
    set (dl := val f / phi - 1). assert (Edl : val f = phi * (1 + dl)) by (unfold dl; field; lra).
    set (b := 5.2 * U * / (A * A)). assert (IA : 1 <= / (A * A) <= 262144).
    { split; [rewrite <- Rinv_1; apply Rinv_le; lra|]. replace 262144 with (/ / 262144) by (rewrite Rinv_inv; reflexivity). apply Rinv_le; lra. }
    assert (Hb : 0 <= b <= 0.082) by (unfold b; lra).
    assert (Hd : - b <= dl <= b).
    { apply Rabs_le_inv. unfold dl. replace (val f / phi - 1) with ((val f - phi) * / phi) by (field; lra). rewrite Rabs_mult, (Rabs_right (/ phi)) by (apply Rle_ge, Rlt_le, Rinv_0_lt_compat; lra).
      unfold b. apply Rmult_le_compat; [apply Rabs_pos|apply Rlt_le, Rinv_0_lt_compat; lra|apply Rabs_le; lra|apply Rinv_le; lra]. }
    pose proof (recip_sq dl b Hb Hd) as RS.
    set (g := g1 * / g0 * / g2 * / g3 * g4).
    assert (G : fac 4.7 g).
    { unfold g. apply (fac_mul 3.6901 1); try assumption; try lra. apply (fac_mul 2.6801 1.0001); try lra; [|apply (fac_inv 1); try assumption; lra].
      apply (fac_mul 1.6702 1.0001); try lra; [|apply (fac_inv 1); try assumption; lra]. apply (fac_mul 1 0.6701); try assumption; try lra. apply (fac_inv 0.67); try assumption; lra. }
    split; [exact F4|]. change (ggx n r) with (r * r / (piF * f * f))%sc. set (D := trowbridgeReitz N A).
    assert (PP : 0 < PI) by apply PI_RGT_0.
    assert (ED : val (r * r / (piF * f * f))%sc = D * (/ ((1 + dl) * (1 + dl)) * g)).
    { rewrite E4, E3, E2, E1, E0, Edl. unfold D, trowbridgeReitz, g, Rsqr. replace (N * N * (A * A - 1) + 1) with phi by (unfold phi; ring). field. repeat split; lra. }
    rewrite ED. replace (D * (/ ((1 + dl) * (1 + dl)) * g) - D) with ((/ ((1 + dl) * (1 + dl)) * g - 1) * D) by ring. rewrite Rabs_mult.
    apply Rmult_le_compat_r; [apply Rabs_pos|]. set (h := / ((1 + dl) * (1 + dl))) in *. unfold fac in G.
    replace (h * g - 1) with ((h - 1) * g + (g - 1)) by ring. eapply Rle_trans; [apply Rabs_triang|]. rewrite Rabs_mult.
    assert (Ig : Rabs g <= 1.000001) by (apply Rabs_le_inv in G; apply Rabs_le; lra).
    assert (Rabs (h - 1) * Rabs g <= 2.5 * b * 1.000001) by (apply Rmult_le_compat; try apply Rabs_pos; assumption).
    unfold b in *. unfold Rdiv. lra.
  Qed.
End Ggx.
(** a finite roughness for which the distribution is infinite *)
Lemma ggx_overflow : exists r : f32, fin r /\ 0 < val r < 1 /\ ggx f1 r = B754_infinity 24 128 false.
Proof.
  exists (slit 1 (-13)). destruct (lit_exact 1 (-13) ltac:(lia) ltac:(lia)) as [F V]. split; [exact F|]. split; [rewrite V; cbn; lra|]. vm_compute. reflexivity.
Qed.

(** ** Reflectance *)
Lemma fac_sqrt : forall a k f, 0 <= a <= 12 -> fac a f -> a / 2 + 0.0001 <= k -> fac k (sqrt f).
Proof.
  intros a k f A F K. unfold fac in *. apply Rabs_le_inv in F. assert (P : 0.9 <= f) by lra.
  set (s := sqrt f). assert (S : s * s = f) by (apply sqrt_def; lra). assert (S0 : 0 <= s) by apply sqrt_pos.
  assert (S1 : 0.99999 <= s <= 1.00001) by (split; apply Rnot_lt_le; intros H; nra).
  assert (E : s - 1 = (f - 1) * / (s + 1)) by (rewrite <- S; field; lra).
  rewrite E, Rabs_mult, (Rabs_right (/ (s + 1))) by (apply Rle_ge, Rlt_le, Rinv_0_lt_compat; lra).
  apply Rle_trans with (a * U * / 1.99999); [|lra]. apply Rmult_le_compat; [apply Rabs_pos|apply Rlt_le, Rinv_0_lt_compat; lra|apply Rabs_le; lra|apply Rinv_le; lra].
Qed.
Lemma c016 : exists f, fac 1.9 f /\ fin (f1 / slit 5368709 (-25) : f32)%sc /\ val (f1 / slit 5368709 (-25) : f32)%sc = / 0.16 * f.
Proof.
  destruct (litv 5368709 25 ltac:(lia) ltac:(lia)) as [Fc Vc]. change (- Z.pos 25)%Z with (-25)%Z in Fc, Vc. change (IZR (2 ^ Z.pos 25)) with 33554432 in Vc.
  destruct (lit_Z 1 ltac:(lia)) as [F1 V1]. change (slit 1 0 : f32) with (@f1 f32 ScalarF32) in F1, V1.
  assert (I : 1 / (5368709 / 33554432) = 33554432 / 5368709) by field.
  destruct (div_fac f1 (slit 5368709 (-25)) F1 Fc) as (g & G & F & E); [rewrite Vc; lra|rewrite Vc, V1, I; lra|]. rewrite Vc, V1, I in E.
  exists (0.16 * (33554432 / 5368709) * g). split.
  - apply (fac_mul 0.85 1); try assumption; try lra. unfold fac. apply Rabs_le. lra.
  - split; [exact F|]. rewrite E. assert (H : / 0.16 * 0.16 = 1) by lra. rewrite <- !Rmult_assoc, H, Rmult_1_l. reflexivity.
Qed.
Lemma reflectance_near : forall x : f32, fin x -> 0 <= val x <= bpow radix2 19 -> val x = 1 \/ bpow radix2 (-20) <= Rabs (val x - 1) ->
  within 6 (iorToReflectance x) (remappedReflectance (val x)).
Proof.
  intros x Fx Hx Hd. change (bpow radix2 19) with 524288 in Hx. change (bpow radix2 (-20)) with (/ 1048576) in Hd.
  destruct (lit_Z 1 ltac:(lia)) as [F1 V1]. change (slit 1 0 : f32) with (@f1 f32 ScalarF32) in F1, V1. set (X := val x) in *.
  destruct (add_small x f1 Fx F1) as [Fp Vp]; [rewrite V1; apply small_le with 524289; [apply Rabs_le; fold X; lra|lra]|]. rewrite V1 in Vp. fold X in Vp.
  destruct (rnd_fac (X + 1) (normal_pos (X + 1) ltac:(lra))) as (_ & p & Gp & Ep). rewrite Ep in Vp. pose proof (fac_in 1 p ltac:(lra) Gp) as Ip.
  assert (Bp : 0.9 <= (X + 1) * p <= 1100000) by (assert ((X + 1) * 0.999999 <= (X + 1) * p <= (X + 1) * 1.000001) by (split; apply Rmult_le_compat_l; lra); lra).
  assert (Bpp : 0.9 * 0.9 <= (X + 1) * p * ((X + 1) * p) <= 1100000 * 1100000) by (split; apply Rmult_le_compat; lra).
  destruct (mul_fac (x + f1)%sc (x + f1)%sc Fp Fp ltac:(rewrite Vp; lra)) as (pp & Gpp & Fpp & Epp). rewrite Vp in Epp. pose proof (fac_in 1 pp ltac:(lra) Gpp) as Ipp.
  assert (Bq : 0.8 <= val ((x + f1) * (x + f1))%sc <= 1300000000000).
  { rewrite Epp. set (w := (X + 1) * p * ((X + 1) * p)) in *. assert (w * 0.999999 <= w * pp <= w * 1.000001) by (split; apply Rmult_le_compat_l; lra). lra. }
  destruct c016 as (c & Gc & Fc & Ec). pose proof (fac_in 1.9 c ltac:(lra) Gc) as Ic.
  destruct (sub_small x f1 Fx F1) as [Fm Vm]; [rewrite V1; apply small_le with 524289; [apply Rabs_le; fold X; lra|lra]|]. rewrite V1 in Vm. fold X in Vm.
  destruct Hd as [E1|Hd].
  - rewrite E1 in Vm. replace (1 - 1) with 0 in Vm by ring. rewrite rnd_0 in Vm.
    destruct (mul_small (x - f1)%sc (x - f1)%sc Fm Fm) as [Fs Vs]; [rewrite Vm; apply small10; lra|]. rewrite Vm, Rmult_0_l, rnd_0 in Vs.
    destruct (div_small _ _ Fs Fpp) as [Fd Vd]; [lra|rewrite Vs; unfold Rdiv; rewrite Rmult_0_l; apply small10; lra|]. rewrite Vs in Vd. unfold Rdiv in Vd. rewrite Rmult_0_l, rnd_0 in Vd.
    destruct (mul_small _ _ Fd Fc) as [Fe Ve]; [rewrite Vd, Rmult_0_l; apply small10; lra|]. rewrite Vd, Rmult_0_l, rnd_0 in Ve.
    destruct (sqrt_fin32 _ Fe ltac:(rewrite Ve; lra)) as [Fr Vr]. rewrite Ve, sqrt_0, rnd_0 in Vr.
    split; [exact Fr|]. change (iorToReflectance x) with (ssqrt ((x - f1) * (x - f1) / ((x + f1) * (x + f1)) * (f1 / slit 5368709 (-25))))%sc. rewrite Vr, E1.
    assert (Z : remappedReflectance 1 = 0) by (unfold remappedReflectance; replace (1 - 1) with 0 by ring; rewrite Rabs_R0; unfold Rdiv; rewrite !Rmult_0_l; reflexivity).
    rewrite Z. replace (0 - 0) with 0 by ring. rewrite Rabs_R0. lra.
  - set (Y := Rabs (X - 1)) in *. assert (BY : Y <= 1048576) by (unfold Y; apply Rabs_le; lra).
    destruct (rnd_fac (X - 1)) as (_ & m & Gm & Em).
    { fold Y. pose proof (normal_pos Y ltac:(lra)) as K. rewrite (Rabs_right Y) in K by lra. exact K. }
    rewrite Em in Vm. pose proof (fac_in 1 m ltac:(lra) Gm) as Im.
    assert (YY : (X - 1) * m * ((X - 1) * m) = Y * m * (Y * m)).
    { replace ((X - 1) * m * ((X - 1) * m)) with ((X - 1) * (X - 1) * (m * m)) by ring. replace (Y * m * (Y * m)) with (Y * Y * (m * m)) by ring. f_equal. unfold Y. rewrite <- Rabs_mult. symmetry. apply Rabs_right, Rle_ge, Rle_0_sqr. }
    assert (Bm : / 1100000 <= Y * m <= 1100000) by (assert (Y * 0.999999 <= Y * m <= Y * 1.000001) by (split; apply Rmult_le_compat_l; lra); lra).
    assert (Bmm : / 1100000 * / 1100000 <= Y * m * (Y * m) <= 1100000 * 1100000) by (split; apply Rmult_le_compat; lra).
    destruct (mul_fac (x - f1)%sc (x - f1)%sc Fm Fm ltac:(rewrite Vm, YY; lra)) as (mm & Gmm & Fmm & Emm). rewrite Vm, YY in Emm. pose proof (fac_in 1 mm ltac:(lra) Gmm) as Imm.
    assert (Bn : / 1300000000000 <= val ((x - f1) * (x - f1))%sc <= 1300000000000).
    { rewrite Emm. set (w := Y * m * (Y * m)) in *. assert (w * 0.999999 <= w * mm <= w * 1.000001) by (split; apply Rmult_le_compat_l; lra). lra. }
    set (nn := val ((x - f1) * (x - f1))%sc) in *. set (dd := val ((x + f1) * (x + f1))%sc) in *.
    assert (Bi : / 1300000000000 <= / dd <= 2) by (split; [apply Rinv_le; lra|apply Rle_trans with (/ 0.8); [apply Rinv_le; lra|lra]]).
    assert (Bd : / 1300000000000 * / 1300000000000 <= nn / dd <= 1300000000000 * 2) by (unfold Rdiv; split; apply Rmult_le_compat; lra).
    destruct (div_fac _ _ Fmm Fpp ltac:(fold dd; lra) ltac:(fold nn dd; lra)) as (q & Gq & Fq & Eq). fold nn dd in Eq. pose proof (fac_in 1 q ltac:(lra) Gq) as Iq.
    assert (Bq' : / 2000000000000000000000000 <= nn / dd * q <= 3000000000000).
    { assert (nn / dd * 0.999999 <= nn / dd * q <= nn / dd * 1.000001) by (split; apply Rmult_le_compat_l; lra). lra. }
    assert (Bc : 6 <= / 0.16 * c <= 6.5) by lra.
    assert (Bw : / 2000000000000000000000000 * 6 <= nn / dd * q * (/ 0.16 * c) <= 3000000000000 * 6.5) by (split; apply Rmult_le_compat; lra).
    destruct (mul_fac _ _ Fq Fc ltac:(rewrite Eq, Ec; lra)) as (z & Gz & Fz & Ez). rewrite Eq, Ec in Ez. pose proof (fac_in 1 z ltac:(lra) Gz) as Iz.
    set (g := m * m * mm * / (p * p * pp) * q * c * z).
    assert (G : fac 9.95 g).
    { unfold g. apply (fac_mul 8.9496 1); try assumption; try lra. apply (fac_mul 7.0495 1.9); try assumption; try lra. apply (fac_mul 6.0494 1); try assumption; try lra.
      apply (fac_mul 3.0002 3.0003); try lra.
      - apply (fac_mul 2.0001 1); try assumption; try lra. apply (fac_mul 1 1); try assumption; lra.
      - apply (fac_inv 3.0002); try lra. apply (fac_mul 2.0001 1); try assumption; try lra. apply (fac_mul 1 1); try assumption; lra. }
    pose proof (fac_in 9.95 g ltac:(lra) G) as Ig.
    set (T := Y / (X + 1) / 0.4). assert (PT : 0 <= T).
    { unfold T, Rdiv. apply Rmult_le_pos; [apply Rmult_le_pos; [lra|apply Rlt_le, Rinv_0_lt_compat; lra]|lra]. }
    set (v := ((x - f1) * (x - f1) / ((x + f1) * (x + f1)) * (f1 / slit 5368709 (-25)))%sc) in *.
    assert (EV : val v = T * T * g).
    { rewrite Ez, Emm, Epp. assert (H4 : / 0.16 = / 0.4 * / 0.4) by lra. rewrite H4. unfold T, g.
      replace (Y / (X + 1) / 0.4) with (Y / (X + 1) * / 0.4) by reflexivity. generalize (/ 0.4). intros h. field. repeat split; lra. }
    assert (Pv : 0 <= val v) by (rewrite EV; apply Rmult_le_pos; [apply Rle_0_sqr|lra]).
    destruct (sqrt_fin32 v Fz Pv) as [Fr Vr]. rewrite EV, sqrt_mult_alt, sqrt_square in Vr by (try exact PT; apply Rle_0_sqr).
    pose proof (fac_sqrt 9.95 4.976 g ltac:(lra) G ltac:(lra)) as Gs. pose proof (fac_in 4.976 _ ltac:(lra) Gs) as Is.
    assert (BT : / 100000000000000 <= T <= 3000000).
    { unfold T, Rdiv. assert (BI : / 1048577 <= / (X + 1) <= 1) by (split; [apply Rinv_le; lra|rewrite <- Rinv_1; apply Rinv_le; lra]).
      assert (/ 1048576 * / 1048577 <= Y * / (X + 1) <= 1048576 * 1) by (split; apply Rmult_le_compat; lra). lra. }
    assert (BS : / 200000000000000 <= T * sqrt g <= 4000000).
    { assert (T * 0.999999 <= T * sqrt g <= T * 1.000001) by (split; apply Rmult_le_compat_l; lra). lra. }
    destruct (rnd_fac (T * sqrt g) (normal_pos (T * sqrt g) ltac:(lra))) as (_ & k & Gk & Ek). rewrite Ek in Vr.
    apply (fac_within 6 _ _ (sqrt g * k) Fr); [change (iorToReflectance x) with (ssqrt v); rewrite Vr; unfold remappedReflectance; fold Y T; ring|].
    apply (fac_mul 4.976 1); try assumption; lra.
Qed.
Lemma ex_ggx : fin (fhalf : f32) /\ / 512 <= val (fhalf : f32) <= 1 /\ trowbridgeReitz 1 (/ 2) = 4 / PI /\ remappedReflectance 1.5 = 0.5.
Proof.
  destruct half_val as [F V]. split; [exact F|]. split; [rewrite V; lra|]. pose proof PI_neq0 as P. split.
  - unfold trowbridgeReitz, Rsqr. field. exact P.
  - unfold remappedReflectance. rewrite Rabs_right by lra. lra.
Qed.
