(** C142: orthographic projections in binary32. *)
From Coq Require Import ZArith Bool List Reals Lra Lia Psatz.
From Flocq Require Import Core.Core Mult_error IEEE754.Binary IEEE754.Bits.
From Verif.Model Require Import Outcome Scalar Vec Simd Matrix Transform.
From Verif.Spec Require Import OrthoSpec.
From Verif.Proofs Require Import OrdScalar F32Round F32Err Approx RayErr CullProofs NumericProofs SphereErr DepthProofs SatErr AabbWitness.
Local Open Scope R_scope.

(** ** The lanes of the projected point *)
(** what every lane computes: coefficient times coordinate, plus offset, each rounded *)
Definition affine (A B t : R) : R := rnd (rnd (A * t) + B).
Definition laneX (p : path) (A B x y z : f32) : f32 :=
  match p with GEN => (A * x + f0 * y + f0 * z + B * f1)%sc
  | _ => simdfma p B f1 (simdfma p f0 z (simdfma p f0 y (A * x)%sc)) end.
Definition laneY (p : path) (A B x y z : f32) : f32 :=
  match p with GEN => (f0 * x + A * y + f0 * z + B * f1)%sc
  | _ => simdfma p B f1 (simdfma p f0 z (simdfma p A y (f0 * x)%sc)) end.
Lemma zero_step : forall p (b c : f32), fin b -> fin c -> small (val c) -> fin (simdfma p f0 b c) /\ val (simdfma p f0 b c) = val c.
Proof.
  intros p b c Fb Fc S. destruct f0_val as [F0 V0]. assert (V0' : val (f0 : f32) = 0) by exact V0.
  destruct (mul_small f0 b F0 Fb) as [Fm Vm]; [rewrite V0', Rmult_0_l; apply small0|]. rewrite V0', Rmult_0_l, rnd_0 in Vm.
  assert (G2 : fin (c + f0 * b)%sc /\ val (c + f0 * b)%sc = val c).
  { destruct (add_small c (f0 * b)%sc Fc Fm) as [F V]; [rewrite Vm, Rplus_0_r; exact S|]. split; [exact F|]. rewrite V, Vm, Rplus_0_r. apply rnd_val. }
  assert (G1 : fin (sfma f0 b c) /\ val (sfma f0 b c) = val c).
  { destruct (fma_small f0 b c F0 Fb Fc) as [F V]; [rewrite V0', Rmult_0_l, Rplus_0_l; exact S|]. split; [exact F|]. rewrite V, V0', Rmult_0_l, Rplus_0_l. apply rnd_val. }
  destruct p; first [exact G1 | exact G2].
Qed.
Lemma laneX_eval : forall p (A B x y z : f32), fin A -> fin B -> fin x -> fin y -> fin z -> small (val A * val x) ->
  small (rnd (val A * val x) + val B) -> fin (laneX p A B x y z) /\ val (laneX p A B x y z) = affine (val A) (val B) (val x).
Proof.
  intros p A B x y z FA FB Fx Fy Fz S1 S2. unfold affine.
  destruct (mul_small A x FA Fx S1) as [Fa Va]. assert (Sa : small (val (A * x)%sc)) by (rewrite Va; apply rnd_small_le, S1).
  assert (G : forall q, fin (simdfma q B f1 (simdfma q f0 z (simdfma q f0 y (A * x)%sc))) /\
    val (simdfma q B f1 (simdfma q f0 z (simdfma q f0 y (A * x)%sc))) = rnd (rnd (val A * val x) + val B)).
  { intros q. destruct (zero_step q y _ Fy Fa Sa) as [Fb Vb]. destruct (zero_step q z _ Fz Fb) as [Fc Vc]; [rewrite Vb; exact Sa|].
    rewrite Vb, Va in Vc. destruct (one_step q B _ FB Fc) as [Fd Vd]; [rewrite Vc; exact S2|]. rewrite Vc in Vd. split; assumption. }
  destruct p; [apply (G SSE2)|apply (G SSE41)|apply (G AVX2)|apply (G NEON)|apply (G SSE2)].
Qed.
Lemma laneY_eval : forall p (A B x y z : f32), fin A -> fin B -> fin x -> fin y -> fin z -> small (val A * val y) ->
  small (rnd (val A * val y) + val B) -> fin (laneY p A B x y z) /\ val (laneY p A B x y z) = affine (val A) (val B) (val y).
Proof.
  intros p A B x y z FA FB Fx Fy Fz S1 S2. unfold affine. destruct f0_val as [F0 V0]. assert (V0' : val (f0 : f32) = 0) by exact V0.
  destruct (mul_small f0 x F0 Fx) as [Fa Va]; [rewrite V0', Rmult_0_l; apply small0|]. rewrite V0', Rmult_0_l, rnd_0 in Va.
  assert (G : forall q, fin (simdfma q B f1 (simdfma q f0 z (simdfma q A y (f0 * x)%sc))) /\
    val (simdfma q B f1 (simdfma q f0 z (simdfma q A y (f0 * x)%sc))) = rnd (rnd (val A * val y) + val B)).
  { intros q. destruct (fma_step q A y _ FA Fy Fa (fun _ => S1) Va) as [Fb Vb].
    destruct (zero_step q z _ Fz Fb) as [Fc Vc]; [rewrite Vb; apply rnd_small_le, S1|].
    rewrite Vb in Vc. destruct (one_step q B _ FB Fc) as [Fd Vd]; [rewrite Vc; exact S2|]. rewrite Vc in Vd. split; assumption. }
  destruct p; [apply (G SSE2)|apply (G SSE41)|apply (G AVX2)|apply (G NEON)|apply (G SSE2)].
Qed.
(** the fourth lane *)
Lemma w_one : forall p (x y z : f32), fin x -> fin y -> fin z -> fin (lane p f0 f1 x y z) /\ val (lane p f0 f1 x y z) = 1.
Proof.
  intros p x y z Fx Fy Fz. destruct f0_val as [F0 V0], f1_fin as [F1 V1].
  assert (V0' : val (f0 : f32) = 0) by exact V0. assert (V1' : val (f1 : f32) = 1) by exact V1.
  destruct (lane_eval p f0 f1 x y z F0 F1 Fx Fy Fz) as [F V].
  - rewrite V0', Rmult_0_l. apply small0.
  - rewrite V0', Rmult_0_l, rnd_0, V1', Rplus_0_l. apply small_le with 1; [rewrite Rabs_R1|]; lra.
  - split; [exact F|]. rewrite V, V0', Rmult_0_l, rnd_0, V1', Rplus_0_l. exact (rnd_Z 1 ltac:(lia)).
Qed.
Notation clip p M x y z := (mulV p M (V4 x y z f1)).
Lemma clip_ortho : forall p (w h d : vec2 f32) x y z, let c := clip p (calcOrthoProj w h d) x y z in
  vx c = laneX p (f2 / (y2 w - x2 w))%sc (- (y2 w + x2 w) / (y2 w - x2 w))%sc x y z /\
  vy c = laneY p (- f2 / (y2 h - x2 h))%sc ((y2 h + x2 h) / (y2 h - x2 h))%sc x y z /\
  vz c = lane p (f1 / (y2 d - x2 d))%sc (- x2 d / (y2 d - x2 d))%sc x y z /\ vw c = lane p f0 f1 x y z.
Proof. intros. unfold c. destruct p; repeat split; reflexivity. Qed.
Lemma clip_orthoRev : forall p (w h d : vec2 f32) x y z, let c := clip p (calcOrthoProjRevZ w h d) x y z in
  vx c = laneX p (f2 / (y2 w - x2 w))%sc (- (y2 w + x2 w) / (y2 w - x2 w))%sc x y z /\
  vy c = laneY p (- f2 / (y2 h - x2 h))%sc ((y2 h + x2 h) / (y2 h - x2 h))%sc x y z /\
  vz c = lane p (f1 / (x2 d - y2 d))%sc (- y2 d / (x2 d - y2 d))%sc x y z /\ vw c = lane p f0 f1 x y z.
Proof. intros. unfold c. destruct p; repeat split; reflexivity. Qed.
(** ** Coefficients *)
Lemma b30 : bpow radix2 30 = 1073741824. Proof. cbn. lra. Qed.
Lemma b_30 : bpow radix2 (-30) = / 1073741824. Proof. cbn. lra. Qed.
Lemma b60' : bpow radix2 60 = 1152921504606846976. Proof. cbn. lra. Qed.
Lemma small60 : forall x, Rabs x <= 1000000000 * 1152921504606846976 -> small x.
Proof. intros x H. unfold small. apply Rle_trans with (1 := H). apply Rle_trans with (bpow radix2 90); [cbn; lra|apply bpow_le; lia]. Qed.
Lemma eta4 : bpow radix2 (-148) = 4 * eta0. Proof. unfold eta0. cbn. lra. Qed.
Lemma p60_big : 4000000000 <= p60. Proof. rewrite <- b60, b60'. lra. Qed.
Lemma affine_near : forall A B t a b, Rabs (A - a) <= 2.1 * u24 * Rabs a -> Rabs (B - b) <= 3.1 * u24 * Rabs b + eta0 ->
  Rabs (affine A B t - (a * t + b)) <= 4.2 * u24 * (Rabs (a * t) + Rabs b) + bpow radix2 (-148).
Proof.
  intros A B t a b HA HB. unfold affine. rewrite eta4. pose proof eta0_pos as E0. rewrite u24_val in *.
  assert (P : Rabs (A * t - a * t) <= 2.1 * / 16777216 * Rabs (a * t)).
  { replace (A * t - a * t) with ((A - a) * t) by ring. rewrite !Rabs_mult. rewrite <- Rmult_assoc. apply Rmult_le_compat_r; [apply Rabs_pos|exact HA]. }
  pose proof (rnd_err (A * t)) as R1. pose proof (rnd_err (rnd (A * t) + B)) as R2. rewrite u24_val in *.
  set (q := Rabs (a * t)) in *. set (s := Rabs b) in *.
  assert (Q : 0 <= q) by apply Rabs_pos. assert (S : 0 <= s) by apply Rabs_pos.
  assert (T1 : Rabs (A * t) <= (1 + 2.1 * / 16777216) * q).
  { pose proof (Rabs_triang (A * t - a * t) (a * t)) as T. replace (A * t - a * t + a * t) with (A * t) in T by ring. fold q in T. lra. }
  assert (T2 : Rabs (rnd (A * t) - a * t) <= 3.11 * / 16777216 * q + eta0).
  { pose proof (Rabs_triang (rnd (A * t) - A * t) (A * t - a * t)) as T. replace (rnd (A * t) - A * t + (A * t - a * t)) with (rnd (A * t) - a * t) in T by ring. lra. }
  assert (T3 : Rabs (rnd (A * t) + B - (a * t + b)) <= 3.11 * / 16777216 * (q + s) + 2 * eta0).
  { pose proof (Rabs_triang (rnd (A * t) - a * t) (B - b)) as T. replace (rnd (A * t) - a * t + (B - b)) with (rnd (A * t) + B - (a * t + b)) in T by ring. lra. }
  assert (T4 : Rabs (rnd (A * t) + B) <= (1 + 3.11 * / 16777216) * (q + s) + 2 * eta0).
  { pose proof (Rabs_triang (rnd (A * t) + B - (a * t + b)) (a * t + b)) as T. replace (rnd (A * t) + B - (a * t + b) + (a * t + b)) with (rnd (A * t) + B) in T by ring.
    pose proof (Rabs_triang (a * t) b) as T'. fold q s in T'. lra. }
  pose proof (Rabs_triang (rnd (rnd (A * t) + B) - (rnd (A * t) + B)) (rnd (A * t) + B - (a * t + b))) as T.
  replace (rnd (rnd (A * t) + B) - (rnd (A * t) + B) + (rnd (A * t) + B - (a * t + b))) with (rnd (rnd (A * t) + B) - (a * t + b)) in T by ring. lra.
Qed.
(** a coefficient K / D and an offset N / D *)
Definition width1 (D : f32) (dd : R) : Prop := fin D /\ near 1 (val D) dd /\ / 1073741824 <= Rabs dd <= 2147483648.
Lemma width_low : forall D dd, width1 D dd -> / 2147483648 <= Rabs (val D) <= 4294967296 /\ val D <> 0 /\ dd <> 0.
Proof.
  intros D dd (F & H & L). pose proof (near_low 1 _ _ ltac:(lra) H) as K. assert (B : / 2147483648 <= Rabs (val D) <= 4294967296) by lra.
  split; [exact B|]. split; intros E; [rewrite E, Rabs_R0 in B|rewrite E, Rabs_R0 in L]; lra.
Qed.
Lemma coefA : forall (K D : f32) k dd, fin K -> val K = k -> 1 <= Rabs k <= 2 -> width1 D dd ->
  fin (K / D)%sc /\ val (K / D)%sc = rnd (k / val D) /\ Rabs (val (K / D)%sc - k / dd) <= 2.1 * u24 * Rabs (k / dd) /\ Rabs (val (K / D)%sc) <= 8589934592.
Proof.
  intros K D k dd FK VK HK W. destruct (width_low _ _ W) as (B & N1 & N2). destruct W as (FD & ND & L).
  assert (I : / 4294967296 <= / Rabs (val D) <= 2147483648).
  { split; [apply Rinv_le_contravar; lra|]. replace 2147483648 with (/ / 2147483648) by (field; lra). apply Rinv_le_contravar; lra. }
  assert (Q : / 4294967296 <= Rabs (k / val D) <= 4294967296).
  { unfold Rdiv. rewrite Rabs_mult, Rabs_inv. split.
    - rewrite <- (Rmult_1_l (/ 4294967296)). apply Rmult_le_compat; lra.
    - replace 4294967296 with (2 * 2147483648) by lra. apply Rmult_le_compat; lra. }
  destruct (div_small K D FK FD N1) as [F V]; [rewrite VK; apply small60; lra|]. rewrite VK in V.
  assert (Nk : k <> 0) by (intros ->; rewrite Rabs_R0 in HK; lra).
  assert (E : near (0 + 1 + / 1000 + 1 + / 1000) (val (K / D)%sc) (k / dd)).
  { rewrite V. apply near_rnd; [lra| | |].
    - unfold Rdiv. apply Rmult_integral_contrapositive_currified; [exact Nk|apply Rinv_neq_0_compat; exact N2].
    - apply Rle_trans with (2 := proj1 Q). apply Rle_trans with (bpow radix2 (-32)); [apply bpow_le; lia|cbn; lra].
    - apply near_div; try lra; try assumption. apply near_refl. }
  split; [exact F|]. split; [exact V|]. split.
  - unfold near in E. apply Rle_trans with (1 := E). apply Rmult_le_compat_r; [apply Rabs_pos|]. pose proof u24_val. lra.
  - rewrite V. apply Rle_trans with (Rabs (k / val D) + (u24 * Rabs (k / val D) + eta0)).
    + pose proof (rnd_err (k / val D)) as R. pose proof (Rabs_triang (rnd (k / val D) - k / val D) (k / val D)) as T.
      replace (rnd (k / val D) - k / val D + k / val D) with (rnd (k / val D)) in T by ring. lra.
    + rewrite u24_val. pose proof eta0_small. lra.
Qed.
Lemma coefB : forall (N D : f32) nn dd, fin N -> Rabs (val N - nn) <= u24 * Rabs nn -> Rabs nn <= 2147483648 -> width1 D dd ->
  fin (N / D)%sc /\ val (N / D)%sc = rnd (val N / val D) /\ Rabs (val (N / D)%sc - nn / dd) <= 3.1 * u24 * Rabs (nn / dd) + eta0 /\ Rabs (val (N / D)%sc) <= 18446744073709551616.
Proof.
  intros N D nn dd FN VN HN W. destruct (width_low _ _ W) as (B & N1 & N2). destruct W as (FD & ND & L).
  assert (I : / 4294967296 <= / Rabs (val D) <= 2147483648).
  { split; [apply Rinv_le_contravar; lra|]. replace 2147483648 with (/ / 2147483648) by (field; lra). apply Rinv_le_contravar; lra. }
  assert (HN' : Rabs (val N) <= 2147483800).
  { pose proof (Rabs_triang (val N - nn) nn) as T. replace (val N - nn + nn) with (val N) in T by ring. rewrite u24_val in VN. lra. }
  assert (Q : Rabs (val N / val D) <= 2147483800 * 2147483648).
  { unfold Rdiv. rewrite Rabs_mult, Rabs_inv. apply Rmult_le_compat; try apply Rabs_pos; try lra. }
  destruct (div_small N D FN FD N1) as [F V]; [apply small60; lra|].
  pose proof (rnd_err (val N / val D)) as R. pose proof eta0_small as ES. pose proof eta0_pos as EP.
  split; [exact F|]. split; [exact V|]. rewrite V. split.
  - destruct (Req_dec nn 0) as [->|Nz].
    + rewrite Rabs_R0, Rmult_0_r, Rminus_0_r in VN. assert (Z : val N = 0).
      { pose proof (Rabs_pos (val N)). destruct (Req_dec (val N) 0) as [E|E]; [exact E|]. apply Rabs_pos_lt in E. lra. }
      rewrite Z. unfold Rdiv. rewrite !Rmult_0_l, rnd_0, Rminus_0_r, Rabs_R0. lra.
    + assert (E : near (1 + 1 + / 1000) (val N / val D) (nn / dd)).
      { apply near_div; try lra; try assumption. unfold near. rewrite Rmult_1_l. exact VN. }
      unfold near in E. set (s := Rabs (nn / dd)) in *. assert (0 <= s) by apply Rabs_pos. rewrite u24_val in *.
      pose proof (Rabs_triang (rnd (val N / val D) - val N / val D) (val N / val D - nn / dd)) as T.
      replace (rnd (val N / val D) - val N / val D + (val N / val D - nn / dd)) with (rnd (val N / val D) - nn / dd) in T by ring.
      pose proof (Rabs_triang (val N / val D - nn / dd) (nn / dd)) as T2. replace (val N / val D - nn / dd + nn / dd) with (val N / val D) in T2 by ring. fold s in T2. lra.
  - pose proof (Rabs_triang (rnd (val N / val D) - val N / val D) (val N / val D)) as T.
    replace (rnd (val N / val D) - val N / val D + val N / val D) with (rnd (val N / val D)) in T by ring. rewrite u24_val in *. lra.
Qed.
(** products and sums do not overflow *)
Lemma lane_safe : forall A B t, Rabs A <= 8589934592 -> Rabs B <= 18446744073709551616 -> Rabs t <= 1073741824 -> small (A * t) /\ small (rnd (A * t) + B).
Proof.
  intros A B t HA HB Ht. assert (P : Rabs (A * t) <= 8589934592 * 1073741824) by (rewrite Rabs_mult; apply Rmult_le_compat; try apply Rabs_pos; assumption).
  split; apply small60; [lra|]. pose proof (rnd_err (A * t)) as R. rewrite u24_val in R. pose proof eta0_small.
  pose proof (Rabs_triang (rnd (A * t) - A * t) (A * t)) as T. replace (rnd (A * t) - A * t + A * t) with (rnd (A * t)) in T by ring.
  pose proof (Rabs_triang (rnd (A * t)) B). lra.
Qed.
(** the sides of the view box *)
Lemma side : forall v, span v -> let l := val (x2 v) in let r := val (y2 v) in
  width1 (y2 v - x2 v)%sc (r - l) /\ width1 (x2 v - y2 v)%sc (l - r) /\
  (fin (y2 v + x2 v)%sc /\ Rabs (val (y2 v + x2 v)%sc - (r + l)) <= u24 * Rabs (r + l)) /\ Rabs (r + l) <= 2147483648 /\ Rabs l <= 1073741824 /\ Rabs r <= 1073741824.
Proof.
  intros [a b] ((Fa & Ha) & (Fb & Hb) & H). cbn [x2 y2] in *. rewrite b30 in Ha, Hb. rewrite b_30 in H. set (l := val a) in *. set (r := val b) in *.
  pose proof p60_big as PB.
  assert (S : forall x y : f32, fin x -> fin y -> Rabs (val x) <= 1073741824 -> Rabs (val y) <= 1073741824 -> / 1073741824 <= Rabs (val x - val y) -> width1 (x - y)%sc (val x - val y)).
  { intros x y Fx Fy Hx Hy L. assert (U : Rabs (val x - val y) <= 2147483648) by (unfold Rminus; pose proof (Rabs_triang (val x) (- val y)) as T; rewrite Rabs_Ropp in T; lra).
    destruct (sub_small x y Fx Fy) as [F V]; [apply small60; lra|]. split; [exact F|]. split; [|lra].
    rewrite V. destruct (rel_normal (val x - val y)) as (e & He & ->).
    - apply Rle_trans with (2 := L). apply Rle_trans with (bpow radix2 (-30)); [apply bpow_le; lia|rewrite b_30; lra].
    - apply near_of. lra. }
  assert (E1 : Rabs (r - l) = r - l) by (apply Rabs_pos_eq; lra).
  split; [apply S; try assumption; fold l r; lra|]. split; [apply S; try assumption; fold l r; rewrite Rabs_minus_sym; lra|].
  split; [|split; [pose proof (Rabs_triang r l); lra|split; assumption]].
  destruct (sum_rel b a Fb Fa) as (F & E); try (fold l r; lra). split; [exact F|]. rewrite u24_val. fold r l in E. exact E.
Qed.
(** ** Accuracy *)
Lemma two_fin : fin (f2 : f32) /\ val (f2 : f32) = 2.
Proof. exact (lit_Z 2 ltac:(lia)). Qed.
Lemma coord_num : forall x, coordinate x -> fin x /\ Rabs (val x) <= 1073741824.
Proof. intros x [F H]. rewrite b30 in H. split; assumption. Qed.
Lemma ratio : forall k t nn dd, dd <> 0 -> Rabs (k / dd * t) + Rabs (nn / dd) = (Rabs (k * t) + Rabs nn) / Rabs dd.
Proof.
  intros k t nn dd N. replace (k / dd * t) with (k * t * / dd) by (field; exact N). unfold Rdiv. rewrite !Rabs_mult, Rabs_inv. ring.
Qed.
(** one lane: accuracy and, for the order of points, its form *)
Lemma one_lane : forall (ev : f32 -> f32 -> f32 -> f32) (K N D : f32) k nn dd,
  (forall A B t : f32, fin A -> fin B -> fin t -> small (val A * val t) -> small (rnd (val A * val t) + val B) ->
    fin (ev A B t) /\ val (ev A B t) = affine (val A) (val B) (val t)) ->
  fin K -> val K = k -> 1 <= Rabs k <= 2 -> fin N -> Rabs (val N - nn) <= u24 * Rabs nn -> Rabs nn <= 2147483648 -> width1 D dd ->
  forall t, coordinate t -> let v := ev (K / D)%sc (N / D)%sc t in
  fin v /\ val v = affine (rnd (k / val D)) (rnd (val N / val D)) (val t) /\
  Rabs (val v - (k * val t + nn) / dd) <= 4.2 / 16777216 * ((Rabs (k * val t) + Rabs nn) / Rabs dd) + bpow radix2 (-148).
Proof.
  intros ev K N D k nn dd EV FK VK HK FN VN HN W t Ht v. destruct (coord_num t Ht) as [Ft Bt].
  destruct (coefA K D k dd FK VK HK W) as (FA & VA & NA & BA). destruct (coefB N D nn dd FN VN HN W) as (FB & VB & NB & BB).
  destruct (lane_safe _ _ _ BA BB Bt) as [S1 S2]. destruct (EV _ _ t FA FB Ft S1 S2) as [F V]. fold v in F, V.
  destruct (width_low _ _ W) as (_ & _ & Nd).
  split; [exact F|]. split; [rewrite V, VA, VB; reflexivity|].
  pose proof (affine_near _ _ (val t) _ _ NA NB) as E. rewrite ratio in E by exact Nd. rewrite <- V in E.
  replace (k / dd * val t + nn / dd) with ((k * val t + nn) / dd) in E by (field; exact Nd). rewrite u24_val in E. unfold Rdiv at 2. exact E.
Qed.
Lemma two_abs : 1 <= Rabs 2 <= 2. Proof. rewrite Rabs_pos_eq; lra. Qed.
Lemma two_abs' : 1 <= Rabs (- (2)) <= 2. Proof. rewrite Rabs_Ropp, Rabs_pos_eq; lra. Qed.
Lemma one_abs : 1 <= Rabs 1 <= 2. Proof. rewrite Rabs_pos_eq; lra. Qed.
Section Lanes.
  Variables (p : path) (x y z : f32) (Hx : coordinate x) (Hy : coordinate y) (Hz : coordinate z).
  Lemma lane_x : forall w, span w -> let l := val (x2 w) in let r := val (y2 w) in
    let v := laneX p (f2 / (y2 w - x2 w))%sc (- (y2 w + x2 w) / (y2 w - x2 w))%sc x y z in
    fin v /\ val v = affine (rnd (2 / val (y2 w - x2 w)%sc)) (rnd (val (- (y2 w + x2 w))%sc / val (y2 w - x2 w)%sc)) (val x) /\
    Rabs (val v - screen l r (val x)) <= 4.2 / 16777216 * ((2 * Rabs (val x) + Rabs (l + r)) / (r - l)) + bpow radix2 (-148).
  Proof.
    intros w Sw l r. destruct (side w Sw) as (W & _ & (Fs & Es) & Bs & Bl & Br). fold l r in W, Es, Bs, Bl, Br.
    destruct two_fin as [F2 V2]. destruct (neg_fin _ Fs) as [Fn Vn]. destruct (coord_num y Hy) as [Fy _], (coord_num z Hz) as [Fz _].
    destruct Sw as (_ & _ & Lw). fold l r in Lw. rewrite b_30 in Lw.
    destruct (one_lane (fun A B t => laneX p A B t y z) f2 (- (y2 w + x2 w))%sc (y2 w - x2 w)%sc 2 (- (r + l)) (r - l)) with (t := x) as (F & V & E).
    - intros A B t FA FB Ft S1 S2. exact (laneX_eval p A B t y z FA FB Ft Fy Fz S1 S2).
    - exact F2.
    - exact V2.
    - exact two_abs.
    - exact Fn.
    - rewrite Vn. replace (- val (y2 w + x2 w)%sc - - (r + l)) with (- (val (y2 w + x2 w)%sc - (r + l))) by ring. rewrite !Rabs_Ropp. exact Es.
    - rewrite Rabs_Ropp. exact Bs.
    - exact W.
    - exact Hx.
    - cbv beta in F, V, E. split; [exact F|]. split; [exact V|]. unfold screen.
      replace ((2 * val x - (l + r)) / (r - l)) with ((2 * val x + - (r + l)) / (r - l)) by (field; lra).
      rewrite Rabs_mult, (Rabs_pos_eq 2), Rabs_Ropp, (Rabs_pos_eq (r - l)), (Rplus_comm r l) in E by lra. rewrite (Rplus_comm r l). exact E.
  Qed.
  Lemma lane_y : forall h, span h -> let l := val (x2 h) in let r := val (y2 h) in
    let v := laneY p (- f2 / (y2 h - x2 h))%sc ((y2 h + x2 h) / (y2 h - x2 h))%sc x y z in
    fin v /\ val v = affine (rnd (- (2) / val (y2 h - x2 h)%sc)) (rnd (val (y2 h + x2 h)%sc / val (y2 h - x2 h)%sc)) (val y) /\
    Rabs (val v + screen l r (val y)) <= 4.2 / 16777216 * ((2 * Rabs (val y) + Rabs (l + r)) / (r - l)) + bpow radix2 (-148).
  Proof.
    intros w Sw l r. destruct (side w Sw) as (W & _ & (Fs & Es) & Bs & Bl & Br). fold l r in W, Es, Bs, Bl, Br.
    destruct two_fin as [F2 V2]. destruct (neg_fin _ F2) as [Fn Vn]. rewrite V2 in Vn. destruct (coord_num x Hx) as [Fx _], (coord_num z Hz) as [Fz _].
    destruct Sw as (_ & _ & Lw). fold l r in Lw. rewrite b_30 in Lw.
    destruct (one_lane (fun A B t => laneY p A B x t z) (- f2)%sc (y2 w + x2 w)%sc (y2 w - x2 w)%sc (- (2)) (r + l) (r - l)) with (t := y) as (F & V & E).
    - intros A B t FA FB Ft S1 S2. exact (laneY_eval p A B x t z FA FB Fx Ft Fz S1 S2).
    - exact Fn.
    - exact Vn.
    - exact two_abs'.
    - exact Fs.
    - exact Es.
    - exact Bs.
    - exact W.
    - exact Hy.
    - cbv beta in F, V, E. split; [exact F|]. split; [exact V|]. unfold screen.
      match goal with |- Rabs (?v + _) <= _ => replace (v + (2 * val y - (l + r)) / (r - l)) with (v - (- (2) * val y + (r + l)) / (r - l)) by (field; lra) end.
      rewrite Rabs_mult, Rabs_Ropp, (Rabs_pos_eq 2), (Rabs_pos_eq (r - l)), (Rplus_comm r l) in E by lra. rewrite (Rplus_comm r l). exact E.
  Qed.
  Lemma lane_z : forall d, span d -> let n := val (x2 d) in let f := val (y2 d) in
    let v := lane p (f1 / (y2 d - x2 d))%sc (- x2 d / (y2 d - x2 d))%sc x y z in
    fin v /\ val v = affine (rnd (1 / val (y2 d - x2 d)%sc)) (rnd (val (- x2 d)%sc / val (y2 d - x2 d)%sc)) (val z) /\
    Rabs (val v - linearDepth n f (val z)) <= 4.2 / 16777216 * ((Rabs (val z) + Rabs n) / (f - n)) + bpow radix2 (-148).
  Proof.
    intros d Sd n f. destruct (side d Sd) as (W & _ & _ & _ & Bl & Br). fold n f in W, Bl, Br.
    destruct f1_fin as [F1 V1]. destruct (coord_num x Hx) as [Fx _], (coord_num y Hy) as [Fy _].
    destruct Sd as ((Fn & _) & (Ff & _) & Ld). fold n f in Ld. rewrite b_30 in Ld. destruct (neg_fin _ Fn) as [Fm Vm].
    destruct (one_lane (fun A B t => lane p A B x y t) f1 (- x2 d)%sc (y2 d - x2 d)%sc 1 (- n) (f - n)) with (t := z) as (F & V & E).
    - intros A B t FA FB Ft S1 S2. exact (lane_eval p A B x y t FA FB Fx Fy Ft S1 S2).
    - exact F1.
    - exact V1.
    - exact one_abs.
    - exact Fm.
    - rewrite Vm. fold n. rewrite Rminus_eq_0, Rabs_R0, u24_val. pose proof (Rabs_pos (- n)). lra.
    - rewrite Rabs_Ropp. lra.
    - exact W.
    - exact Hz.
    - cbv beta in F, V, E. split; [exact F|]. split; [exact V|]. unfold linearDepth.
      replace ((val z - n) / (f - n)) with ((val z + - n) / (f - n)) by (field; lra).
      rewrite !Rmult_1_l, Rabs_Ropp, (Rabs_pos_eq (f - n)) in E by lra. exact E.
  Qed.
  Lemma lane_zr : forall d, span d -> let n := val (x2 d) in let f := val (y2 d) in
    let v := lane p (f1 / (x2 d - y2 d))%sc (- y2 d / (x2 d - y2 d))%sc x y z in
    fin v /\ val v = affine (rnd (1 / val (x2 d - y2 d)%sc)) (rnd (val (- y2 d)%sc / val (x2 d - y2 d)%sc)) (val z) /\
    Rabs (val v - (1 - linearDepth n f (val z))) <= 4.2 / 16777216 * ((Rabs (val z) + Rabs f) / (f - n)) + bpow radix2 (-148).
  Proof.
    intros d Sd n f. destruct (side d Sd) as (_ & W & _ & _ & Bl & Br). fold n f in W, Bl, Br.
    destruct f1_fin as [F1 V1]. destruct (coord_num x Hx) as [Fx _], (coord_num y Hy) as [Fy _].
    destruct Sd as ((Fn & _) & (Ff & _) & Ld). fold n f in Ld. rewrite b_30 in Ld. destruct (neg_fin _ Ff) as [Fm Vm].
    destruct (one_lane (fun A B t => lane p A B x y t) f1 (- y2 d)%sc (x2 d - y2 d)%sc 1 (- f) (n - f)) with (t := z) as (F & V & E).
    - intros A B t FA FB Ft S1 S2. exact (lane_eval p A B x y t FA FB Fx Fy Ft S1 S2).
    - exact F1.
    - exact V1.
    - exact one_abs.
    - exact Fm.
    - rewrite Vm. fold f. rewrite Rminus_eq_0, Rabs_R0, u24_val. pose proof (Rabs_pos (- f)). lra.
    - rewrite Rabs_Ropp. lra.
    - exact W.
    - exact Hz.
    - cbv beta in F, V, E. split; [exact F|]. split; [exact V|]. unfold linearDepth.
      replace (1 - (val z - n) / (f - n)) with ((val z + - f) / (n - f)) by (field; lra).
      rewrite !Rmult_1_l, Rabs_Ropp, (Rabs_minus_sym n f), (Rabs_pos_eq (f - n)) in E by lra. exact E.
  Qed.
End Lanes.
Theorem ortho_near : forall p w h d x y z, span w -> span h -> span d -> coordinate x -> coordinate y -> coordinate z ->
  forall M, M = calcOrthoProj w h d \/ M = calcOrthoProjRevZ w h d -> let c := clip p M x y z in
  fin (vx c) /\ fin (vy c) /\ fin (vz c) /\ fin (vw c) /\ val (vw c) = 1 /\
  Rabs (val (vx c) - screen (val (x2 w)) (val (y2 w)) (val x)) <=
    4.2 / 16777216 * ((2 * Rabs (val x) + Rabs (val (x2 w) + val (y2 w))) / (val (y2 w) - val (x2 w))) + bpow radix2 (-148) /\
  Rabs (val (vy c) + screen (val (x2 h)) (val (y2 h)) (val y)) <=
    4.2 / 16777216 * ((2 * Rabs (val y) + Rabs (val (x2 h) + val (y2 h))) / (val (y2 h) - val (x2 h))) + bpow radix2 (-148).
Proof.
  intros p w h d x y z Sw Sh Sd Hx Hy Hz M HM c.
  destruct (coord_num x Hx) as [Fx _], (coord_num y Hy) as [Fy _], (coord_num z Hz) as [Fz _].
  destruct (w_one p x y z Fx Fy Fz) as [F1 V1]. destruct (lane_x p x y z Hx Hy Hz w Sw) as (FX & _ & EX). destruct (lane_y p x y z Hx Hy Hz h Sh) as (FY & _ & EY).
  destruct (lane_z p x y z Hx Hy Hz d Sd) as (FZ & _ & _). destruct (lane_zr p x y z Hx Hy Hz d Sd) as (FZ' & _ & _).
  destruct HM as [-> | ->]; unfold c; [destruct (clip_ortho p w h d x y z) as (-> & -> & -> & ->)|destruct (clip_orthoRev p w h d x y z) as (-> & -> & -> & ->)];
  (split; [exact FX|]; split; [exact FY|]; split; [assumption|]; split; [exact F1|]; split; [exact V1|]; split; [exact EX|exact EY]).
Qed.
Theorem ortho_depth : forall p w h d x y z, span d -> coordinate x -> coordinate y -> coordinate z ->
  let n := val (x2 d) in let f := val (y2 d) in
  Rabs (val (vz (clip p (calcOrthoProj w h d) x y z)) - linearDepth n f (val z)) <= 4.2 / 16777216 * ((Rabs (val z) + Rabs n) / (f - n)) + bpow radix2 (-148) /\
  Rabs (val (vz (clip p (calcOrthoProjRevZ w h d) x y z)) - (1 - linearDepth n f (val z))) <= 4.2 / 16777216 * ((Rabs (val z) + Rabs f) / (f - n)) + bpow radix2 (-148).
Proof.
  intros p w h d x y z Sd Hx Hy Hz n f. destruct (clip_ortho p w h d x y z) as (_ & _ & -> & _). destruct (clip_orthoRev p w h d x y z) as (_ & _ & -> & _).
  split; [apply (lane_z p x y z Hx Hy Hz d Sd)|apply (lane_zr p x y z Hx Hy Hz d Sd)].
Qed.
(** ** Order *)
Lemma affine_up : forall A B t t', 0 <= A -> t <= t' -> affine A B t <= affine A B t'.
Proof.
  intros A B t t' HA Ht. unfold affine. apply rnd_le. apply Rplus_le_compat_r, rnd_le. apply Rmult_le_compat_l; assumption.
Qed.
Lemma affine_down : forall A B t t', A <= 0 -> t <= t' -> affine A B t' <= affine A B t.
Proof.
  intros A B t t' HA Ht. unfold affine. apply rnd_le. apply Rplus_le_compat_r, rnd_le. apply Rmult_le_compat_neg_l; assumption.
Qed.
Lemma width_sign : forall D dd, width1 D dd -> (0 < dd -> 0 < val D) /\ (dd < 0 -> val D < 0).
Proof.
  intros D dd (_ & N & L). unfold near in N. rewrite u24_val in N. split; intros H.
  - rewrite (Rabs_pos_eq dd) in N by lra. apply Rabs_le_inv in N. lra.
  - rewrite (Rabs_left dd) in N by lra. apply Rabs_le_inv in N. lra.
Qed.
Lemma rnd_pos : forall x, 0 <= x -> 0 <= rnd x.
Proof. intros x H. rewrite <- rnd_0. apply rnd_le, H. Qed.
Lemma rnd_neg : forall x, x <= 0 -> rnd x <= 0.
Proof. intros x H. rewrite <- rnd_0. apply rnd_le, H. Qed.
Lemma quot_pos : forall a b, 0 < a -> 0 < b -> 0 <= a / b.
Proof. intros a b Ha Hb. apply Rlt_le, Rdiv_lt_0_compat; assumption. Qed.
Theorem ortho_order : forall p w h d x y z x' y' z', span w -> span h -> span d ->
  coordinate x -> coordinate y -> coordinate z -> coordinate x' -> coordinate y' -> coordinate z' ->
  let c := clip p (calcOrthoProj w h d) x y z in let c' := clip p (calcOrthoProj w h d) x' y' z' in
  let e := clip p (calcOrthoProjRevZ w h d) x y z in let e' := clip p (calcOrthoProjRevZ w h d) x' y' z' in
  (val x <= val x' -> val (vx c) <= val (vx c') /\ val (vx e) <= val (vx e')) /\
  (val y <= val y' -> val (vy c') <= val (vy c) /\ val (vy e') <= val (vy e)) /\
  (val z <= val z' -> val (vz c) <= val (vz c') /\ val (vz e') <= val (vz e)).
Proof.
  intros p w h d x y z x' y' z' Sw Sh Sd Hx Hy Hz Hx' Hy' Hz' c c' e e'.
  destruct (side w Sw) as (Ww & _), (side h Sh) as (Wh & _), (side d Sd) as (Wd & Wd' & _).
  pose proof (proj2 (proj2 Sw)) as Lw. pose proof (proj2 (proj2 Sh)) as Lh. pose proof (proj2 (proj2 Sd)) as Ld. rewrite b_30 in Lw, Lh, Ld.
  pose proof (proj1 (width_sign _ _ Ww) ltac:(lra)) as Pw. pose proof (proj1 (width_sign _ _ Wh) ltac:(lra)) as Ph.
  pose proof (proj1 (width_sign _ _ Wd) ltac:(lra)) as Pd. pose proof (proj2 (width_sign _ _ Wd') ltac:(lra)) as Pd'.
  destruct (lane_x p x y z Hx Hy Hz w Sw) as (_ & X & _). destruct (lane_x p x' y' z' Hx' Hy' Hz' w Sw) as (_ & X' & _).
  destruct (lane_y p x y z Hx Hy Hz h Sh) as (_ & Y & _). destruct (lane_y p x' y' z' Hx' Hy' Hz' h Sh) as (_ & Y' & _).
  destruct (lane_z p x y z Hx Hy Hz d Sd) as (_ & Z & _). destruct (lane_z p x' y' z' Hx' Hy' Hz' d Sd) as (_ & Z' & _).
  destruct (lane_zr p x y z Hx Hy Hz d Sd) as (_ & R & _). destruct (lane_zr p x' y' z' Hx' Hy' Hz' d Sd) as (_ & R' & _).
  unfold c, c', e, e'. destruct (clip_ortho p w h d x y z) as (-> & -> & -> & _), (clip_ortho p w h d x' y' z') as (-> & -> & -> & _).
  destruct (clip_orthoRev p w h d x y z) as (-> & -> & -> & _), (clip_orthoRev p w h d x' y' z') as (-> & -> & -> & _).
  rewrite X, X', Y, Y', Z, Z', R, R'. split; [|split].
  - intros H. assert (K := affine_up (rnd (2 / val (y2 w - x2 w)%sc)) (rnd (val (- (y2 w + x2 w))%sc / val (y2 w - x2 w)%sc)) _ _ (rnd_pos _ (quot_pos 2 _ ltac:(lra) Pw)) H). split; exact K.
  - intros H. assert (Q : - (2) / val (y2 h - x2 h)%sc <= 0) by (pose proof (quot_pos 2 _ ltac:(lra) Ph); unfold Rdiv in *; lra).
    assert (K := affine_down (rnd (- (2) / val (y2 h - x2 h)%sc)) (rnd (val (y2 h + x2 h)%sc / val (y2 h - x2 h)%sc)) _ _ (rnd_neg _ Q) H). split; exact K.
  - intros H. split; [apply affine_up; [apply rnd_pos, quot_pos; lra|exact H]|]. apply affine_down; [|exact H]. apply rnd_neg.
    assert (Q := quot_pos 1 (- val (x2 d - y2 d)%sc) ltac:(lra) ltac:(lra)). replace (1 / val (x2 d - y2 d)%sc) with (- (1 / - val (x2 d - y2 d)%sc)) by (field; lra). lra.
Qed.

(** ** View boxes around the axis, and depths from zero *)
(** the one rounding that is a tie *)
Lemma tie_one : rnd (1 + / 16777216) = 1.
Proof.
  destruct f1_fin as [F1 V1]. destruct (lit_exact 1 (-24) ltac:(lia) ltac:(lia)) as [Fe Ve]. rewrite Rmult_1_l in Ve.
  assert (Ve' : val (slit 1 (-24) : f32) = / 16777216) by (rewrite Ve; cbn; lra).
  destruct (add_small f1 (slit 1 (-24)) F1 Fe) as [F V].
  - rewrite Ve'. change (val f1) with (val (f1 : f32)). rewrite V1. apply small_le with 2; [rewrite Rabs_pos_eq|]; lra.
  - change (val f1) with (val (f1 : f32)) in V. rewrite V1, Ve' in V. rewrite <- V.
    replace (sadd f1 (slit 1 (-24)) : f32) with (f1 : f32) by (apply same_bits; vm_compute; reflexivity). exact V1.
Qed.
Lemma inverse_scale : forall r t, / 1073741824 <= r <= 1073741824 -> Rabs t <= r -> Rabs (rnd (rnd (1 / r) * t)) <= 1.
Proof.
  intros r t Hr Ht. destruct (rel_normal (1 / r)) as (e & He & ->).
  - apply Rle_trans with (bpow radix2 (-30)); [apply bpow_le; lia|]. rewrite b_30, Rabs_pos_eq by (apply Rlt_le, Rdiv_lt_0_compat; lra).
    apply Rle_trans with (1 / 1073741824); [lra|]. unfold Rdiv. apply Rmult_le_compat_l; [lra|]. apply Rinv_le_contravar; lra.
  - rewrite u24_val in He. assert (B : Rabs (1 / r * (1 + e) * t) <= 1 + / 16777216).
    { apply Rabs_le_inv in He. replace (1 / r * (1 + e) * t) with ((1 + e) * (t / r)) by (field; lra). rewrite Rabs_mult, (Rabs_pos_eq (1 + e)) by lra.
      assert (Rabs (t / r) <= 1). { unfold Rdiv. rewrite Rabs_mult, Rabs_inv, (Rabs_pos_eq r) by lra. apply Rmult_le_reg_r with r; [lra|]. rewrite Rmult_assoc, Rinv_l by lra. lra. }
      rewrite <- (Rmult_1_r (1 + / 16777216)). apply Rmult_le_compat; try apply Rabs_pos; lra. }
    apply Rabs_le_inv in B. apply Rabs_le. set (q := 1 / r * (1 + e) * t) in *. clearbody q.
    pose proof (rnd_le q (1 + / 16777216) ltac:(lra)) as U. pose proof (rnd_le (- (1 + / 16777216)) q ltac:(lra)) as L. rewrite rnd_opp in L. rewrite tie_one in U, L. lra.
Qed.
Lemma double_exact : forall r : f32, rnd (val r + val r) = val r + val r.
Proof.
  intros r. apply round_generic; [apply valid_rnd_N|]. replace (val r + val r) with (val r * bpow radix2 1) by (cbn; lra).
  apply mult_bpow_pos_exact_FLT; [apply (generic_format_B2R 24 128 r)|lia].
Qed.
Lemma affine_zero : forall A t, affine A 0 t = rnd (A * t).
Proof. intros A t. unfold affine. rewrite Rplus_0_r. apply round_generic; [apply valid_rnd_N|]. apply generic_format_round; [apply FLT_exp_valid; reflexivity|apply valid_rnd_N]. Qed.
(** the parts of a symmetric side *)
Lemma sym_side : forall v, span v -> val (x2 v) = - val (y2 v) ->
  / 2147483648 <= val (y2 v) <= 1073741824 /\ val (y2 v - x2 v)%sc = 2 * val (y2 v) /\ val (y2 v + x2 v)%sc = 0 /\ fin (y2 v + x2 v)%sc.
Proof.
  intros [a b] ((Fa & Ha) & (Fb & Hb) & H) E. cbn [x2 y2] in *. rewrite b30 in Ha, Hb. rewrite b_30 in H. rewrite E in *.
  assert (P : 0 <= val b) by lra. rewrite (Rabs_pos_eq _ P) in Hb. split; [lra|].
  destruct (sub_small b a Fb Fa) as [F1 V1]; [rewrite E; apply small60; rewrite Rabs_pos_eq; lra|].
  destruct (add_small b a Fb Fa) as [F2 V2]; [rewrite E, Rplus_opp_r; apply small0|].
  rewrite E in V1, V2. rewrite Rplus_opp_r, rnd_0 in V2. replace (val b - - val b) with (val b + val b) in V1 by ring. rewrite double_exact in V1.
  split; [lra|]. split; assumption.
Qed.
Theorem ortho_inside : forall p w h d x y z, span w -> span h -> span d -> coordinate z ->
  val (x2 w) = - val (y2 w) -> val (x2 h) = - val (y2 h) -> / 1073741824 <= val (y2 w) -> / 1073741824 <= val (y2 h) ->
  coordinate x -> coordinate y -> Rabs (val x) <= val (y2 w) -> Rabs (val y) <= val (y2 h) ->
  forall M, M = calcOrthoProj w h d \/ M = calcOrthoProjRevZ w h d -> let c := clip p M x y z in Rabs (val (vx c)) <= 1 /\ Rabs (val (vy c)) <= 1.
Proof.
  intros p w h d x y z Sw Sh Sd Hz Ew Eh Lw Lh Hx Hy Bx By M HM c.
  destruct (sym_side w Sw Ew) as (Rw & Dw & Nw & Fw), (sym_side h Sh Eh) as (Rh & Dh & Nh & Fh).
  destruct (lane_x p x y z Hx Hy Hz w Sw) as (_ & X & _). destruct (lane_y p x y z Hx Hy Hz h Sh) as (_ & Y & _).
  destruct (neg_fin _ Fw) as [_ Vn]. rewrite Nw in Vn.
  assert (GX : Rabs (val (laneX p (f2 / (y2 w - x2 w))%sc (- (y2 w + x2 w) / (y2 w - x2 w))%sc x y z)) <= 1).
  { rewrite X, Vn, Dw, Ropp_0. unfold Rdiv at 2. rewrite Rmult_0_l, rnd_0, affine_zero.
    replace (2 / (2 * val (y2 w))) with (1 / val (y2 w)) by (field; lra). apply inverse_scale; lra. }
  assert (GY : Rabs (val (laneY p (- f2 / (y2 h - x2 h))%sc ((y2 h + x2 h) / (y2 h - x2 h))%sc x y z)) <= 1).
  { rewrite Y, Nh, Dh. unfold Rdiv at 2. rewrite Rmult_0_l, rnd_0, affine_zero.
    replace (- (2) / (2 * val (y2 h))) with (- (1 / val (y2 h))) by (field; lra). rewrite rnd_opp, Ropp_mult_distr_l_reverse, rnd_opp, Rabs_Ropp. apply inverse_scale; lra. }
  destruct HM as [-> | ->]; unfold c; [destruct (clip_ortho p w h d x y z) as (-> & -> & _)|destruct (clip_orthoRev p w h d x y z) as (-> & -> & _)]; split; assumption.
Qed.
Theorem ortho_depth_range : forall p w h d x y z, span d -> coordinate x -> coordinate y -> coordinate z -> val (x2 d) = 0 -> 0 <= val z <= val (y2 d) ->
  let a := vz (clip p (calcOrthoProj w h d) x y z) in let b := vz (clip p (calcOrthoProjRevZ w h d) x y z) in
  0 <= val a <= 1 /\ 0 <= val b <= 1 /\ (val z = 0 -> val a = 0 /\ val b = 1).
Proof.
  intros p w h d x y z Sd Hx Hy Hz E0 Bz a b.
  destruct (lane_z p x y z Hx Hy Hz d Sd) as (_ & A & _). destruct (lane_zr p x y z Hx Hy Hz d Sd) as (_ & B & _).
  unfold a, b. destruct (clip_ortho p w h d x y z) as (_ & _ & -> & _), (clip_orthoRev p w h d x y z) as (_ & _ & -> & _). rewrite A, B. clear A B a b.
  destruct d as [n f]. destruct Sd as ((Fn & Hn) & (Ff & Hf) & L). cbn [x2 y2] in *. rewrite b30 in Hf. rewrite b_30 in L. rewrite E0 in *.
  assert (P : / 1073741824 <= val f) by lra. rewrite Rabs_pos_eq in Hf by lra.
  destruct (sub_small f n Ff Fn) as [F1 V1]; [rewrite E0, Rminus_0_r; apply small60; rewrite Rabs_pos_eq; lra|]. rewrite E0, Rminus_0_r, rnd_val in V1.
  destruct (sub_small n f Fn Ff) as [F2 V2]; [rewrite E0; apply small60; rewrite Rabs_minus_sym, Rminus_0_r, Rabs_pos_eq; lra|].
  rewrite E0, Rminus_0_l, rnd_opp, rnd_val in V2.
  destruct (neg_fin _ Fn) as [_ Vn], (neg_fin _ Ff) as [_ Vf]. rewrite E0, Ropp_0 in Vn.
  rewrite V1, V2, Vn, Vf. replace (- val f / - val f) with 1 by (field; lra). rewrite (rnd_Z 1 ltac:(lia)). replace (0 / val f) with 0 by (field; lra). rewrite rnd_0, !affine_zero.
  replace (1 / - val f) with (- (1 / val f)) by (field; lra). rewrite rnd_opp. unfold affine. rewrite Ropp_mult_distr_l_reverse, rnd_opp.
  assert (I : Rabs (val z) <= val f) by (rewrite Rabs_pos_eq; lra).
  pose proof (inverse_scale (val f) (val z) (conj P Hf) I) as K. set (q := rnd (rnd (1 / val f) * val z)) in *.
  assert (Q : 0 <= q).
  { apply rnd_pos, Rmult_le_pos; [|lra]. apply rnd_pos, quot_pos; lra. }
  rewrite Rabs_pos_eq in K by exact Q. split; [lra|]. split.
  - pose proof (rnd_le (- q + 1) 1 ltac:(lra)) as U. pose proof (rnd_le 0 (- q + 1) ltac:(lra)) as L'. rewrite (rnd_Z 1 ltac:(lia)) in U. rewrite rnd_0 in L'. lra.
  - intros Z. assert (E : q = 0) by (unfold q; rewrite Z, Rmult_0_r, rnd_0; reflexivity). rewrite E. split; [reflexivity|]. rewrite Ropp_0, Rplus_0_l. exact (rnd_Z 1 ltac:(lia)).
Qed.

(** ** What does not hold *)
Lemma fz : forall m, (Z.abs m <= 100)%Z -> coordinate (fi m) /\ val (fi m) = IZR m.
Proof.
  intros m Hm. destruct (lit_Z m ltac:(lia)) as [F V]. split; [|exact V]. split; [exact F|]. change (B2R 24 128 (fi m)) with (val (slit m 0 : f32)). rewrite V, b30, <- abs_IZR. apply IZR_le. lia.
Qed.
Lemma span_z : forall a b, (Z.abs a <= 100)%Z -> (Z.abs b <= 100)%Z -> (a < b)%Z -> span (V2 (fi a) (fi b)).
Proof.
  intros a b Ha Hb H. destruct (fz a Ha) as [Ca Va], (fz b Hb) as [Cb Vb]. split; [exact Ca|]. split; [exact Cb|]. cbn [x2 y2].
  change (bpow radix2 (-30) <= val (fi b) - val (fi a)). rewrite Va, Vb, b_30, <- minus_IZR. assert (1 <= b - a)%Z by lia. apply IZR_le in H0. lra.
Qed.
Lemma corner_clipped : forall p, exists w d x z, span w /\ span d /\ coordinate x /\ coordinate z /\ val (x2 w) = 1 /\ val (y2 w) = 7 /\ val (x2 d) = 1 /\ val (y2 d) = 7 /\
  val x = 7 /\ val z = 7 /\
  let c := clip p (calcOrthoProj w w d) x x z in let e := clip p (calcOrthoProjRevZ w w d) x x z in
  1 < val (vx c) /\ val (vy c) < -1 /\ 1 < val (vz c) /\ val (vz e) < 0.
Proof.
  intros p. exists (V2 (fi 1) (fi 7)), (V2 (fi 1) (fi 7)), (fi 7), (fi 7).
  destruct (fz 1 ltac:(lia)) as [C1 V1], (fz 7 ltac:(lia)) as [C7 V7].
  assert (S : span (V2 (fi 1) (fi 7))) by (apply span_z; lia).
  split; [exact S|]. split; [exact S|]. split; [exact C7|]. split; [exact C7|]. cbn [x2 y2]. split; [exact V1|]. split; [exact V7|]. split; [exact V1|]. split; [exact V7|]. split; [exact V7|]. split; [exact V7|].
  destruct (ortho_near p _ _ _ _ _ _ S S S C7 C7 C7 _ (or_introl eq_refl)) as (FX & FY & FZ & _). destruct (ortho_near p _ _ _ _ _ _ S S S C7 C7 C7 _ (or_intror eq_refl)) as (_ & _ & FZ' & _).
  destruct f1_fin as [F1 W1]. destruct f0_val as [F0 W0]. destruct (lit_Z (-1) ltac:(lia)) as [Fm Wm].
  cbv zeta. set (c := clip p _ _ _ _) in *. set (e := clip p (calcOrthoProjRevZ _ _ _) _ _ _) in *.
  assert (B1 : slt f1 (vx c) = true) by (destruct p; vm_compute; reflexivity). assert (B2 : slt (vy c) (slit (-1) 0) = true) by (destruct p; vm_compute; reflexivity).
  assert (B3 : slt f1 (vz c) = true) by (destruct p; vm_compute; reflexivity). assert (B4 : slt (vz e) f0 = true) by (destruct p; vm_compute; reflexivity).
  clearbody c e. apply slt_iff' in B1; [|exact F1|exact FX]. apply slt_iff' in B2; [|exact FY|exact Fm]. apply slt_iff' in B3; [|exact F1|exact FZ]. apply slt_iff' in B4; [|exact FZ'|exact F0].
  change (val f1) with (val (f1 : f32)) in B1, B3. change (val f0) with (val (f0 : f32)) in B4. rewrite W1 in B1, B3. rewrite W0 in B4. rewrite Wm in B2. split; [exact B1|]. split; [exact B2|]. split; [exact B3|exact B4].
Qed.
