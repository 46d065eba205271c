(** Quaternion to matrix and matrix to quaternion in binary32. *)
From Coq Require Import ZArith Bool List Reals Lra Lia Psatz.
From Flocq Require Import Core.Core IEEE754.Binary.
From Verif.Model Require Import Scalar Vec Simd Lanes Quaternion Matrix Transform.
From Verif.Spec Require Import QuatMatSpec.
From Verif.Proofs Require Import OrdScalar F32Round F32Err Approx NormProofs RayErr SphereErr QuatErr.
Import ListNotations.
Local Open Scope R_scope.
Notation U := (/ 16777216).

(** ** Absolute errors *)
Definition ab (d : R) (x : f32) (X : R) : Prop := fin x /\ Rabs (val x - X) <= d.
Lemma ab_weak : forall d e x X, ab d x X -> d <= e -> ab e x X.
Proof. intros d e x X [F H] L. split; [exact F|lra]. Qed.
Lemma ab_eq : forall x X, fin x -> val x = X -> ab 0 x X.
Proof. intros x X F <-. split; [exact F|]. rewrite Rminus_eq_0, Rabs_R0. lra. Qed.
Lemma ab_rnd : forall d w X (z : f32), fin z -> val z = rnd w -> Rabs (w - X) <= d -> Rabs (rnd w - w) <= U * Rabs w ->
  ab (d + U * (Rabs X + d)) z X.
Proof.
  intros d w X z F V H R. split; [exact F|]. rewrite V. replace (rnd w - X) with ((rnd w - w) + (w - X)) by ring.
  pose proof (Rabs_triang (rnd w - w) (w - X)) as T. pose proof (Rabs_triang_inv w X) as T2. lra.
Qed.
Lemma rel_err : forall w e, Rabs e <= u24 -> rnd w = w * (1 + e) -> Rabs (rnd w - w) <= U * Rabs w.
Proof.
  intros w e H E. rewrite E. replace (w * (1 + e) - w) with (e * w) by ring. rewrite Rabs_mult, <- u24_val.
  apply Rmult_le_compat_r; [apply Rabs_pos|exact H].
Qed.
Lemma ab_sub : forall d e M x y X Y, ab d x X -> ab e y Y -> Rabs (X - Y) <= M -> M + d + e <= 1000 ->
  ab (d + e + U * (M + d + e)) (x - y)%sc (X - Y).
Proof.
  intros d e M x y X Y [Fx Hx] [Fy Hy] HM HB.
  assert (D : Rabs (val x - val y - (X - Y)) <= d + e).
  { replace (val x - val y - (X - Y)) with ((val x - X) + - (val y - Y)) by ring.
    pose proof (Rabs_triang (val x - X) (- (val y - Y))) as T. rewrite Rabs_Ropp in T. lra. }
  pose proof (Rabs_triang_inv (val x - val y) (X - Y)) as T2.
  destruct (sub_small x y Fx Fy) as [F V]; [apply small_le with 1000; lra|].
  destruct (sub_rel x y) as (r & Hr & Er).
  apply ab_weak with (d + e + U * (Rabs (X - Y) + (d + e))); [|lra].
  exact (ab_rnd _ _ _ _ F V D (rel_err _ _ Hr Er)).
Qed.
Lemma add_rel : forall a b : f32, fin b -> exists e, Rabs e <= u24 /\ rnd (val a + val b) = (val a + val b) * (1 + e).
Proof.
  intros a b Fb. destruct (sub_rel a (- b)%sc) as (e & H & E). exists e. split; [exact H|].
  destruct (NumericProofs.neg_fin b Fb) as [_ V]. rewrite V in E. unfold Rminus in E. rewrite Ropp_involutive in E. exact E.
Qed.
Lemma ab_add : forall d e M x y X Y, ab d x X -> ab e y Y -> Rabs (X + Y) <= M -> M + d + e <= 1000 ->
  ab (d + e + U * (M + d + e)) (x + y)%sc (X + Y).
Proof.
  intros d e M x y X Y [Fx Hx] [Fy Hy] HM HB.
  assert (D : Rabs (val x + val y - (X + Y)) <= d + e).
  { replace (val x + val y - (X + Y)) with ((val x - X) + (val y - Y)) by ring.
    pose proof (Rabs_triang (val x - X) (val y - Y)) as T. lra. }
  pose proof (Rabs_triang_inv (val x + val y) (X + Y)) as T2.
  destruct (add_small x y Fx Fy) as [F V]; [apply small_le with 1000; lra|].
  destruct (add_rel x y Fy) as (r & Hr & Er).
  apply ab_weak with (d + e + U * (Rabs (X + Y) + (d + e))); [|lra].
  exact (ab_rnd _ _ _ _ F V D (rel_err _ _ Hr Er)).
Qed.

(** ** The largest component *)
Definition pick (s0 s1 s2 s3 : f32) : Z * f32 :=
  let r := (0%Z, s0) in
  let r := if sgt s1 (snd r) then (1%Z, s1) else r in
  let r := if sgt s2 (snd r) then (2%Z, s2) else r in
  if sgt s3 (snd r) then (3%Z, s3) else r.
Lemma pick_max : forall e s0 s1 s2 s3 C0 C1 C2 C3, 0 <= e -> ab e s0 C0 -> ab e s1 C1 -> ab e s2 C2 -> ab e s3 C3 -> C0 + C1 + C2 + C3 = 0 ->
  (pick s0 s1 s2 s3 = (0%Z, s0) /\ - (3 / 2) * e <= C0) \/ (pick s0 s1 s2 s3 = (1%Z, s1) /\ - (3 / 2) * e <= C1) \/
  (pick s0 s1 s2 s3 = (2%Z, s2) /\ - (3 / 2) * e <= C2) \/ (pick s0 s1 s2 s3 = (3%Z, s3) /\ - (3 / 2) * e <= C3).
Proof.
  intros e s0 s1 s2 s3 C0 C1 C2 C3 He [F0 H0] [F1 H1] [F2 H2] [F3 H3] S.
  apply Rabs_le_inv in H0, H1, H2, H3.
  assert (L : forall x y : f32, fin x -> fin y -> sgt x y = true /\ val y < val x \/ sgt x y = false /\ val x <= val y).
  { intros x y Fx Fy. unfold sgt. pose proof (slt_iff' y x Fy Fx) as I. destruct (slt y x); [left|right]; (split; [reflexivity|]); [tauto|].
    destruct (Rle_dec (val x) (val y)); [assumption|]. exfalso. assert (false = true) by (apply I; lra). discriminate. }
  unfold pick. cbn [snd].
  destruct (L s1 s0 F1 F0) as [[-> G1] | [-> G1]]; cbn [snd].
  - destruct (L s2 s1 F2 F1) as [[-> G2] | [-> G2]]; cbn [snd].
    + destruct (L s3 s2 F3 F2) as [[-> G3] | [-> G3]]; [right; right; right|right; right; left]; (split; [reflexivity|lra]).
    + destruct (L s3 s1 F3 F1) as [[-> G3] | [-> G3]]; [right; right; right|right; left]; (split; [reflexivity|lra]).
  - destruct (L s2 s0 F2 F0) as [[-> G2] | [-> G2]]; cbn [snd].
    + destruct (L s3 s2 F3 F2) as [[-> G3] | [-> G3]]; [right; right; right|right; right; left]; (split; [reflexivity|lra]).
    + destruct (L s3 s0 F3 F0) as [[-> G3] | [-> G3]]; [right; right; right|left]; (split; [reflexivity|lra]).
Qed.
Lemma rnd_abs : forall w, Rabs (rnd w - w) <= U * Rabs w + / 10 ^ 12.
Proof. intros w. pose proof (rnd_err w). pose proof eta0_small. rewrite u24_val in *. lra. Qed.
Definition root (s : f32) : f32 := (ssqrt (s + f1) * fhalf)%sc.
Lemma root_near : forall d (s : f32) c, 0 <= d <= / 64 -> ab (3 * d + 5.2 * U) s (4 * (c * c) - 1) -> c * c <= 1 ->
  - (3 / 2) * (3 * d + 5.2 * U) <= 4 * (c * c) - 1 ->
  ab (0.79 * d + 4.53 * U) (root s) (Rabs c) /\ 0.48 <= Rabs c <= 1 /\ 0.469 <= val (root s).
Proof.
  intros d s c Hd A C1 C2. set (a := Rabs c). assert (Pa : 0 <= a) by apply Rabs_pos.
  assert (Ea : a * a = c * c) by (unfold a; rewrite <- Rabs_mult; apply Rabs_right, Rle_ge, Rle_0_sqr).
  rewrite <- Ea in *.
  assert (La : 0.482 <= a <= 1) by nra.
  destruct (lit_Z 1 ltac:(lia)) as [Fo Vo]. destruct half_val as [Fh Vh].
  assert (T : ab (3 * d + 5.2 * U + 0 + U * (4 + (3 * d + 5.2 * U) + 0)) (s + f1)%sc (4 * (a * a) - 1 + 1)).
  { apply ab_add; [exact A|apply ab_eq; assumption|rewrite Rabs_pos_eq; nra|lra]. }
  destruct T as [Ft Ht]. set (t := (s + f1)%sc) in *. replace (4 * (a * a) - 1 + 1) with (4 * (a * a)) in Ht by ring.
  apply Rabs_le_inv in Ht.
  assert (Lt : 0.8815 <= val t) by nra.
  destruct (sqrt_fin32 t Ft ltac:(lra)) as [Fr Vr]. set (r := sqrt (val t)) in *.
  assert (Er : r * r = val t) by (apply sqrt_sqrt; lra). assert (Pr : 0 <= r) by apply sqrt_pos.
  assert (Lr : 0.9388 <= r) by nra. assert (Ur : r <= 2.03) by nra.
  assert (Dr : Rabs (r - 2 * a) <= (3 * d + 9.3 * U) / 1.9).
  { apply Rabs_le. assert (E : (r - 2 * a) * (r + 2 * a) = val t - 4 * (a * a)) by (rewrite <- Er; ring). split.
    - destruct (Rle_dec 0 (r - 2 * a)); [lra|]. nra.
    - destruct (Rle_dec (r - 2 * a) 0); [lra|]. nra. }
  pose proof (rnd_abs r) as Rr. rewrite (Rabs_pos_eq r) in Rr by lra. apply Rabs_le_inv in Rr, Dr.
  destruct (mul_small (ssqrt t) fhalf Fr Fh) as [Fm Vm].
  { apply small_le with 3; [|lra]. rewrite Vh, Vr. apply Rabs_le. lra. }
  change (ssqrt t * fhalf)%sc with (root s) in Fm, Vm. rewrite Vh, Vr in Vm.
  pose proof (rnd_abs (rnd r * / 2)) as Rv. rewrite (Rabs_pos_eq (rnd r * / 2)) in Rv by lra. rewrite <- Vm in Rv. apply Rabs_le_inv in Rv.
  split; [split; [exact Fm|apply Rabs_le; lra]|]. split; lra.
Qed.
(** a product with the reciprocal of four times the largest component *)
Definition over (n v : f32) : f32 := (n * (slit 1 (-2) / v))%sc.
Lemma over_near : forall d (n v : f32) c o, 0 <= d <= / 64 -> ab (0.79 * d + 4.53 * U) v (Rabs c) -> 0.48 <= Rabs c <= 1 -> 0.469 <= val v ->
  c * c + o * o <= 1 -> ab (2 * d + 2.04 * U) n (4 * (Rabs c * o)) -> ab (2.6 * d + 12 * U) (over n v) o.
Proof.
  intros d n v c o Hd [Fv Hv] Hc Lv Ho [Fn Hn]. set (a := Rabs c) in *.
  assert (Ea : a * a = c * c) by (unfold a; rewrite <- Rabs_mult; apply Rabs_right, Rle_ge, Rle_0_sqr). rewrite <- Ea in Ho.
  clearbody a. apply Rabs_le_inv in Hv, Hn.
  assert (Lo : -0.878 <= o <= 0.878) by nra.
  destruct (lit_exact 1 (-2) ltac:(lia) ltac:(lia)) as [Fq Vq]. replace (IZR 1 * bpow radix2 (-2)) with (/ 4) in Vq by (cbn; lra).
  set (q := slit 1 (-2) : f32) in *.
  assert (Iv : 0 < / val v <= 2.1322) by (split; [apply Rinv_0_lt_compat; lra|apply Rmult_le_reg_r with (val v); [lra|]; rewrite Rinv_l by lra; lra]).
  destruct (div_small q v Fq Fv ltac:(lra)) as [Fk Vk].
  { apply small_le with 1; [|lra]. rewrite Vq. unfold Rdiv. apply Rabs_le. lra. }
  set (k := (q / v)%sc) in *. rewrite Vq in Vk. unfold Rdiv in Vk.
  pose proof (rnd_abs (/ 4 * / val v)) as Rk. rewrite (Rabs_pos_eq (/ 4 * / val v)) in Rk by lra. rewrite <- Vk in Rk. apply Rabs_le_inv in Rk.
  assert (Bao : -0.5 <= a * o <= 0.5) by (pose proof (Rle_0_sqr (a - o)); pose proof (Rle_0_sqr (a + o)); unfold Rsqr in *; lra).
  assert (Bn : Rabs (val n) <= 2.04) by (apply Rabs_le; lra).
  assert (M : Rabs (val n * (/ 4 * / val v) - o) <= 2.5485 * d + 9.6 * U).
  { replace (val n * (/ 4 * / val v) - o) with (((val n - 4 * (a * o)) * / 4 + o * (a - val v)) * / val v) by (field; lra).
    rewrite Rabs_mult, (Rabs_pos_eq (/ val v)) by lra.
    apply Rle_trans with (((2 * d + 2.04 * U) / 4 + 0.878 * (0.79 * d + 4.53 * U)) * 2.1322); [|lra].
    apply Rmult_le_compat; [apply Rabs_pos|lra| |lra].
    pose proof (Rabs_triang ((val n - 4 * (a * o)) * / 4) (o * (a - val v))) as T.
    assert (Rabs ((val n - 4 * (a * o)) * / 4) <= (2 * d + 2.04 * U) / 4) by (apply Rabs_le; lra).
    assert (Rabs (o * (a - val v)) <= 0.878 * (0.79 * d + 4.53 * U)).
    { rewrite Rabs_mult. apply Rmult_le_compat; try apply Rabs_pos; apply Rabs_le; lra. }
    lra. }
  assert (K : Rabs (val n * val k - val n * (/ 4 * / val v)) <= 1.1 * U).
  { replace (val n * val k - val n * (/ 4 * / val v)) with (val n * (val k - / 4 * / val v)) by ring. rewrite Rabs_mult.
    apply Rle_trans with (2.04 * (U * 0.5332)); [|lra]. apply Rmult_le_compat; try apply Rabs_pos; [exact Bn|apply Rabs_le; lra]. }
  assert (P : Rabs (val n * val k) <= 0.93).
  { apply Rabs_le_inv in M, K. apply Rabs_le. lra. }
  destruct (mul_small n k Fn Fk ltac:(apply small_le with 1; lra)) as [F V]. change (n * k)%sc with (over n v) in F, V.
  pose proof (rnd_abs (val n * val k)) as Rm. rewrite <- V in Rm. split; [exact F|].
  apply Rabs_le_inv in M, K, Rm. apply Rabs_le. lra.
Qed.

(** ** From a matrix *)
Lemma three : forall d (a b c : f32) A B C, 0 <= d <= / 64 -> ab d a A -> ab d b B -> ab d c C -> -1 <= A <= 1 -> -1 <= B <= 1 -> -1 <= C <= 1 ->
  ab (3 * d + 5.2 * U) (a - b - c)%sc (A - B - C) /\ ab (3 * d + 5.2 * U) (a + b + c)%sc (A + B + C).
Proof.
  intros d a b c A B C Hd Ha Hb Hc BA BB BC. split.
  - eapply ab_weak; [eapply (ab_sub _ _ 3); [eapply (ab_sub _ _ 2); [exact Ha|exact Hb|apply Rabs_le; lra|lra]|exact Hc|apply Rabs_le; lra|lra]|lra].
  - eapply ab_weak; [eapply (ab_add _ _ 3); [eapply (ab_add _ _ 2); [exact Ha|exact Hb|apply Rabs_le; lra|lra]|exact Hc|apply Rabs_le; lra|lra]|lra].
Qed.
Lemma two : forall d (a b : f32) A B, 0 <= d <= / 64 -> ab d a A -> ab d b B -> -1 <= A <= 1 -> -1 <= B <= 1 ->
  ab (2 * d + 2.04 * U) (a - b)%sc (A - B) /\ ab (2 * d + 2.04 * U) (a + b)%sc (A + B).
Proof.
  intros d a b A B Hd Ha Hb BA BB.
  split; (eapply ab_weak; [first [eapply (ab_sub _ _ 2) | eapply (ab_add _ _ 2)]; [exact Ha|exact Hb|apply Rabs_le; lra|lra]|lra]).
Qed.
Lemma four_near : forall e (q : vec4 f32) u, 0 <= e -> unitQ u -> ab e (vx q) (vx u) -> ab e (vy q) (vy u) -> ab e (vz q) (vz u) -> ab e (vw q) (vw u) -> nearU (2 * e) q u.
Proof.
  intros e q u He Hu [Fx Hx] [Fy Hy] [Fz Hz] [Fw Hw]. split; [|split; [exact Hu|]].
  - unfold allFin, l4. repeat (apply Forall_cons; [assumption|]). apply Forall_nil.
  - apply lanes_dist; assumption.
Qed.
(** the entries of a rotation *)
Lemma entries : forall d m u, nearRot d m u -> unitQ u /\
  ab d (vx (c0 m)) (1 - 2 * (vy u * vy u + vz u * vz u)) /\ ab d (vy (c0 m)) (2 * (vx u * vy u + vw u * vz u)) /\ ab d (vz (c0 m)) (2 * (vx u * vz u - vw u * vy u)) /\
  ab d (vx (c1 m)) (2 * (vx u * vy u - vw u * vz u)) /\ ab d (vy (c1 m)) (1 - 2 * (vx u * vx u + vz u * vz u)) /\ ab d (vz (c1 m)) (2 * (vy u * vz u + vw u * vx u)) /\
  ab d (vx (c2 m)) (2 * (vx u * vz u + vw u * vy u)) /\ ab d (vy (c2 m)) (2 * (vy u * vz u - vw u * vx u)) /\ ab d (vz (c2 m)) (1 - 2 * (vx u * vx u + vy u * vy u)).
Proof.
  intros d m u [Hu H]. split; [exact Hu|]. unfold colsOf43, turnedAxes in H.
  inversion H as [|? ? ? ? A0 H1]; subst. inversion H1 as [|? ? ? ? A1 H2]; subst. inversion H2 as [|? ? ? ? A2 _]; subst. clear H H1 H2.
  unfold l43 in *. unfold unitQ, norm2 in Hu. destruct u as [X Y Z W]. cbn [vx vy vz vw] in Hu |- *.
  inversion A0 as [|? ? ? ? P1 A0']; subst. inversion A0' as [|? ? ? ? P2 A0'']; subst. inversion A0'' as [|? ? ? ? P3 _]; subst.
  inversion A1 as [|? ? ? ? P4 A1']; subst. inversion A1' as [|? ? ? ? P5 A1'']; subst. inversion A1'' as [|? ? ? ? P6 _]; subst.
  inversion A2 as [|? ? ? ? P7 A2']; subst. inversion A2' as [|? ? ? ? P8 A2'']; subst. inversion A2'' as [|? ? ? ? P9 _]; subst.
  unfold turned, ham, axisX, axisY, axisZ in *. cbn [vx vy vz vw] in *.
  assert (R : forall x r s, fin x /\ Rabs (val x - r) <= d -> r = s -> ab d x s) by (intros ? ? ? K <-; exact K).
  split; [|split; [|split; [|split; [|split; [|split; [|split; [|split]]]]]]];
    (eapply R; [eassumption|]; lra).
Qed.
Theorem extract_near : forall d m u, 0 <= d <= / 64 -> nearRot d m u ->
  nearU (5.2 * d + 24 / 16777216) (extractQuat m) u \/ nearU (5.2 * d + 24 / 16777216) (extractQuat m) (negQ u).
Proof.
  intros d m u Hd N. destruct (entries d m u N) as (Hu & P0 & P1 & P2 & P3 & P4 & P5 & P6 & P7 & P8).
  assert (Hn : unitQ (negQ u)) by (unfold unitQ, norm2, negQ in *; cbn [vx vy vz vw]; lra).
  assert (E : extractQuat m = let b := pick (vx (c0 m) + vy (c1 m) + vz (c2 m))%sc (vx (c0 m) - vy (c1 m) - vz (c2 m))%sc
    (vy (c1 m) - vx (c0 m) - vz (c2 m))%sc (vz (c2 m) - vx (c0 m) - vy (c1 m))%sc in let v := root (snd b) in
    if (fst b =? 0)%Z then V4 (over (vz (c1 m) - vy (c2 m))%sc v) (over (vx (c2 m) - vz (c0 m))%sc v) (over (vy (c0 m) - vx (c1 m))%sc v) v
    else if (fst b =? 1)%Z then V4 v (over (vy (c0 m) + vx (c1 m))%sc v) (over (vx (c2 m) + vz (c0 m))%sc v) (over (vz (c1 m) - vy (c2 m))%sc v)
    else if (fst b =? 2)%Z then V4 (over (vy (c0 m) + vx (c1 m))%sc v) v (over (vz (c1 m) + vy (c2 m))%sc v) (over (vx (c2 m) - vz (c0 m))%sc v)
    else V4 (over (vx (c2 m) + vz (c0 m))%sc v) (over (vz (c1 m) + vy (c2 m))%sc v) v (over (vy (c0 m) - vx (c1 m))%sc v)) by reflexivity.
  rewrite E. clear E N.
  set (a := vx (c0 m)) in *. set (b := vy (c1 m)) in *. set (c := vz (c2 m)) in *.
  set (m01 := vy (c0 m)) in *. set (m02 := vz (c0 m)) in *. set (m10 := vx (c1 m)) in *. set (m12 := vz (c1 m)) in *. set (m20 := vx (c2 m)) in *. set (m21 := vy (c2 m)) in *.
  clearbody a b c m01 m02 m10 m12 m20 m21.
  destruct u as [x y z w]. unfold negQ in *. unfold unitQ, norm2 in Hu. cbn [vx vy vz vw] in *.
  pose proof (Rle_0_sqr x) as Sx. pose proof (Rle_0_sqr y) as Sy. pose proof (Rle_0_sqr z) as Sz. pose proof (Rle_0_sqr w) as Sw. unfold Rsqr in Sx, Sy, Sz, Sw.
  assert (B2 : forall p q, 2 * (p * q) <= p * p + q * q /\ - (p * p + q * q) <= 2 * (p * q))
    by (intros p q; pose proof (Rle_0_sqr (p - q)); pose proof (Rle_0_sqr (p + q)); unfold Rsqr in *; split; lra).
  pose proof (B2 x y) as Bxy. pose proof (B2 x z) as Bxz. pose proof (B2 y z) as Byz. pose proof (B2 w x) as Bwx. pose proof (B2 w y) as Bwy. pose proof (B2 w z) as Bwz.
  destruct (three d a b c _ _ _ Hd P0 P4 P8 ltac:(lra) ltac:(lra) ltac:(lra)) as [Cx Cw].
  destruct (three d b a c _ _ _ Hd P4 P0 P8 ltac:(lra) ltac:(lra) ltac:(lra)) as [Cy _].
  destruct (three d c a b _ _ _ Hd P8 P0 P4 ltac:(lra) ltac:(lra) ltac:(lra)) as [Cz _].
  destruct (two d m01 m10 _ _ Hd P1 P3 ltac:(lra) ltac:(lra)) as [S01 A01].
  destruct (two d m20 m02 _ _ Hd P6 P2 ltac:(lra) ltac:(lra)) as [S02 A02].
  destruct (two d m12 m21 _ _ Hd P5 P7 ltac:(lra) ltac:(lra)) as [S12 A12].
  clear P0 P1 P2 P3 P4 P5 P6 P7 P8 Bxy Bxz Byz Bwx Bwy Bwz.
  assert (R : forall e t r s, ab e t r -> r = s -> ab e t s) by (intros ? ? ? ? K <-; exact K).
  apply R with (s := 4 * (x * x) - 1) in Cx; [|lra]. apply R with (s := 4 * (y * y) - 1) in Cy; [|lra].
  apply R with (s := 4 * (z * z) - 1) in Cz; [|lra]. apply R with (s := 4 * (w * w) - 1) in Cw; [|lra].
  apply R with (s := 4 * (w * z)) in S01; [|ring]. apply R with (s := 4 * (x * y)) in A01; [|ring].
  apply R with (s := 4 * (w * y)) in S02; [|ring]. apply R with (s := 4 * (x * z)) in A02; [|ring].
  apply R with (s := 4 * (w * x)) in S12; [|ring]. apply R with (s := 4 * (y * z)) in A12; [|ring].
  replace (5.2 * d + 24 / 16777216) with (2 * (2.6 * d + 12 * U)) by lra.
  assert (L : forall g n s o k, ab (3 * d + 5.2 * U) s (4 * (g * g) - 1) -> - (3 / 2) * (3 * d + 5.2 * U) <= 4 * (g * g) - 1 ->
    g * g + o * o <= 1 -> ab (2 * d + 2.04 * U) n k -> k = 4 * (g * o) ->
    (0 <= g -> ab (2.6 * d + 12 * U) (over n (root s)) o) /\ (g <= 0 -> ab (2.6 * d + 12 * U) (over n (root s)) (- o))).
  { intros g n s o k C1 C2 GO AN ->. pose proof (Rle_0_sqr o) as So. unfold Rsqr in So. destruct (root_near d s g Hd C1 ltac:(lra) C2) as (V & G & LV).
    split; intros Sg.
    - apply over_near with g; try assumption. rewrite Rabs_pos_eq by exact Sg. exact AN.
    - apply over_near with g; try assumption; [lra|]. rewrite Rabs_left1 by exact Sg. replace (4 * (- g * - o)) with (4 * (g * o)) by ring. exact AN. }
  assert (V : forall g s, ab (3 * d + 5.2 * U) s (4 * (g * g) - 1) -> - (3 / 2) * (3 * d + 5.2 * U) <= 4 * (g * g) - 1 -> g * g <= 1 ->
    (0 <= g -> ab (2.6 * d + 12 * U) (root s) g) /\ (g <= 0 -> ab (2.6 * d + 12 * U) (root s) (- g))).
  { intros g s C1 C2 G1. destruct (root_near d s g Hd C1 G1 C2) as (V & _ & _).
    split; intros Sg; [rewrite Rabs_pos_eq in V by exact Sg|rewrite Rabs_left1 in V by exact Sg]; (eapply ab_weak; [exact V|lra]). }
  destruct (pick_max (3 * d + 5.2 * U) _ _ _ _ _ _ _ _ ltac:(lra) Cw Cx Cy Cz ltac:(lra)) as [[-> LB] | [[-> LB] | [[-> LB] | [-> LB]]]];
    cbv zeta; cbn [fst snd Z.eqb Pos.eqb].
  - destruct (V w _ Cw LB ltac:(lra)) as [V1 V2].
    destruct (L w _ _ x _ Cw LB ltac:(lra) S12 ltac:(ring)) as [X1 X2]. destruct (L w _ _ y _ Cw LB ltac:(lra) S02 ltac:(ring)) as [Y1 Y2].
    destruct (L w _ _ z _ Cw LB ltac:(lra) S01 ltac:(ring)) as [Z1 Z2].
    destruct (Rle_dec 0 w) as [S|S]; [left|right]; apply four_near; cbn [vx vy vz vw]; try assumption; try lra; first [apply X1 | apply Y1 | apply Z1 | apply V1 | apply X2 | apply Y2 | apply Z2 | apply V2]; lra.
  - destruct (V x _ Cx LB ltac:(lra)) as [V1 V2].
    destruct (L x _ _ w _ Cx LB ltac:(lra) S12 ltac:(ring)) as [X1 X2]. destruct (L x _ _ y _ Cx LB ltac:(lra) A01 ltac:(ring)) as [Y1 Y2].
    destruct (L x _ _ z _ Cx LB ltac:(lra) A02 ltac:(ring)) as [Z1 Z2].
    destruct (Rle_dec 0 x) as [S|S]; [left|right]; apply four_near; cbn [vx vy vz vw]; try assumption; try lra; first [apply X1 | apply Y1 | apply Z1 | apply V1 | apply X2 | apply Y2 | apply Z2 | apply V2]; lra.
  - destruct (V y _ Cy LB ltac:(lra)) as [V1 V2].
    destruct (L y _ _ x _ Cy LB ltac:(lra) A01 ltac:(ring)) as [X1 X2]. destruct (L y _ _ z _ Cy LB ltac:(lra) A12 ltac:(ring)) as [Y1 Y2].
    destruct (L y _ _ w _ Cy LB ltac:(lra) S02 ltac:(ring)) as [Z1 Z2].
    destruct (Rle_dec 0 y) as [S|S]; [left|right]; apply four_near; cbn [vx vy vz vw]; try assumption; try lra; first [apply X1 | apply Y1 | apply Z1 | apply V1 | apply X2 | apply Y2 | apply Z2 | apply V2]; lra.
  - destruct (V z _ Cz LB ltac:(lra)) as [V1 V2].
    destruct (L z _ _ x _ Cz LB ltac:(lra) A02 ltac:(ring)) as [X1 X2]. destruct (L z _ _ y _ Cz LB ltac:(lra) A12 ltac:(ring)) as [Y1 Y2].
    destruct (L z _ _ w _ Cz LB ltac:(lra) S01 ltac:(ring)) as [Z1 Z2].
    destruct (Rle_dec 0 z) as [S|S]; [left|right]; apply four_near; cbn [vx vy vz vw]; try assumption; try lra; first [apply X1 | apply Y1 | apply Z1 | apply V1 | apply X2 | apply Y2 | apply Z2 | apply V2]; lra.
Qed.

(** ** To a matrix *)
Lemma prod_ab : forall (a b : f32) M, fin a -> fin b -> Rabs (val a * val b) <= M -> M <= 10 -> ab (U * M + / 10 ^ 12) (a * b)%sc (val a * val b).
Proof.
  intros a b M Fa Fb H L. destruct (mul_small a b Fa Fb ltac:(apply small_le with 10; lra)) as [F V].
  split; [exact F|]. rewrite V. pose proof (rnd_abs (val a * val b)). lra.
Qed.
Lemma twice_ab : forall d (s : f32) S, ab d s S -> 0 <= d <= 1 -> Rabs S <= 1.04 -> ab (2 * d + 2.09 * U + 2 * U * d) (f2 * s)%sc (2 * S).
Proof.
  intros d s S [Fs Hs] Hd HS. destruct (lit_Z 2 ltac:(lia)) as [Ft Vt]. apply Rabs_le_inv in Hs, HS.
  destruct (mul_small f2 s Ft Fs) as [F V]; [apply small_le with 10; [|lra]; unfold f2; rewrite Vt; apply Rabs_le; lra|].
  unfold f2 in V at 2. rewrite Vt in V. pose proof (rnd_abs (2 * val s)) as R. rewrite <- V in R.
  assert (Rabs (2 * val s) <= 2.08 + 2 * d) by (apply Rabs_le; lra). split; [exact F|]. apply Rabs_le_inv in R. apply Rabs_le. lra.
Qed.
Lemma pair_ab : forall a b c e : f32, fin a -> fin b -> fin c -> fin e -> Rabs (val a * val b) + Rabs (val c * val e) <= 1.04 ->
  ab (6.27 * U) (f2 * (a * b + c * e))%sc (2 * (val a * val b + val c * val e)) /\
  ab (6.27 * U) (f2 * (a * b - c * e))%sc (2 * (val a * val b - val c * val e)).
Proof.
  intros a b c e Fa Fb Fc Fe H. pose proof (Rabs_pos (val a * val b)). pose proof (Rabs_pos (val c * val e)).
  pose proof (prod_ab a b _ Fa Fb (Rle_refl _) ltac:(lra)) as P. pose proof (prod_ab c e _ Fc Fe (Rle_refl _) ltac:(lra)) as Q.
  pose proof (Rabs_triang (val a * val b) (val c * val e)) as T. pose proof (Rabs_triang (val a * val b) (- (val c * val e))) as T'. rewrite Rabs_Ropp in T'. change (val a * val b + - (val c * val e)) with (val a * val b - val c * val e) in T'.
  split.
  - eapply ab_weak; [apply (twice_ab (2.085 * U)); [|lra|lra]|lra]. eapply ab_weak; [eapply (ab_add _ _ 1.04); [exact P|exact Q|lra|lra]|lra].
  - eapply ab_weak; [apply (twice_ab (2.085 * U)); [|lra|lra]|lra]. eapply ab_weak; [eapply (ab_sub _ _ 1.04); [exact P|exact Q|lra|lra]|lra].
Qed.
Lemma ab_off : forall d e x V X, ab d x V -> Rabs (V - X) <= e -> ab (d + e) x X.
Proof. intros d e x V X [F H] K. split; [exact F|]. replace (val x - X) with ((val x - V) + (V - X)) by ring. pose proof (Rabs_triang (val x - V) (V - X)). lra. Qed.
(** distances of products of components *)
Lemma sumQ_len : forall a u d, unitQ u -> distQ a u <= d -> lenQ (addQ a u) <= 2 + d /\ lenQ a <= 1 + d.
Proof.
  intros a u d Hu H. pose proof (lenQ_near a u) as A. rewrite (unit_len u Hu) in A. pose proof (lenQ_triangle a u) as B. rewrite (unit_len u Hu) in B. lra.
Qed.
Lemma moved : forall a u d, unitQ u -> 0 <= d <= / 64 -> distQ a u <= d ->
  let D := fun f => f a - f u in let S := fun f => f a + f u in
  Rabs (D vx * S vx) + Rabs (D vy * S vy) + Rabs (D vz * S vz) + Rabs (D vw * S vw) <= 2.016 * d /\
  Rabs (D vx * S vy) + Rabs (D vy * S vx) + Rabs (D vz * S vw) + Rabs (D vw * S vz) <= 2.016 * d /\
  Rabs (D vx * S vz) + Rabs (D vy * S vw) + Rabs (D vz * S vx) + Rabs (D vw * S vy) <= 2.016 * d /\
  Rabs (D vx * S vw) + Rabs (D vy * S vz) + Rabs (D vz * S vy) + Rabs (D vw * S vx) <= 2.016 * d.
Proof.
  intros a u d Hu Hd H D S. destruct (sumQ_len a u d Hu H) as [L _]. pose proof (lenQ_nn (subQ a u)) as N1. pose proof (lenQ_nn (addQ a u)) as N2.
  pose proof (lenQ_sq (subQ a u)) as Q1. pose proof (lenQ_sq (addQ a u)) as Q2. fold (distQ a u) in *. unfold norm2, subQ, addQ in Q1, Q2. cbn [vx vy vz vw] in Q1, Q2.
  fold (subQ a u) in Q1. fold (addQ a u) in Q2.
  assert (B : distQ a u * lenQ (addQ a u) <= 2.016 * d).
  { apply Rle_trans with (d * (2 + d)); [apply Rmult_le_compat; lra|nra]. }
  change (vx a - vx u) with (D vx) in Q1. change (vy a - vy u) with (D vy) in Q1. change (vz a - vz u) with (D vz) in Q1. change (vw a - vw u) with (D vw) in Q1.
  change (vx a + vx u) with (S vx) in Q2. change (vy a + vy u) with (S vy) in Q2. change (vz a + vz u) with (S vz) in Q2. change (vw a + vw u) with (S vw) in Q2.
  clearbody D S.
  assert (C : forall p q r s, p * p + q * q + r * r + s * s = lenQ (addQ a u) * lenQ (addQ a u) ->
    Rabs (D vx * p) + Rabs (D vy * q) + Rabs (D vz * r) + Rabs (D vw * s) <= 2.016 * d).
  { intros p q r s E. pose proof (cauchy4abs (D vx) (D vy) (D vz) (D vw) p q r s _ _ N1 N2 (eq_sym Q1) E). fold (distQ a u) in *. lra. }
  split; [|split; [|split]]; apply C; rewrite Q2; unfold addQ, norm2; ring.
Qed.
Theorem rotate_near : forall d q u, 0 <= d <= / 64 -> nearU d q u -> nearRot (4.04 * d + 7.5 / 16777216) (rotate q) u /\ pureRot (rotate q).
Proof.
  intros d q u Hd (F & Hu & HD). split; [|unfold pureRot, rotate; cbn [c0 c1 c2 c3 vw]; auto].
  destruct (moved (valQ q) u d Hu Hd HD) as (M0 & M1 & M2 & M3). destruct (sumQ_len (valQ q) u d Hu HD) as [_ LQ].
  pose proof (lenQ_sq (valQ q)) as SQ. pose proof (lenQ_nn (valQ q)) as NQ. assert (N2 : norm2 (valQ q) <= 1.04) by (rewrite <- SQ; pose proof (Rmult_le_compat _ _ _ _ NQ NQ (Rle_trans _ _ (1 + / 64) LQ ltac:(lra)) (Rle_trans _ _ (1 + / 64) LQ ltac:(lra))); lra). clear LQ SQ NQ HD.
  split; [exact Hu|]. destruct q as [x y z w]. unfold allFin, l4 in F. cbn [vx vy vz vw] in F.
  inversion F as [|? ? Fx F1]; subst. inversion F1 as [|? ? Fy F2]; subst. inversion F2 as [|? ? Fz F3]; subst. inversion F3 as [|? ? Fw _]; subst. clear F F1 F2 F3.
  destruct u as [X Y Z W]. unfold valQ, norm2 in *. unfold unitQ, norm2 in Hu. cbn [vx vy vz vw] in *.
  set (a := val x) in *. set (b := val y) in *. set (c := val z) in *. set (e := val w) in *.
  pose proof (Rle_0_sqr a) as Sa. pose proof (Rle_0_sqr b) as Sb. pose proof (Rle_0_sqr c) as Sc. pose proof (Rle_0_sqr e) as Se. unfold Rsqr in Sa, Sb, Sc, Se.
  assert (AB : forall p q, Rabs (p * q) <= (p * p + q * q) / 2).
  { intros p q. pose proof (Rle_0_sqr (p - q)); pose proof (Rle_0_sqr (p + q)); unfold Rsqr in *; apply Rabs_le; lra. }
  pose proof (AB a b) as Bab. pose proof (AB a c) as Bac. pose proof (AB b c) as Bbc. pose proof (AB e a) as Bea. pose proof (AB e b) as Beb. pose proof (AB e c) as Bec.
  assert (SQ : forall p, 0 <= p * p -> Rabs (p * p) = p * p) by (intros; apply Rabs_pos_eq; assumption).
  destruct (pair_ab y y z z Fy Fy Fz Fz) as [D1 _]; [fold a b c e; rewrite !SQ by assumption; lra|].
  destruct (pair_ab x x z z Fx Fx Fz Fz) as [D2 _]; [fold a b c e; rewrite !SQ by assumption; lra|].
  destruct (pair_ab x x y y Fx Fx Fy Fy) as [D3 _]; [fold a b c e; rewrite !SQ by assumption; lra|].
  destruct (pair_ab x y w z Fx Fy Fw Fz) as [P1 Q1]; [fold a b c e; lra|].
  destruct (pair_ab x z w y Fx Fz Fw Fy) as [P2 Q2]; [fold a b c e; lra|].
  destruct (pair_ab y z w x Fy Fz Fw Fx) as [P3 Q3]; [fold a b c e; lra|].
  fold a b c e in D1, D2, D3, P1, Q1, P2, Q2, P3, Q3.
  destruct (lit_Z 1 ltac:(lia)) as [Fo Vo]. pose proof (ab_eq f1 1 Fo Vo) as One.
  assert (O : forall t T, ab (6.27 * U) t T -> 0 <= T <= 2.08 -> ab (7.5 * U) (f1 - t)%sc (1 - T)).
  { intros t T H B. eapply ab_weak; [eapply (ab_sub _ _ 1.08); [exact One|exact H|apply Rabs_le; lra|lra]|lra]. }
  apply O in D1; [|lra]. apply O in D2; [|lra]. apply O in D3; [|lra].
  assert (G : forall k t V T, ab k t V -> k <= 7.5 * U -> Rabs (V - T) <= 4.04 * d -> fin t /\ Rabs (val t - T) <= 4.04 * d + 7.5 / 16777216).
  { intros k t V T H K L. pose proof (ab_off _ _ _ _ _ H L) as [A B]. split; [exact A|]. lra. }
  assert (AI : forall r s, Rabs r <= s -> - s <= r <= s) by (intros; apply Rabs_le_inv; assumption).
  pose proof (fun r => AI r _ (Rle_refl (Rabs r))) as AJ.
  unfold colsOf43, turnedAxes, l43, rotate, turned, ham, axisX, axisY, axisZ. cbn [c0 c1 c2 vx vy vz vw].
  pose proof (AJ ((a - X) * (a + X))). pose proof (AJ ((b - Y) * (b + Y))). pose proof (AJ ((c - Z) * (c + Z))). pose proof (AJ ((e - W) * (e + W))).
  pose proof (AJ ((a - X) * (b + Y))). pose proof (AJ ((b - Y) * (a + X))). pose proof (AJ ((c - Z) * (e + W))). pose proof (AJ ((e - W) * (c + Z))).
  pose proof (AJ ((a - X) * (c + Z))). pose proof (AJ ((b - Y) * (e + W))). pose proof (AJ ((c - Z) * (a + X))). pose proof (AJ ((e - W) * (b + Y))).
  pose proof (AJ ((a - X) * (e + W))). pose proof (AJ ((b - Y) * (c + Z))). pose proof (AJ ((c - Z) * (b + Y))). pose proof (AJ ((e - W) * (a + X))).
  repeat first [apply Forall2_cons | apply Forall2_nil].
  - eapply G; [exact D1|lra|apply Rabs_le; lra].
  - eapply G; [exact P1|lra|apply Rabs_le; lra].
  - eapply G; [exact Q2|lra|apply Rabs_le; lra].
  - eapply G; [exact Q1|lra|apply Rabs_le; lra].
  - eapply G; [exact D2|lra|apply Rabs_le; lra].
  - eapply G; [exact P3|lra|apply Rabs_le; lra].
  - eapply G; [exact P2|lra|apply Rabs_le; lra].
  - eapply G; [exact Q3|lra|apply Rabs_le; lra].
  - eapply G; [exact D3|lra|apply Rabs_le; lra].
Qed.
Theorem matrix_round_trip : forall d q u, 0 <= d <= / 300 -> nearU d q u ->
  nearU (21.1 * d + 63 / 16777216) (extractQuat (rotate q)) u \/ nearU (21.1 * d + 63 / 16777216) (extractQuat (rotate q)) (negQ u).
Proof.
  intros d q u Hd N. destruct (rotate_near d q u ltac:(lra) N) as [R _].
  assert (W : forall q v, nearU (5.2 * (4.04 * d + 7.5 / 16777216) + 24 / 16777216) q v -> nearU (21.1 * d + 63 / 16777216) q v) by
    (intros q' v (A & B & C); split; [exact A|split; [exact B|lra]]).
  destruct (extract_near (4.04 * d + 7.5 / 16777216) _ _ ltac:(lra) R) as [K|K]; [left|right]; exact (W _ _ K).
Qed.
Lemma turned_neg : forall u v, turned (negQ u) v = turned u v.
Proof. intros [X Y Z W] [a b c e]. unfold turned, ham, negQ. cbn [vx vy vz vw]. f_equal; ring. Qed.
Lemma zero_plus : forall x : f32, fin x -> fin (f0 + x)%sc /\ val (f0 + x)%sc = val x.
Proof.
  intros x F. destruct (lit_Z 0 ltac:(lia)) as [F0 V0].
  assert (S : rnd (val (f0 : f32) + val x) = val x) by (unfold f0; rewrite V0, Rplus_0_l; apply rnd_val).
  assert (B : Rabs (rnd (val (f0 : f32) + val x)) < maxF) by (rewrite S; apply (abs_B2R_lt_emax 24 128)).
  destruct (add_fin f0 x F0 F) as [N E]. rewrite RX_normal in E by (apply Rlt_bool_true; exact B). rewrite S in E.
  assert (G : fin (f0 + x)%sc) by (apply ext_fin; [exact N|]; rewrite E, <- S; apply Rabs_def2 in B; lra).
  split; [exact G|]. rewrite fin_ext in E by exact G. exact E.
Qed.
(** position and rotation of a model matrix without scaling *)
Lemma one_eq : seq (f1 : f32) f1 = true.
Proof. vm_compute. reflexivity. Qed.
Theorem model_round_trip : forall p (pos q : vec4 f32), allFin (l43 pos) -> moderate (l4 q) ->
  let r := extractTransform2 (calcModel p pos q (V4 f1 f1 f1 f1)) in
  allFin (l43 (fst r)) /\ map (fun x : f32 => val x) (l43 (fst r)) = map (fun x : f32 => val x) (l43 pos) /\
  (nearU (173 / 16777216) (snd r) (unitized (valQ q)) \/ nearU (173 / 16777216) (snd r) (negQ (unitized (valQ q)))).
Proof.
  intros p pos q Fp Mq. unfold calcModel, allEq, dup4. cbn [vx vy vz vw]. rewrite one_eq. cbn [andb].
  pose proof (qnormalize_near p q Mq) as N.
  assert (W : forall a b r v, a <= b -> nearU a r v -> nearU b r v) by (intros a b r v L (A & B & C); split; [exact A|split; [exact B|lra]]).
  unfold allFin, l43 in Fp. inversion Fp as [|? ? Fx F1]; subst. inversion F1 as [|? ? Fy F2]; subst. inversion F2 as [|? ? Fz _]; subst.
  unfold extractTransform2, getTranslation, translateOf. cbn [fst snd c3 rotate vadd withW l43 vx vy vz vw map].
  unfold withW, vadd, map2_4, l43. cbn [vx vy vz vw map]. destruct (zero_plus _ Fx) as [Gx ->]. destruct (zero_plus _ Fy) as [Gy ->]. destruct (zero_plus _ Fz) as [Gz ->].
  split; [unfold allFin; repeat (apply Forall_cons; [assumption|]); apply Forall_nil|]. split; [reflexivity|].
  change (extractQuat (extractRotationOnly _)) with (extractQuat (rotate (qnormalize p q))).
  destruct (matrix_round_trip (5.2 / 16777216) _ _ ltac:(lra) N) as [K|K]; [left|right]; (eapply W; [|exact K]; lra).
Qed.
