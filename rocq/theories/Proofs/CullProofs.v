(** C127: frustum culling in binary32. *)
From Coq Require Import ZArith Bool List Reals Lra Lia Psatz.
From Flocq Require Import Core.Core IEEE754.BinarySingleNaN IEEE754.Binary IEEE754.Bits.
From Flocq Require Plus_error Relative.
From Verif.Model Require Import Scalar Vec Simd Aabb Matrix Geometry.
From Verif.Spec Require Import CullSpec.
From Verif.Proofs Require Import OrdScalar F32Round F32Err NormProofs MatErrProofs Frustum GeometryProofs.
Import ListNotations.
Local Open Scope R_scope.
Notation U := (/ 16777216) (only parsing).

(** [pl] is the real plane [P] scaled by [l], and [v] the real point [V] with magnitudes [W], up to
    [k], [j] rounding errors and [e], [f] underflows *)
Definition nearC (k e x X : R) : Prop := Rabs (x - X) <= k * U * Rabs X + e.
Definition nearW (j f x X W : R) : Prop := Rabs X <= W /\ Rabs (x - X) <= j * U * W + f.

Lemma prod_near : forall k e j f n N v V W, 0 <= k <= 20 -> 0 <= j <= 20 -> 0 <= e -> 0 <= f ->
  nearC k e n N -> nearW j f v V W ->
  Rabs (n * v - N * V) <= (k + j + 0.001) * U * (Rabs N * W) + 1.001 * (f * Rabs N + e * W) + e * f /\
  Rabs (n * v) <= (1 + (k + j + 0.001) * U) * (Rabs N * W) + 1.001 * (f * Rabs N + e * W) + e * f.
Proof.
  intros k e j f n N v V W Hk Hj He Hf Hn [HV Hv]. unfold nearC in Hn.
  set (al := n - N) in *. set (be := v - V) in *.
  assert (A : n * v - N * V = N * be + al * V + al * be) by (unfold al, be; ring).
  pose proof (Rabs_pos N) as PN. pose proof (Rabs_pos V) as PV. pose proof (Rabs_pos al). pose proof (Rabs_pos be).
  assert (PW : 0 <= W) by lra.
  set (a := Rabs N) in *.
  assert (B1 : Rabs (N * be) <= a * (j * U * W + f)) by (rewrite Rabs_mult; apply Rmult_le_compat_l; assumption).
  assert (B2 : Rabs (al * V) <= (k * U * a + e) * W) by (rewrite Rabs_mult; apply Rmult_le_compat; assumption).
  assert (B3 : Rabs (al * be) <= (k * U * a + e) * (j * U * W + f)) by (rewrite Rabs_mult; apply Rmult_le_compat; assumption).
  assert (Pm : 0 <= a * W) by (apply Rmult_le_pos; lra).
  assert (Pf : 0 <= f * a) by (apply Rmult_le_pos; lra). assert (Pe : 0 <= e * W) by (apply Rmult_le_pos; lra).
  assert (K1 : k * j * U * (a * W) <= 400 * U * (a * W)) by (apply Rmult_le_compat_r; [exact Pm|nra]).
  assert (K2 : k * U * (f * a) <= 20 * U * (f * a)) by (apply Rmult_le_compat_r; [exact Pf|lra]).
  assert (K3 : j * U * (e * W) <= 20 * U * (e * W)) by (apply Rmult_le_compat_r; [exact Pe|lra]).
  assert (E3 : (k * U * a + e) * (j * U * W + f) = U * (k * j * U * (a * W)) + k * U * (f * a) + j * U * (e * W) + e * f) by ring.
  rewrite E3 in B3.
  assert (D : Rabs (n * v - N * V) <= (k + j + 0.001) * U * (a * W) + 1.001 * (f * a + e * W) + e * f).
  { rewrite A. pose proof (Rabs_triang (N * be + al * V) (al * be)). pose proof (Rabs_triang (N * be) (al * V)).
    replace ((k + j + 0.001) * U * (a * W)) with (k * U * (a * W) + j * U * (a * W) + 0.001 * U * (a * W)) by ring.
    replace (a * (j * U * W + f)) with (j * U * (a * W) + f * a) in B1 by ring.
    replace ((k * U * a + e) * W) with (k * U * (a * W) + e * W) in B2 by ring. lra. }
  split; [exact D|].
  assert (Rabs (N * V) <= a * W) by (rewrite Rabs_mult; apply Rmult_le_compat_l; assumption).
  replace (n * v) with (N * V + (n * v - N * V)) by ring. pose proof (Rabs_triang (N * V) (n * v - N * V)). lra.
Qed.

(** the plane equation in binary32 *)
Definition nearV4 (k e : R) (pl : vec4 f32) (P : vec4 R) : Prop :=
  nearC k e (val (vx pl)) (vx P) /\ nearC k e (val (vy pl)) (vy P) /\ nearC k e (val (vz pl)) (vz P) /\ nearC k e (val (vw pl)) (vw P).
Definition nearP (j f : R) (v : vec4 f32) (V W : vec4 R) : Prop :=
  nearW j f (val (vx v)) (vx V) (vx W) /\ nearW j f (val (vy v)) (vy V) (vy W) /\ nearW j f (val (vz v)) (vz V) (vz W).
(** the underflows *)
Definition under4 (e f : R) (P W : vec4 R) : R :=
  f * (Rabs (vx P) + Rabs (vy P) + Rabs (vz P)) + e * girth W + 3 * (e * f).

Lemma dist_near : forall p k e j f (pl v : vec4 f32) P V W, 0 <= k <= 20 -> 0 <= j <= 20 -> 0 <= e -> 0 <= f ->
  allFin (l4 pl) -> allFin (l43 v) -> nearV4 k e pl P -> nearP j f v V W ->
  reach P W + under4 e f P W <= limit / 2 ->
  fin (planeDistance p pl v) /\
  Rabs (val (planeDistance p pl v) - planeSide P V) <= (k + j + 4.03) * U * reach P W + 1.01 * under4 e f P W + 11.5 * eta0.
Proof.
  intros p k e j f [a b c d] [x y z w] [A B C D] [X Y Z W'] [Wx Wy Wz Ww] Hk Hj He Hf Fp Fv (NA & NB & NC & ND) (NX & NY & NZ) HL.
  unfold under4, reach, planeSide, girth in *. cbn [vx vy vz vw] in *.
  unfold l4, l43, allFin in *. rewrite ?Forall_cons_iff in *. cbn [vx vy vz vw] in *.
  destruct Fp as (Fa & Fb & Fc & Fd & _). destruct Fv as (Fx & Fy & Fz & _).
  destruct (prod_near k e j f _ _ _ _ _ Hk Hj He Hf NA NX) as [P1 Q1].
  destruct (prod_near k e j f _ _ _ _ _ Hk Hj He Hf NB NY) as [P2 Q2].
  destruct (prod_near k e j f _ _ _ _ _ Hk Hj He Hf NC NZ) as [P3 Q3].
  destruct NX as [GX _]. destruct NY as [GY _]. destruct NZ as [GZ _].
  pose proof (Rabs_pos A) as PA. pose proof (Rabs_pos B) as PB. pose proof (Rabs_pos C) as PC. pose proof (Rabs_pos D) as PD.
  pose proof (Rabs_pos X). pose proof (Rabs_pos Y). pose proof (Rabs_pos Z).
  assert (M1 : 0 <= Rabs A * Wx) by (apply Rmult_le_pos; lra). assert (M2 : 0 <= Rabs B * Wy) by (apply Rmult_le_pos; lra).
  assert (M3 : 0 <= Rabs C * Wz) by (apply Rmult_le_pos; lra).
  assert (T1 : 0 <= f * Rabs A) by (apply Rmult_le_pos; lra). assert (T2 : 0 <= f * Rabs B) by (apply Rmult_le_pos; lra).
  assert (T3 : 0 <= f * Rabs C) by (apply Rmult_le_pos; lra).
  assert (S1 : 0 <= e * Wx) by (apply Rmult_le_pos; lra). assert (S2 : 0 <= e * Wy) by (apply Rmult_le_pos; lra).
  assert (S3 : 0 <= e * Wz) by (apply Rmult_le_pos; lra). assert (S4 : 0 <= e * f) by (apply Rmult_le_pos; lra).
  set (m1 := Rabs A * Wx) in *. set (m2 := Rabs B * Wy) in *. set (m3 := Rabs C * Wz) in *.
  set (t1 := f * Rabs A) in *. set (t2 := f * Rabs B) in *. set (t3 := f * Rabs C) in *.
  set (s1 := e * Wx) in *. set (s2 := e * Wy) in *. set (s3 := e * Wz) in *. set (s4 := e * f) in *.
  replace (f * (Rabs A + Rabs B + Rabs C)) with (t1 + t2 + t3) in * by (unfold t1, t2, t3; ring).
  replace (e * (1 + Wx + Wy + Wz)) with (e + s1 + s2 + s3) in * by (unfold s1, s2, s3; ring).
  assert (KJ : forall m, 0 <= m -> 0 <= (k + j + 0.001) * U * m <= 41 * U * m).
  { intros m Hm. split; [apply Rmult_le_pos; [lra|exact Hm]|apply Rmult_le_compat_r; [exact Hm|lra]]. }
  pose proof (KJ m1 M1) as K1. pose proof (KJ m2 M2) as K2. pose proof (KJ m3 M3) as K3. clear KJ.
  rewrite Rmult_plus_distr_r, Rmult_1_l in Q1, Q2, Q3.
  unfold nearC in ND. assert (KD : 0 <= k * U * Rabs D <= 20 * U * Rabs D).
  { split; [apply Rmult_le_pos; lra|apply Rmult_le_compat_r; lra]. }
  assert (Dd : Rabs (val d) <= Rabs D + k * U * Rabs D + e).
  { replace (val d) with (D + (val d - D)) by ring. pose proof (Rabs_triang D (val d - D)). lra. }
  (* the inner product *)
  assert (IA : innerAbs (l43 (V4 a b c d : vec4 f32)) (l43 (V4 x y z w : vec4 f32)) = Rabs (val a * val x) + (Rabs (val b * val y) + (Rabs (val c * val z) + 0))) by reflexivity.
  assert (II : inner (l43 (V4 a b c d : vec4 f32)) (l43 (V4 x y z w : vec4 f32)) = val a * val x + (val b * val y + (val c * val z + 0))) by reflexivity.
  assert (FA : allFin (l43 (V4 a b c d : vec4 f32))) by (repeat (apply Forall_cons; [assumption|]); apply Forall_nil).
  assert (FV : allFin (l43 (V4 x y z w : vec4 f32))) by (repeat (apply Forall_cons; [assumption|]); apply Forall_nil).
  destruct (dot3_err p (V4 a b c d) (V4 x y z w) FA FV ltac:(rewrite IA; lra)) as [Fs Es].
  rewrite IA, II in Es. rewrite eta_val in Es.
  set (s := dot3 p (V4 a b c d) (V4 x y z w)) in *. unfold planeDistance. cbn [vw]. fold s.
  pose proof eta0_pos as EP. pose proof eta0_small as ES.
  pose proof (abs2 _ _ Es) as Es'. pose proof (abs2 _ _ P1) as P1'. pose proof (abs2 _ _ P2) as P2'. pose proof (abs2 _ _ P3) as P3'.
  pose proof (abs2 _ _ ND) as ND'.
  assert (As : Rabs (val s + val d) <= m1 + m2 + m3 + Rabs D + e + 0.001 * (m1 + m2 + m3 + Rabs D) + 1.1 * (t1 + t2 + t3 + s1 + s2 + s3) + 3.1 * s4 + 11 * eta0).
  { pose proof (abs2 _ _ Q1). pose proof (abs2 _ _ Q2). pose proof (abs2 _ _ Q3). pose proof (abs2 _ _ Dd). apply Rabs_le. lra. }
  destruct (add_small s d Fs Fd) as [Fr Er].
  { apply small_num. eapply Rle_trans; [exact As|]. lra. }
  split; [exact Fr|]. rewrite Er.
  pose proof (rnd_err (val s + val d)) as RE. rewrite u24_val in RE. pose proof (abs2 _ _ RE) as RE'.
  pose proof (Rabs_pos (val a * val x)). pose proof (Rabs_pos (val b * val y)). pose proof (Rabs_pos (val c * val z)).
  assert (EX : (k + j + 4.03) * U * (m1 + m2 + m3 + Rabs D) =
    (k + j + 0.001) * U * m1 + (k + j + 0.001) * U * m2 + (k + j + 0.001) * U * m3 + k * U * Rabs D + j * U * Rabs D + 4.029 * U * (m1 + m2 + m3) + 4.03 * U * Rabs D).
  { clear. clearbody m1 m2 m3. lra. }
  rewrite EX.
  assert (0 <= j * U * Rabs D) by (apply Rmult_le_pos; lra).
  apply Rabs_le. lra.
Qed.

(** corners *)
Lemma f1_fin : fin (f1 : f32) /\ val (f1 : f32) = 1.
Proof. exact (lit_Z 1 ltac:(lia)). Qed.
Lemma f0_val : fin (f0 : f32) /\ val (f0 : f32) = 0.
Proof. exact (lit_Z 0 ltac:(lia)). Qed.
Lemma real_corners : forall b : aabb f32, map realV (corners b) = corners (realBox b).
Proof.
  intros [[a b c d] [x y z w]]. unfold corners, realBox, realV, withW. cbn [map bmin bmax vx vy vz vw].
  rewrite (proj2 f1_fin), f1R. reflexivity.
Qed.
Lemma slt0 : forall x : f32, fin x -> (slt x f0 = true <-> val x < 0).
Proof.
  intros x F. destruct f0_val as [F0 V0]. rewrite (slt_ext x f0 (fin_num _ F) (fin_num _ F0)).
  rewrite !fin_ext, V0 by assumption. destruct (Rlt_bool_spec (val x) 0); intuition (try lra; discriminate).
Qed.
Lemma corner_far : forall (b : aabb f32) c, In c (corners b) ->
  Rabs (val (vx c)) <= vx (far (realBox b)) /\ Rabs (val (vy c)) <= vy (far (realBox b)) /\ Rabs (val (vz c)) <= vz (far (realBox b)) /\ vw c = f1.
Proof.
  intros b c H. destruct (corners_form b c H) as (cx & cy & cz & ->). cbn [vx vy vz vw].
  unfold far, realBox, realV. cbn [vx vy vz vw bmin bmax].
  assert (G : forall s (x y : f32), Rabs (val (pick s x y)) <= Rmax (Rabs (val x)) (Rabs (val y))).
  { intros [] x y; cbn [pick]; [apply Rmax_r|apply Rmax_l]. }
  repeat split; apply G.
Qed.
Lemma corner_fin : forall (b : aabb f32) c, mildBox b -> In c (corners b) -> allFin (l43 c).
Proof.
  intros b c ([A _] & [B _] & _) H. destruct (corners_form b c H) as (cx & cy & cz & ->).
  unfold allFin, l43 in *. rewrite ?Forall_cons_iff in *. cbn [vx vy vz vw].
  destruct A as (A1 & A2 & A3 & _). destruct B as (B1 & B2 & B3 & _).
  destruct cx, cy, cz; cbn [pick]; auto 6.
Qed.
Lemma real_corner_in : forall b c, nonEmpty (realBox b) -> In c (corners b) -> inBox (realBox b) (realV c).
Proof. intros b c N H. apply corners_inside; [exact N|]. rewrite <- real_corners. apply in_map, H. Qed.
Lemma corner_above32 : forall pl b q, inBox (realBox b) q -> exists c, In c (corners b) /\ planeSide pl q <= planeSide pl (realV c).
Proof.
  intros pl b q H. destruct (corner_above pl (realBox b) q H) as (v & Hv & L).
  rewrite <- real_corners in Hv. apply in_map_iff in Hv. destruct Hv as (c & <- & Hc). eauto.
Qed.

(** the eight corners against one plane; [T] maps real points, [tr] the corners *)
Definition errP (k j e f : R) (P W : vec4 R) : R := (k + j + 4.03) * U * reach P W + 1.01 * under4 e f P W + 12 * eta0.
Section Eight.
  Variables (p : path) (b : aabb f32) (pl : vec4 f32) (P W : vec4 R) (k e j f : R).
  Variables (tr : vec4 f32 -> vec4 f32) (T : vec4 R -> vec4 R) (Q : vec4 R).
  Hypothesis Hk : 0 <= k <= 20. Hypothesis Hj : 0 <= j <= 20. Hypothesis He : 0 <= e. Hypothesis Hf : 0 <= f.
  Hypothesis Fp : allFin (l4 pl). Hypothesis Np : nearV4 k e pl P.
  Hypothesis Nc : forall c, In c (corners b) -> allFin (l43 (tr c)) /\ nearP j f (tr c) (T (realV c)) W.
  Hypothesis Lim : reach P W + under4 e f P W <= limit / 2.
  Hypothesis Aff : forall q, planeSide P (T q) = planeSide Q q.
  Hypothesis Ne : nonEmpty (realBox b).
  Lemma eight_behind : Forall (fun v => slt (planeDistance p pl v) f0 = true) (map tr (corners b)) ->
    forall q, inBox (realBox b) q -> planeSide P (T q) < errP k j e f P W.
  Proof.
    intros H q Hq. rewrite Aff. destruct (corner_above32 Q b q Hq) as (c & Hc & L). rewrite <- (Aff (realV c)) in L.
    destruct (Nc c Hc) as [Fc Ncc].
    destruct (dist_near p k e j f pl (tr c) P (T (realV c)) W Hk Hj He Hf Fp Fc Np Ncc Lim) as [Fd Ed].
    rewrite Forall_forall in H. specialize (H _ (in_map tr _ _ Hc)). apply slt0 in H; [|exact Fd].
    pose proof (abs2 _ _ Ed). pose proof eta0_pos. unfold errP. lra.
  Qed.
  Lemma eight_back : (forall q, inBox (realBox b) q -> planeSide P (T q) <= - errP k j e f P W) ->
    Forall (fun v => slt (planeDistance p pl v) f0 = true) (map tr (corners b)).
  Proof.
    intros H. apply Forall_forall. intros v Hv. apply in_map_iff in Hv. destruct Hv as (c & <- & Hc).
    destruct (Nc c Hc) as [Fc Ncc].
    destruct (dist_near p k e j f pl (tr c) P (T (realV c)) W Hk Hj He Hf Fp Fc Np Ncc Lim) as [Fd Ed].
    apply slt0; [exact Fd|]. specialize (H _ (real_corner_in b c Ne Hc)).
    pose proof (abs2 _ _ Ed). pose proof eta0_pos. unfold errP in H. lra.
  Qed.
End Eight.

Lemma near_self : forall v : vec4 f32, nearV4 0 0 v (realV v).
Proof.
  intros v. unfold nearV4, nearC, realV. cbn [vx vy vz vw]. rewrite ?Rminus_eq_0, ?Rabs_R0. repeat split; lra.
Qed.
Lemma near_corner : forall b c, In c (corners b) -> nearP 0 0 c (realV c) (far (realBox b)).
Proof.
  intros b c H. destruct (corner_far b c H) as (X & Y & Z & _).
  unfold nearP, nearW, realV. cbn [vx vy vz vw]. rewrite ?Rminus_eq_0, ?Rabs_R0. repeat split; lra.
Qed.

(** ranges *)
Notation p60 := 1152921504606846976 (only parsing).
Lemma b60 : bpow radix2 60 = p60. Proof. cbn. lra. Qed.
Lemma mild_far : forall b, mildBox b -> 0 <= vx (far (realBox b)) <= p60 /\ 0 <= vy (far (realBox b)) <= p60 /\ 0 <= vz (far (realBox b)) <= p60.
Proof.
  intros b ([_ A] & [_ B] & _). unfold boundedBy, l43 in *. rewrite b60 in *. rewrite ?Forall_cons_iff in *.
  destruct A as (A1 & A2 & A3 & _). destruct B as (B1 & B2 & B3 & _).
  unfold far, realBox, realV. cbn [vx vy vz vw bmin bmax].
  repeat split; try (eapply Rle_trans; [apply Rabs_pos|apply Rmax_l]); apply Rmax_lub; assumption.
Qed.
Lemma reach_le : forall P W M N, 0 <= M -> Rabs (vx P) <= M -> Rabs (vy P) <= M -> Rabs (vz P) <= M -> Rabs (vw P) <= N ->
  0 <= vx W <= p60 -> 0 <= vy W <= p60 -> 0 <= vz W <= p60 -> reach P W <= 3 * (M * p60) + N.
Proof.
  intros P W M N HM A B C D X Y Z. unfold reach.
  assert (Rabs (vx P) * vx W <= M * p60) by (apply Rmult_le_compat; try apply Rabs_pos; lra).
  assert (Rabs (vy P) * vy W <= M * p60) by (apply Rmult_le_compat; try apply Rabs_pos; lra).
  assert (Rabs (vz P) * vz W <= M * p60) by (apply Rmult_le_compat; try apply Rabs_pos; lra). lra.
Qed.
Lemma reach_pos : forall P W, 0 <= vx W -> 0 <= vy W -> 0 <= vz W -> 0 <= reach P W.
Proof.
  intros P W X Y Z. unfold reach. pose proof (Rabs_pos (vw P)).
  assert (0 <= Rabs (vx P) * vx W) by (apply Rmult_le_pos; [apply Rabs_pos|lra]).
  assert (0 <= Rabs (vy P) * vy W) by (apply Rmult_le_pos; [apply Rabs_pos|lra]).
  assert (0 <= Rabs (vz P) * vz W) by (apply Rmult_le_pos; [apply Rabs_pos|lra]). lra.
Qed.
Lemma mild_lanes : forall v : vec4 f32, mild (l4 v) ->
  Rabs (val (vx v)) <= p60 /\ Rabs (val (vy v)) <= p60 /\ Rabs (val (vz v)) <= p60 /\ Rabs (val (vw v)) <= p60.
Proof. intros v [_ A]. unfold boundedBy, l4 in A. rewrite b60, ?Forall_cons_iff in A. tauto. Qed.

(** ** Distances *)
Theorem plane_distance : forall p (pl v : vec4 f32), mild (l4 pl) -> mild (l43 v) ->
  fin (planeDistance p pl v) /\
  Rabs (val (planeDistance p pl v) - planeSide (realV pl) (realV v)) <=
    slack 4.1 12 (reach (realV pl) (V4 (Rabs (val (vx v))) (Rabs (val (vy v))) (Rabs (val (vz v))) 1)).
Proof.
  intros p pl v Mp [Fv Bv]. pose proof (mild_lanes pl Mp) as (A & B & C & D).
  unfold boundedBy, l43 in Bv. rewrite b60, ?Forall_cons_iff in Bv. destruct Bv as (X & Y & Z & _).
  set (W := V4 (Rabs (val (vx v))) (Rabs (val (vy v))) (Rabs (val (vz v))) 1).
  assert (RL : reach (realV pl) W <= 3 * (p60 * p60) + p60).
  { apply reach_le; unfold W, realV; cbn [vx vy vz vw]; try lra; split; try apply Rabs_pos; assumption. }
  assert (RP : 0 <= reach (realV pl) W) by (apply reach_pos; unfold W; cbn [vx vy vz]; apply Rabs_pos).
  destruct (dist_near p 0 0 0 0 pl v (realV pl) (realV v) W) as [Fd Ed]; try lra; try (destruct Mp; assumption); try assumption.
  - apply near_self.
  - unfold nearP, nearW, realV, W. cbn [vx vy vz vw]. rewrite ?Rminus_eq_0, ?Rabs_R0. repeat split; lra.
  - unfold under4. lra.
  - split; [exact Fd|]. unfold slack. rewrite eta_val. unfold under4 in Ed. pose proof eta0_pos. lra.
Qed.

(** ** Boxes *)
Lemma map_id_corners : forall b : aabb f32, corners b = map (fun c => c) (corners b).
Proof. intros. rewrite map_id. reflexivity. Qed.
Lemma one_plane : forall p b (pl : vec4 f32) P k, mildBox b -> 0 <= k <= 2 -> allFin (l4 pl) -> nearV4 k 0 pl P ->
  Rabs (vx P) <= 2 * p60 -> Rabs (vy P) <= 2 * p60 -> Rabs (vz P) <= 2 * p60 -> Rabs (vw P) <= 2 * p60 ->
  (Forall (fun v => slt (planeDistance p pl v) f0 = true) (corners b) -> beyond (realBox b) P (slack (k + 4.1) 12 (reach P (far (realBox b))))) /\
  ((forall q, inBox (realBox b) q -> planeSide P q <= - slack (k + 4.1) 12 (reach P (far (realBox b)))) ->
   Forall (fun v => slt (planeDistance p pl v) f0 = true) (corners b)).
Proof.
  intros p b pl P k Hb Hk Fp Np A B C D. set (W := far (realBox b)).
  destruct (mild_far b Hb) as (X & Y & Z). fold W in X, Y, Z.
  assert (RL : reach P W <= 3 * (2 * p60 * p60) + 2 * p60) by (apply reach_le; lra).
  assert (RP : 0 <= reach P W) by (apply reach_pos; lra).
  assert (Nc : forall c, In c (corners b) -> allFin (l43 c) /\ nearP 0 0 c (realV c) W).
  { intros c Hc. split; [eapply corner_fin; eassumption|apply near_corner; exact Hc]. }
  assert (U0 : under4 0 0 P W = 0) by (unfold under4; ring).
  assert (E : errP k 0 0 0 P W <= slack (k + 4.1) 12 (reach P W)).
  { unfold errP, slack. rewrite U0, eta_val. unfold Rdiv. assert (0 <= 0.07 * U * reach P W) by (apply Rmult_le_pos; lra). lra. }
  assert (LM : reach P W + under4 0 0 P W <= limit / 2) by lra.
  assert (Hk' : 0 <= k <= 20) by lra. assert (H0 : 0 <= 0 <= 20) by lra. assert (H00 : 0 <= 0) by lra.
  destruct Hb as (_ & _ & Ne). split.
  - intros H q Hq. rewrite map_id_corners in H.
    pose proof (eight_behind p b pl P W k 0 0 0 (fun c => c) (fun q => q) P Hk' H0 H00 H00 Fp Np Nc LM (fun q => eq_refl) H q Hq). lra.
  - intros H. rewrite map_id_corners.
    apply (eight_back p b pl P W k 0 0 0 (fun c => c) (fun q => q) Hk' H0 H00 H00 Fp Np Nc LM Ne).
    intros q Hq. specialize (H q Hq). lra.
Qed.
Theorem cull_near : forall p (planes : list (vec4 f32)) b, mildBox b -> Forall (fun pl => mild (l4 pl)) planes ->
  (isBehindFrustum p planes b = true ->
   exists pl, In pl planes /\ beyond (realBox b) (realV pl) (slack 4.1 12 (reach (realV pl) (far (realBox b))))) /\
  ((exists pl, In pl planes /\ forall q, inBox (realBox b) q -> planeSide (realV pl) q <= - slack 4.1 12 (reach (realV pl) (far (realBox b)))) ->
   isBehindFrustum p planes b = true).
Proof.
  intros p planes b Hb Hp.
  assert (G : forall pl, In pl planes ->
    (Forall (fun v => slt (planeDistance p pl v) f0 = true) (corners b) -> beyond (realBox b) (realV pl) (slack 4.1 12 (reach (realV pl) (far (realBox b))))) /\
    ((forall q, inBox (realBox b) q -> planeSide (realV pl) q <= - slack 4.1 12 (reach (realV pl) (far (realBox b)))) ->
     Forall (fun v => slt (planeDistance p pl v) f0 = true) (corners b))).
  { intros pl Hi. rewrite Forall_forall in Hp. specialize (Hp pl Hi). destruct (mild_lanes pl Hp) as (A & B & C & D). destruct Hp as [Fp _].
    replace 4.1 with (0 + 4.1) by ring. apply one_plane; try assumption; try lra; try apply near_self; unfold realV; cbn [vx vy vz vw]; lra. }
  rewrite isBehindFrustum_iff. split; intros (pl & Hi & H); exists pl; (split; [exact Hi|]); apply (G pl Hi); exact H.
Qed.

(** ** Extracted planes *)
#[local] Instance prec24 : Prec_gt_0 24 := eq_refl.
Lemma sum_rel : forall a b : f32, fin a -> fin b -> Rabs (val a) <= p60 -> Rabs (val b) <= p60 ->
  fin (a + b)%sc /\ Rabs (val (a + b)%sc - (val a + val b)) <= U * Rabs (val a + val b).
Proof.
  intros a b Fa Fb A B. pose proof (Rabs_triang (val a) (val b)).
  destruct (add_small a b Fa Fb) as [F E]; [apply small_num; lra|]. split; [exact F|]. rewrite E.
  destruct (Plus_error.FLT_plus_error_N_ex radix2 (-149) 24 (fun x => negb (Z.even x)) (val a) (val b)) as (eps & He & Er).
  - apply (generic_format_B2R 24 128 a).
  - apply (generic_format_B2R 24 128 b).
  - change (round radix2 (FLT_exp (-149) 24) (Znearest (fun x => negb (Z.even x))) (val a + val b)) with (rnd (val a + val b)) in Er.
    rewrite Er. replace ((val a + val b) * (1 + eps) - (val a + val b)) with (eps * (val a + val b)) by ring.
    rewrite Rabs_mult. apply Rmult_le_compat_r; [apply Rabs_pos|].
    eapply Rle_trans; [exact He|]. unfold Relative.u_ro. cbn. lra.
Qed.
Lemma sub_as_add : forall a b : f32, fin a -> fin b -> Rabs (val a) <= p60 -> Rabs (val b) <= p60 ->
  fin (a - b)%sc /\ Rabs (val (a - b)%sc - (val a - val b)) <= U * Rabs (val a - val b).
Proof.
  intros a b Fa Fb A B. pose proof (Rabs_triang (val a) (- val b)). rewrite Rabs_Ropp in H.
  destruct (sub_small a b Fa Fb) as [F E]; [apply small_num; unfold Rminus; lra|]. split; [exact F|]. rewrite E.
  destruct (Plus_error.FLT_plus_error_N_ex radix2 (-149) 24 (fun x => negb (Z.even x)) (val a) (- val b)) as (eps & He & Er).
  - apply (generic_format_B2R 24 128 a).
  - apply generic_format_opp, (generic_format_B2R 24 128 b).
  - change (round radix2 (FLT_exp (-149) 24) (Znearest (fun x => negb (Z.even x))) (val a + - val b)) with (rnd (val a - val b)) in Er.
    rewrite Er. replace ((val a + - val b) * (1 + eps) - (val a - val b)) with (eps * (val a - val b)) by ring.
    rewrite Rabs_mult. apply Rmult_le_compat_r; [apply Rabs_pos|].
    eapply Rle_trans; [exact He|]. unfold Relative.u_ro. cbn. lra.
Qed.
Definition okC (x : f32) (X : R) : Prop := fin x /\ nearC 1 0 (val x) X /\ Rabs X <= 2 * p60.
Definition okPlane (pl : vec4 f32) (P : vec4 R) : Prop :=
  okC (vx pl) (vx P) /\ okC (vy pl) (vy P) /\ okC (vz pl) (vz P) /\ okC (vw pl) (vw P).
Definition okE (x : f32) : Prop := fin x /\ Rabs (val x) <= p60.
Lemma ok_add : forall a b : f32, okE a -> okE b -> okC (a + b)%sc (val a + val b).
Proof.
  intros a b [Fa A] [Fb B]. destruct (sum_rel a b Fa Fb A B) as [F E]. pose proof (Rabs_triang (val a) (val b)).
  split; [exact F|]. split; [unfold nearC; lra|lra].
Qed.
Lemma ok_sub : forall a b : f32, okE a -> okE b -> okC (a - b)%sc (val a - val b).
Proof.
  intros a b [Fa A] [Fb B]. destruct (sub_as_add a b Fa Fb A B) as [F E].
  pose proof (Rabs_triang (val a) (- val b)) as T. rewrite Rabs_Ropp in T.
  split; [exact F|]. split; [unfold nearC; lra|unfold Rminus; lra].
Qed.
Lemma ok_one : forall a : f32, okE a -> okC a (val a).
Proof.
  intros a [Fa A]. split; [exact Fa|]. split; [|lra]. unfold nearC. rewrite Rminus_eq_0, Rabs_R0. pose proof (Rabs_pos (val a)). lra.
Qed.
Lemma mildM_lanes : forall m : mat4 f32, mildM (rowsOf4 m) ->
  (okE (vx (c0 m)) /\ okE (vx (c1 m)) /\ okE (vx (c2 m)) /\ okE (vx (c3 m))) /\
  (okE (vy (c0 m)) /\ okE (vy (c1 m)) /\ okE (vy (c2 m)) /\ okE (vy (c3 m))) /\
  (okE (vz (c0 m)) /\ okE (vz (c1 m)) /\ okE (vz (c2 m)) /\ okE (vz (c3 m))) /\
  (okE (vw (c0 m)) /\ okE (vw (c1 m)) /\ okE (vw (c2 m)) /\ okE (vw (c3 m))).
Proof.
  intros m H. unfold mildM, rowsOf4, mild, allFin, boundedBy in H. rewrite b60 in H. rewrite ?Forall_cons_iff in H. unfold okE. tauto.
Qed.
Lemma extract_near : forall p (m : mat4 f32), mildM (rowsOf4 m) ->
  Forall2 okPlane (extractFrustumPlanes p m) (clipPlanes (realM m)).
Proof.
  intros p m H. apply mildM_lanes in H. destruct m as [[ax ay az aw] [bx by_ bz bw] [cx cy cz cw] [dx dy dz dw]].
  cbn [c0 c1 c2 c3 vx vy vz vw] in H. destruct H as ((X0 & X1 & X2 & X3) & (Y0 & Y1 & Y2 & Y3) & (Z0 & Z1 & Z2 & Z3) & (W0 & W1 & W2 & W3)).
  unfold clipPlanes, rowR, realM, realV, addV, subV. cbn [c0 c1 c2 c3 vx vy vz vw].
  assert (E : extractFrustumPlanes p (M4 (V4 ax ay az aw) (V4 bx by_ bz bw) (V4 cx cy cz cw) (V4 dx dy dz dw)) =
    [V4 (aw + ax) (bw + bx) (cw + cx) (dw + dx); V4 (aw - ax) (bw - bx) (cw - cx) (dw - dx);
     V4 (aw - ay) (bw - by_) (cw - cy) (dw - dy); V4 (aw + ay) (bw + by_) (cw + cy) (dw + dy);
     V4 az bz cz dz; V4 (aw - az) (bw - bz) (cw - cz) (dw - dz)]%sc) by (destruct p; reflexivity).
  rewrite E. clear E. repeat apply Forall2_cons; try apply Forall2_nil; unfold okPlane; cbn [vx vy vz vw];
    repeat split; first [apply ok_add|apply ok_sub|apply ok_one]; assumption.
Qed.
Lemma okPlane_parts : forall pl P, okPlane pl P -> allFin (l4 pl) /\ nearV4 1 0 pl P /\
  Rabs (vx P) <= 2 * p60 /\ Rabs (vy P) <= 2 * p60 /\ Rabs (vz P) <= 2 * p60 /\ Rabs (vw P) <= 2 * p60.
Proof.
  intros pl P ((F1 & N1 & B1) & (F2 & N2 & B2) & (F3 & N3 & B3) & (F4 & N4 & B4)).
  split; [repeat (apply Forall_cons; [assumption|]); apply Forall_nil|]. split; [repeat split; assumption|]. tauto.
Qed.
Lemma F2_in_l : forall {A B} (R : A -> B -> Prop) l m x, Forall2 R l m -> In x l -> exists y, In y m /\ R x y.
Proof. intros A B R l m x H. induction H as [|a b l m Rab H IH]; [intros []|intros [<-|I]; [exists b; cbn; auto|destruct (IH I) as (y & ? & ?); exists y; cbn; auto]]. Qed.
Lemma F2_in_r : forall {A B} (R : A -> B -> Prop) l m y, Forall2 R l m -> In y m -> exists x, In x l /\ R x y.
Proof. intros A B R l m y H. induction H as [|a b l m Rab H IH]; [intros []|intros [<-|I]; [exists a; cbn; auto|destruct (IH I) as (x & ? & ?); exists x; cbn; auto]]. Qed.
Theorem cull_matrix : forall p p' (m : mat4 f32) b, mildBox b -> mildM (rowsOf4 m) ->
  (isBehindFrustum p (extractFrustumPlanes p' m) b = true ->
   exists P, In P (clipPlanes (realM m)) /\ beyond (realBox b) P (slack 5.1 12 (reach P (far (realBox b))))) /\
  ((exists P, In P (clipPlanes (realM m)) /\ forall q, inBox (realBox b) q -> planeSide P q <= - slack 5.1 12 (reach P (far (realBox b)))) ->
   isBehindFrustum p (extractFrustumPlanes p' m) b = true).
Proof.
  intros p p' m b Hb Hm. pose proof (extract_near p' m Hm) as N. rewrite isBehindFrustum_iff.
  replace 5.1 with (1 + 4.1) by lra.
  split.
  - intros (pl & Hi & H). destruct (F2_in_l _ _ _ _ N Hi) as (P & HP & O). exists P. split; [exact HP|].
    destruct (okPlane_parts _ _ O) as (F & Np & A & B & C & D). apply (one_plane p b pl P 1); try assumption; lra.
  - intros (P & HP & H). destruct (F2_in_r _ _ _ _ N HP) as (pl & Hi & O). exists pl. split; [exact Hi|].
    destruct (okPlane_parts _ _ O) as (F & Np & A & B & C & D). apply (one_plane p b pl P 1); try assumption; lra.
Qed.
Lemma clip_planes_mean : forall m q, map (fun P => planeSide P q) (clipPlanes m) = clipSlacks m q.
Proof.
  intros [[ax ay az aw] [bx by_ bz bw] [cx cy cz cw] [dx dy dz dw]] q. unfold clipPlanes, clipSlacks, rowR, planeSide, addV, subV. cbn [map c0 c1 c2 c3 vx vy vz vw].
  repeat (apply (f_equal2 cons); [ring|]). reflexivity.
Qed.
(** visible by a margin: never culled *)
Lemma F2_map_l : forall {A B} (f : A -> B) (R : B -> A -> Prop) l x, Forall2 R (map f l) l -> In x l -> R (f x) x.
Proof.
  intros A B f R l x. induction l as [|a l IH]; [intros _ []|]. cbn [map]. intros H. inversion H; subst. intros [<-|I]; auto.
Qed.
Theorem visible_kept : forall p p' (m : mat4 f32) b q, mildBox b -> mildM (rowsOf4 m) -> inBox (realBox b) q ->
  Forall2 (fun s P => slack 5.1 12 (reach P (far (realBox b))) <= s) (clipSlacks (realM m) q) (clipPlanes (realM m)) ->
  isBehindFrustum p (extractFrustumPlanes p' m) b = false.
Proof.
  intros p p' m b q Hb Hm Hq H. destruct (isBehindFrustum p (extractFrustumPlanes p' m) b) eqn:E; [|reflexivity].
  destruct (proj1 (cull_matrix p p' m b Hb Hm) E) as (P & HP & K). specialize (K q Hq).
  rewrite <- clip_planes_mean in H. pose proof (F2_map_l _ _ _ _ H HP) as G. cbn beta in G. lra.
Qed.

(** ** Normalised planes *)
Definition scaleV (l : R) (P : vec4 R) : vec4 R := V4 (l * vx P) (l * vy P) (l * vz P) (l * vw P).
Lemma scale_side : forall l P q, planeSide (scaleV l P) q = l * planeSide P q.
Proof. intros. unfold planeSide, scaleV. cbn [vx vy vz vw]. ring. Qed.
Lemma scale_reach : forall l P W, 0 <= l -> reach (scaleV l P) W = l * reach P W.
Proof. intros l P W H. unfold reach, scaleV. cbn [vx vy vz vw]. rewrite !Rabs_mult, (Rabs_pos_eq l H). ring. Qed.

Lemma norm_real : forall pl : vec4 f32, norm (l43 pl) = normalLen (realV pl).
Proof. intros [a b c d]. unfold norm, normalLen, l43, realV. cbn [inner vx vy vz vw]. f_equal. ring. Qed.
Lemma normalLen_pos : forall P, 0 <= normalLen P. Proof. intros. apply sqrt_pos. Qed.
Lemma normalLen_sq : forall P, normalLen P * normalLen P = vx P * vx P + vy P * vy P + vz P * vz P.
Proof. intros P. apply sqrt_sqrt. nra. Qed.
Lemma lane_le_len : forall P, Rabs (vx P) <= normalLen P /\ Rabs (vy P) <= normalLen P /\ Rabs (vz P) <= normalLen P.
Proof.
  intros P. pose proof (normalLen_sq P) as E. pose proof (normalLen_pos P) as N.
  repeat split; apply Rabs_le; nra.
Qed.
(** lengths of planes that agree up to a relative error *)
Lemma len_near : forall (pl : vec4 f32) P k, 0 <= k <= 1 -> nearV4 k 0 pl P ->
  (1 - U) * normalLen P <= normalLen (realV pl) <= (1 + U) * normalLen P.
Proof.
  intros pl P k Hk (A & B & C & _). pose proof (normalLen_pos P) as N. pose proof (normalLen_pos (realV pl)) as M.
  pose proof (normalLen_sq P) as E. pose proof (normalLen_sq (realV pl)) as G. unfold realV in G at 3 4 5 6 7 8. cbn [vx vy vz] in G.
  unfold nearC in *.
  assert (Q : forall x X, Rabs (x - X) <= k * U * Rabs X + 0 -> (1 - U) * (1 - U) * (X * X) <= x * x <= (1 + U) * (1 + U) * (X * X)).
  { intros x X H. assert (H' : Rabs (x - X) <= U * Rabs X).
    { pose proof (Rabs_pos X). assert (k * U * Rabs X <= U * Rabs X) by (apply Rmult_le_compat_r; lra). lra. }
    assert (L1 : Rabs x <= (1 + U) * Rabs X).
    { replace x with (X + (x - X)) by ring. pose proof (Rabs_triang X (x - X)). lra. }
    assert (L2 : (1 - U) * Rabs X <= Rabs x).
    { pose proof (Rabs_triang x (X - x)) as T. replace (x + (X - x)) with X in T by ring. rewrite (Rabs_minus_sym X x) in T. lra. }
    pose proof (Rabs_pos X) as PX. pose proof (Rabs_pos x) as Px.
    assert (S1 : x * x = Rabs x * Rabs x) by (rewrite <- Rabs_mult; symmetry; apply Rabs_pos_eq; nra).
    assert (S2 : X * X = Rabs X * Rabs X) by (rewrite <- Rabs_mult; symmetry; apply Rabs_pos_eq; nra).
    rewrite S1, S2. split.
    - replace ((1 - U) * (1 - U) * (Rabs X * Rabs X)) with (((1 - U) * Rabs X) * ((1 - U) * Rabs X)) by ring. apply Rmult_le_compat; lra.
    - replace ((1 + U) * (1 + U) * (Rabs X * Rabs X)) with (((1 + U) * Rabs X) * ((1 + U) * Rabs X)) by ring. apply Rmult_le_compat; lra. }
  destruct (Q _ _ A) as [A1 A2]. destruct (Q _ _ B) as [B1 B2]. destruct (Q _ _ C) as [C1 C2]. clear Q.
  split; apply Rsqr_incr_0_var; try assumption; try (apply Rmult_le_pos; lra); unfold Rsqr; rewrite G.
  - replace ((1 - U) * normalLen P * ((1 - U) * normalLen P)) with ((1 - U) * (1 - U) * (normalLen P * normalLen P)) by ring. rewrite E. lra.
  - replace ((1 + U) * normalLen P * ((1 + U) * normalLen P)) with ((1 + U) * (1 + U) * (normalLen P * normalLen P)) by ring. rewrite E. lra.
Qed.
Notation n49 := 562949953421312 (only parsing).
Lemma fair_range : forall P, fairNormal P -> / n49 <= normalLen P <= n49.
Proof. intros P H. unfold fairNormal in H. cbn in H. lra. Qed.
Lemma fair_moderate : forall (pl : vec4 f32) P k, 0 <= k <= 1 -> nearV4 k 0 pl P -> allFin (l4 pl) -> fairNormal P -> moderate (l43 pl).
Proof.
  intros pl P k Hk N F H. apply fair_range in H. destruct (len_near pl P k Hk N) as [A B].
  split; [unfold allFin, l4, l43 in *; rewrite ?Forall_cons_iff in *; tauto|].
  assert (E : inner (l43 pl) (l43 pl) = normalLen (realV pl) * normalLen (realV pl)).
  { rewrite normalLen_sq. destruct pl. cbn. ring. }
  rewrite E. set (n := normalLen (realV pl)) in *.
  assert (R1 : / 1125899906842624 <= n) by lra. assert (R2 : n <= 1125899906842624) by lra.
  assert (B1 : bpow radix2 (-100) = / 1125899906842624 * / 1125899906842624) by (cbn; lra).
  assert (B2 : bpow radix2 100 = 1125899906842624 * 1125899906842624) by (cbn; lra).
  rewrite B1, B2. split; apply Rmult_le_compat; lra.
Qed.
Lemma div_lane_near : forall (x L : f32) X k, 0 <= k <= 1 -> fin x -> fin L -> / 1125899906842624 <= val L ->
  Rabs (val x) <= 4 * p60 -> nearC k 0 (val x) X ->
  fin (x / L)%sc /\ nearC (k + 1.01) eta0 (val (x / L)%sc) (/ val L * X).
Proof.
  intros x L X k Hk Fx FL HL Bx N. assert (PL : 0 < val L) by lra.
  assert (IL : 0 < / val L) by (apply Rinv_0_lt_compat; exact PL).
  assert (IB : / val L <= 1125899906842624).
  { rewrite <- (Rinv_inv 1125899906842624). apply Rinv_le_contravar; lra. }
  assert (Q : Rabs (val x / val L) <= 4 * p60 * 1125899906842624).
  { unfold Rdiv. rewrite Rabs_mult, (Rabs_pos_eq (/ val L)) by lra. apply Rmult_le_compat; try apply Rabs_pos; lra. }
  destruct (div_small x L Fx FL ltac:(lra)) as [F E]; [apply small_num; lra|].
  split; [exact F|]. rewrite E. unfold nearC in *. pose proof (rnd_err (val x / val L)) as RE. rewrite u24_val in RE.
  set (y := val x / val L) in *. set (Y := / val L * X).
  assert (D : Rabs (y - Y) <= k * U * Rabs Y).
  { unfold y, Y, Rdiv. replace (val x * / val L - / val L * X) with (/ val L * (val x - X)) by ring.
    rewrite !Rabs_mult, (Rabs_pos_eq (/ val L)) by lra.
    replace (k * U * (/ val L * Rabs X)) with (/ val L * (k * U * Rabs X + 0)) by ring. apply Rmult_le_compat_l; lra. }
  pose proof (Rabs_pos Y) as PY. assert (KY : 0 <= k * U * Rabs Y <= U * Rabs Y).
  { split; [apply Rmult_le_pos; lra|apply Rmult_le_compat_r; lra]. }
  assert (Yy : Rabs y <= Rabs Y + k * U * Rabs Y).
  { replace y with (Y + (y - Y)) by ring. pose proof (Rabs_triang Y (y - Y)). lra. }
  replace (rnd y - Y) with ((rnd y - y) + (y - Y)) by ring. pose proof (Rabs_triang (rnd y - y) (y - Y)).
  replace ((k + 1.01) * U * Rabs Y) with (k * U * Rabs Y + 1.01 * U * Rabs Y) by ring. lra.
Qed.
Lemma near_bound : forall k x X B, 0 <= k <= 1 -> nearC k 0 x X -> Rabs X <= B -> Rabs x <= 2 * B.
Proof.
  intros k x X B Hk H HB. unfold nearC in H. pose proof (Rabs_pos X).
  assert (k * U * Rabs X <= U * Rabs X) by (apply Rmult_le_compat_r; lra).
  replace x with (X + (x - X)) by ring. pose proof (Rabs_triang X (x - X)). lra.
Qed.
Lemma norm_plane : forall p (pl : vec4 f32) P k, 0 <= k <= 1 -> allFin (l4 pl) -> nearV4 k 0 pl P -> fairNormal P -> Rabs (vw P) <= 2 * p60 ->
  exists l, 0 < l /\ 0.999 <= l * normalLen P <= 1.001 /\ allFin (l4 (normalizePlane p pl)) /\
    nearV4 (k + 1.01) eta0 (normalizePlane p pl) (scaleV l P).
Proof.
  intros p pl P k Hk F N H HW. pose proof (fair_moderate pl P k Hk N F H) as M. apply fair_range in H.
  destruct (len_near pl P k Hk N) as [LA LB]. destruct (lane_le_len P) as (X & Y & Z).
  destruct (lengths_near p) as (_ & _ & _ & L3 & _). destruct (L3 pl M) as [FL EL]. rewrite norm_real in EL.
  set (L := length3 p pl) in *. pose proof (abs2 _ _ EL) as EL'.
  assert (PL : / 1125899906842624 <= val L) by lra.
  exists (/ val L). assert (0 < val L) by lra. split; [apply Rinv_0_lt_compat; lra|]. split.
  { split; apply (Rmult_le_reg_l (val L)); try lra.
    - replace (val L * (/ val L * normalLen P)) with (normalLen P) by (field; lra). lra.
    - replace (val L * (/ val L * normalLen P)) with (normalLen P) by (field; lra). lra. }
  unfold allFin, l4 in F. rewrite ?Forall_cons_iff in F. destruct F as (F1 & F2 & F3 & F4 & _). destruct N as (N1 & N2 & N3 & N4).
  destruct (div_lane_near (vx pl) L (vx P) k Hk F1 FL PL) as [G1 E1]; [eapply Rle_trans; [eapply (near_bound k _ _ (2 * p60)); [exact Hk|exact N1|lra]|lra]|exact N1|].
  destruct (div_lane_near (vy pl) L (vy P) k Hk F2 FL PL) as [G2 E2]; [eapply Rle_trans; [eapply (near_bound k _ _ (2 * p60)); [exact Hk|exact N2|lra]|lra]|exact N2|].
  destruct (div_lane_near (vz pl) L (vz P) k Hk F3 FL PL) as [G3 E3]; [eapply Rle_trans; [eapply (near_bound k _ _ (2 * p60)); [exact Hk|exact N3|lra]|lra]|exact N3|].
  destruct (div_lane_near (vw pl) L (vw P) k Hk F4 FL PL) as [G4 E4]; [eapply Rle_trans; [eapply (near_bound k _ _ (2 * p60)); [exact Hk|exact N4|lra]|lra]|exact N4|].
  split; [|exact (conj E1 (conj E2 (conj E3 E4)))].
  unfold allFin, l4. repeat (apply Forall_cons; [assumption|]). apply Forall_nil.
Qed.
Lemma one_normalized : forall p p' b (pl : vec4 f32) P k, mildBox b -> 0 <= k <= 1 -> allFin (l4 pl) -> nearV4 k 0 pl P ->
  fairNormal P -> Rabs (vw P) <= 2 * p60 ->
  let W := far (realBox b) in
  let s := slack (k + 5.1) (14 * (normalLen P * girth W)) (reach P W) in
  (Forall (fun v => slt (planeDistance p (normalizePlane p' pl) v) f0 = true) (corners b) -> beyond (realBox b) P s) /\
  ((forall q, inBox (realBox b) q -> planeSide P q <= - s) ->
   Forall (fun v => slt (planeDistance p (normalizePlane p' pl) v) f0 = true) (corners b)).
Proof.
  intros p p' b pl P k Hb Hk F N HF HW W s.
  destruct (norm_plane p' pl P k Hk F N HF HW) as (l & Pl & Ln & Fn & Nn). apply fair_range in HF.
  destruct (mild_far b Hb) as (X & Y & Z). fold W in X, Y, Z.
  destruct (lane_le_len P) as (LX & LY & LZ). set (n := normalLen P) in *.
  pose proof eta0_pos as EP. pose proof eta0_small as ES.
  assert (RL : reach P W <= 3 * (n * p60) + 2 * p60) by (apply reach_le; lra).
  assert (RP : 0 <= reach P W) by (apply reach_pos; lra).
  assert (lB : l <= 1126000000000000).
  { assert (l * / n49 <= l * n) by (apply Rmult_le_compat_l; lra). lra. }
  assert (GW : 1 <= girth W <= 4 * p60) by (unfold girth; lra).
  assert (SR : reach (scaleV l P) W = l * reach P W) by (apply scale_reach; lra).
  assert (Un : under4 eta0 0 (scaleV l P) W = eta0 * girth W) by (unfold under4; ring).
  assert (EG : 0 <= eta0 * girth W <= p60) by (split; [apply Rmult_le_pos; lra|]; assert (eta0 * girth W <= / 1000000000000 * (4 * p60)) by (apply Rmult_le_compat; lra); lra).
  assert (LM : reach (scaleV l P) W + under4 eta0 0 (scaleV l P) W <= limit / 2).
  { rewrite SR, Un. assert (l * reach P W <= l * (3 * (n * p60) + 2 * p60)) by (apply Rmult_le_compat_l; lra).
    replace (l * (3 * (n * p60) + 2 * p60)) with (3 * p60 * (l * n) + 2 * p60 * l) in * by ring. lra. }
  assert (Nc : forall c, In c (corners b) -> allFin (l43 c) /\ nearP 0 0 c (realV c) W).
  { intros c Hc. split; [eapply corner_fin; eassumption|apply near_corner; exact Hc]. }
  assert (E : errP (k + 1.01) 0 eta0 0 (scaleV l P) W <= l * s).
  { unfold errP, s, slack. rewrite SR, Un, eta_val.
    replace (l * ((k + 5.1) / 16777216 * reach P W + 14 * (n * girth W) * eta0)) with
      ((k + 5.1) * U * (l * reach P W) + 14 * (l * n) * (eta0 * girth W)) by (unfold Rdiv; ring).
    assert (0 <= l * reach P W) by (apply Rmult_le_pos; lra).
    assert ((k + 1.01 + 0 + 4.03) * U * (l * reach P W) <= (k + 5.1) * U * (l * reach P W)) by (apply Rmult_le_compat_r; lra).
    assert (eta0 * 1 <= eta0 * girth W) by (apply Rmult_le_compat_l; lra).
    assert (14 * 0.999 * (eta0 * girth W) <= 14 * (l * n) * (eta0 * girth W)) by (apply Rmult_le_compat_r; lra). lra. }
  assert (Hk' : 0 <= k + 1.01 <= 20) by lra. assert (H0 : 0 <= 0 <= 20) by lra. assert (H00 : 0 <= 0) by lra.
  assert (He : 0 <= eta0) by lra.
  destruct Hb as (_ & _ & Ne). split.
  - intros H q Hq. rewrite map_id_corners in H.
    pose proof (eight_behind p b _ _ W (k + 1.01) eta0 0 0 (fun c => c) (fun q => q) _ Hk' H0 He H00 Fn Nn Nc LM (fun q => eq_refl) H q Hq) as K.
    rewrite scale_side in K. apply (Rmult_lt_reg_l l); lra.
  - intros H. rewrite map_id_corners.
    apply (eight_back p b _ _ W (k + 1.01) eta0 0 0 (fun c => c) (fun q => q) Hk' H0 He H00 Fn Nn Nc LM Ne).
    intros q Hq. specialize (H q Hq). rewrite scale_side.
    assert (l * planeSide P q <= l * - s) by (apply Rmult_le_compat_l; lra). lra.
Qed.
Theorem cull_normalized : forall p p' (planes : list (vec4 f32)) b, mildBox b ->
  Forall (fun pl => mild (l4 pl) /\ fairNormal (realV pl)) planes ->
  let s pl := slack 5.1 (14 * (normalLen (realV pl) * girth (far (realBox b)))) (reach (realV pl) (far (realBox b))) in
  (isBehindFrustum p (normalizePlanes p' planes) b = true -> exists pl, In pl planes /\ beyond (realBox b) (realV pl) (s pl)) /\
  ((exists pl, In pl planes /\ forall q, inBox (realBox b) q -> planeSide (realV pl) q <= - s pl) ->
   isBehindFrustum p (normalizePlanes p' planes) b = true).
Proof.
  intros p p' planes b Hb Hp s. rewrite isBehindFrustum_iff.
  assert (G : forall pl, In pl planes ->
    (Forall (fun v => slt (planeDistance p (normalizePlane p' pl) v) f0 = true) (corners b) -> beyond (realBox b) (realV pl) (s pl)) /\
    ((forall q, inBox (realBox b) q -> planeSide (realV pl) q <= - s pl) ->
     Forall (fun v => slt (planeDistance p (normalizePlane p' pl) v) f0 = true) (corners b))).
  { intros pl Hi. rewrite Forall_forall in Hp. destruct (Hp pl Hi) as [M FN]. destruct (mild_lanes pl M) as (_ & _ & _ & D). destruct M as [Fp _].
    unfold s. replace 5.1 with (0 + 5.1) by ring. apply one_normalized; try assumption; try lra; [apply near_self|unfold realV; cbn [vw]; lra]. }
  unfold normalizePlanes. split.
  - intros (pn & Hi & H). apply in_map_iff in Hi. destruct Hi as (pl & <- & Hi). exists pl. split; [exact Hi|]. apply (G pl Hi), H.
  - intros (pl & Hi & H). exists (normalizePlane p' pl). split; [apply in_map, Hi|]. apply (G pl Hi), H.
Qed.
Theorem cull_pipeline : forall p p' p'' (m : mat4 f32) b, mildBox b -> mildM (rowsOf4 m) -> Forall fairNormal (clipPlanes (realM m)) ->
  let s P := slack 6.1 (14 * (normalLen P * girth (far (realBox b)))) (reach P (far (realBox b))) in
  (isBehindFrustum p (normalizePlanes p' (extractFrustumPlanes p'' m)) b = true ->
   exists P, In P (clipPlanes (realM m)) /\ beyond (realBox b) P (s P)) /\
  ((exists P, In P (clipPlanes (realM m)) /\ forall q, inBox (realBox b) q -> planeSide P q <= - s P) ->
   isBehindFrustum p (normalizePlanes p' (extractFrustumPlanes p'' m)) b = true).
Proof.
  intros p p' p'' m b Hb Hm HF s. pose proof (extract_near p'' m Hm) as N. rewrite Forall_forall in HF.
  rewrite isBehindFrustum_iff.
  assert (G : forall pl P, okPlane pl P -> fairNormal P ->
    (Forall (fun v => slt (planeDistance p (normalizePlane p' pl) v) f0 = true) (corners b) -> beyond (realBox b) P (s P)) /\
    ((forall q, inBox (realBox b) q -> planeSide P q <= - s P) ->
     Forall (fun v => slt (planeDistance p (normalizePlane p' pl) v) f0 = true) (corners b))).
  { intros pl P O FP. destruct (okPlane_parts _ _ O) as (F & Np & A & B & C & D).
    unfold s. replace 6.1 with (1 + 5.1) by lra. apply one_normalized; try assumption; lra. }
  unfold normalizePlanes. split.
  - intros (pn & Hi & H). apply in_map_iff in Hi. destruct Hi as (pl & <- & Hi).
    destruct (F2_in_l _ _ _ _ N Hi) as (P & HP & O). exists P. split; [exact HP|]. apply (G pl P O (HF P HP)), H.
  - intros (P & HP & H). destruct (F2_in_r _ _ _ _ N HP) as (pl & Hi & O). exists (normalizePlane p' pl).
    split; [apply in_map, Hi|]. apply (G pl P O (HF P HP)), H.
Qed.

(** ** With a model matrix *)
Notation p36 := 68719476736 (only parsing).
Lemma b36 : bpow radix2 36 = p36. Proof. cbn. lra. Qed.
Lemma modest_mild : forall l, modest l -> mild l.
Proof.
  intros l [F B]. split; [exact F|]. unfold boundedBy in *. eapply Forall_impl; [|exact B]. cbn beta. intros x H. rewrite b36 in H. rewrite b60. lra.
Qed.
Definition pull (m : mat4 R) (P : vec4 R) : vec4 R :=
  V4 (vx P * vx (c0 m) + vy P * vy (c0 m) + vz P * vz (c0 m)) (vx P * vx (c1 m) + vy P * vy (c1 m) + vz P * vz (c1 m))
     (vx P * vx (c2 m) + vy P * vy (c2 m) + vz P * vz (c2 m)) (vx P * vx (c3 m) + vy P * vy (c3 m) + vz P * vz (c3 m) + vw P).
Lemma pull_side : forall m P q, planeSide P (through m q) = planeSide (pull m P) q.
Proof. intros. unfold planeSide, through, pull, rowR, planeSide. cbn [vx vy vz vw]. ring. Qed.
Lemma inner_row : forall (f : vec4 f32 -> f32) (g : vec4 R -> R) (m : mat4 f32) (c : vec4 f32), (forall v, g (realV v) = val (f v)) -> vw c = f1 ->
  inner [f (c0 m); f (c1 m); f (c2 m); f (c3 m)] (l4 c) = planeSide (rowR g (realM m)) (realV c).
Proof.
  intros f g m [x y z w] H W. cbn [vw] in W. subst w. unfold planeSide, rowR, realM, l4. cbn [inner c0 c1 c2 c3 vx vy vz vw].
  rewrite !H. unfold realV. cbn [vx vy vz vw]. rewrite (proj2 f1_fin). ring.
Qed.
Lemma innerAbs_row : forall (f : vec4 f32 -> f32) (g : vec4 R -> R) (m : mat4 f32) (c : vec4 f32) (W : vec4 R), (forall v, g (realV v) = val (f v)) -> vw c = f1 ->
  Rabs (val (vx c)) <= vx W -> Rabs (val (vy c)) <= vy W -> Rabs (val (vz c)) <= vz W ->
  innerAbs [f (c0 m); f (c1 m); f (c2 m); f (c3 m)] (l4 c) <= reach (rowR g (realM m)) W.
Proof.
  intros f g m [x y z w] W H E X Y Z. cbn [vw vx vy vz] in *. subst w. unfold reach, rowR, realM, l4. cbn [innerAbs c0 c1 c2 c3 vx vy vz vw].
  rewrite !H, !Rabs_mult. rewrite (proj2 f1_fin), Rabs_R1.
  assert (G : forall a b w, Rabs b <= w -> Rabs a * Rabs b <= Rabs a * w) by (intros; apply Rmult_le_compat_l; [apply Rabs_pos|assumption]).
  pose proof (G (val (f (c0 m))) _ _ X). pose proof (G (val (f (c1 m))) _ _ Y). pose proof (G (val (f (c2 m))) _ _ Z). lra.
Qed.
Lemma side_reach : forall P q W, Rabs (vx q) <= vx W -> Rabs (vy q) <= vy W -> Rabs (vz q) <= vz W -> Rabs (planeSide P q) <= reach P W.
Proof.
  intros P q W X Y Z. unfold planeSide, reach.
  eapply Rle_trans; [apply Rabs_triang|]. apply Rplus_le_compat_r.
  eapply Rle_trans; [apply Rabs_triang|]. apply Rplus_le_compat; [|rewrite Rabs_mult; apply Rmult_le_compat_l; [apply Rabs_pos|assumption]].
  eapply Rle_trans; [apply Rabs_triang|]. apply Rplus_le_compat; rewrite Rabs_mult; apply Rmult_le_compat_l; try apply Rabs_pos; assumption.
Qed.
Lemma modest_box : forall b, modestBox b -> mildBox b /\ 0 <= vx (far (realBox b)) <= p36 /\ 0 <= vy (far (realBox b)) <= p36 /\ 0 <= vz (far (realBox b)) <= p36.
Proof.
  intros b (A & B & N). split; [repeat split; try apply modest_mild; try assumption; apply N|].
  destruct A as [_ A]. destruct B as [_ B]. unfold boundedBy, l43 in *. rewrite b36 in *. rewrite ?Forall_cons_iff in *.
  destruct A as (A1 & A2 & A3 & _). destruct B as (B1 & B2 & B3 & _).
  unfold far, realBox, realV. cbn [vx vy vz vw bmin bmax].
  repeat split; try (eapply Rle_trans; [apply Rabs_pos|apply Rmax_l]); apply Rmax_lub; assumption.
Qed.
Lemma reach_le2 : forall P W M N, Rabs (vx P) <= M -> Rabs (vy P) <= M -> Rabs (vz P) <= M -> Rabs (vw P) <= M ->
  0 <= vx W <= N -> 0 <= vy W <= N -> 0 <= vz W <= N -> reach P W <= 3 * (M * N) + M.
Proof.
  intros P W M N A B C D X Y Z. unfold reach. pose proof (Rabs_pos (vx P)).
  assert (Rabs (vx P) * vx W <= M * N) by (apply Rmult_le_compat; try apply Rabs_pos; lra).
  assert (Rabs (vy P) * vy W <= M * N) by (apply Rmult_le_compat; try apply Rabs_pos; lra).
  assert (Rabs (vz P) * vz W <= M * N) by (apply Rmult_le_compat; try apply Rabs_pos; lra). lra.
Qed.
Theorem cull_model : forall p (planes : list (vec4 f32)) b (m : mat4 f32), modestBox b -> modestM m -> Forall (fun pl => modest (l4 pl)) planes ->
  let W := throughFar (realM m) (far (realBox b)) in
  let s pl := slack 8.2 (12 + 11 * (Rabs (vx (realV pl)) + Rabs (vy (realV pl)) + Rabs (vz (realV pl)))) (reach (realV pl) W) in
  (isBehindFrustumModel p planes b m = true -> exists pl, In pl planes /\ beyondThrough (realM m) (realBox b) (realV pl) (s pl)) /\
  ((exists pl, In pl planes /\ forall q, inBox (realBox b) q -> planeSide (realV pl) (through (realM m) q) <= - s pl) ->
   isBehindFrustumModel p planes b m = true).
Proof.
  intros p planes b m Hb Hm Hp W s. destruct (modest_box b Hb) as (Mb & X & Y & Z).
  assert (MM : mildM (rowsOf4 m)) by (unfold mildM; eapply Forall_impl; [|exact Hm]; apply modest_mild).
  pose proof eta0_pos as EP. pose proof eta0_small as ES.
  assert (Rows : forall (f : vec4 f32 -> f32) (g : vec4 R -> R), (forall v, g (realV v) = val (f v)) ->
     modest [f (c0 m); f (c1 m); f (c2 m); f (c3 m)] -> 0 <= reach (rowR g (realM m)) (far (realBox b)) <= 4 * (p36 * p36)).
  { intros f g H [_ B]. unfold boundedBy in B. rewrite b36, ?Forall_cons_iff in B. destruct B as (B1 & B2 & B3 & B4 & _).
    split; [apply reach_pos; lra|]. eapply Rle_trans; [apply (reach_le2 _ _ p36 p36)|]; unfold rowR, realM; cbn [c0 c1 c2 c3 vx vy vz vw]; rewrite ?H; try assumption; lra. }
  assert (Hm' := Hm). unfold modestM, rowsOf4 in Hm'. rewrite ?Forall_cons_iff in Hm'. destruct Hm' as (R1 & R2 & R3 & R4 & _).
  pose proof (Rows vx vx ltac:(reflexivity) R1) as W1. pose proof (Rows vy vy ltac:(reflexivity) R2) as W2. pose proof (Rows vz vz ltac:(reflexivity) R3) as W3.
  clear Rows.
  (* corners *)
  assert (Nc : forall c, In c (corners b) -> allFin (l43 (mulV p m c)) /\ nearP 4.01 (10 * eta0) (mulV p m c) (through (realM m) (realV c)) W).
  { intros c Hc. pose proof (corner_fin b c Mb Hc) as Fc. destruct (corner_far b c Hc) as (CX & CY & CZ & CW).
    assert (Mc : mild (l4 c)).
    { unfold mild, allFin, boundedBy, l43, l4 in *. rewrite ?Forall_cons_iff in *. rewrite b60. destruct f1_fin as [F1 V1].
      rewrite CW, V1, Rabs_R1. destruct Fc as (? & ? & ? & _). repeat split; try assumption; try constructor; lra. }
    pose proof (mulV_err p m c (mildM_fin _ MM) (proj1 Mc) (mild_under _ _ MM Mc ltac:(repeat (apply Forall_cons; [cbn; lia|]); apply Forall_nil))) as AE.
    unfold actionErr, rowsOf4, l4 in AE. repeat match goal with H : Forall2 _ (_ :: _) _ |- _ => inversion H; clear H; subst end.
    match goal with A : innerErr _ (vx _) _ _, B : innerErr _ (vy _) _ _, C : innerErr _ (vz _) _ _ |- _ => destruct A as [A1 A2]; destruct B as [B1 B2]; destruct C as [C1 C2] end.
    rewrite eta_val in *. change [vx c; vy c; vz c; vw c] with (l4 c) in *.
    rewrite (inner_row vx vx m c ltac:(reflexivity) CW) in A2. rewrite (inner_row vy vy m c ltac:(reflexivity) CW) in B2. rewrite (inner_row vz vz m c ltac:(reflexivity) CW) in C2.
    pose proof (innerAbs_row vx vx m c (far (realBox b)) ltac:(reflexivity) CW CX CY CZ).
    pose proof (innerAbs_row vy vy m c (far (realBox b)) ltac:(reflexivity) CW CX CY CZ).
    pose proof (innerAbs_row vz vz m c (far (realBox b)) ltac:(reflexivity) CW CX CY CZ).
    split; [unfold allFin, l43; repeat (apply Forall_cons; [assumption|]); apply Forall_nil|].
    unfold nearP, nearW, through, W, throughFar. cbn [vx vy vz vw].
    repeat split; try (apply side_reach; assumption); lra. }
  assert (G : forall pl, In pl planes ->
    (Forall (fun v => slt (planeDistance p pl v) f0 = true) (map (mulV p m) (corners b)) -> beyondThrough (realM m) (realBox b) (realV pl) (s pl)) /\
    ((forall q, inBox (realBox b) q -> planeSide (realV pl) (through (realM m) q) <= - s pl) ->
     Forall (fun v => slt (planeDistance p pl v) f0 = true) (map (mulV p m) (corners b)))).
  { intros pl Hi. rewrite Forall_forall in Hp. destruct (Hp pl Hi) as [Fp Bp]. unfold boundedBy, l4 in Bp. rewrite b36, ?Forall_cons_iff in Bp.
    destruct Bp as (B1 & B2 & B3 & B4 & _).
    assert (RP : 0 <= reach (realV pl) W) by (apply reach_pos; unfold W, throughFar; cbn [vx vy vz]; lra).
    assert (RL : reach (realV pl) W <= 3 * (p36 * (4 * (p36 * p36))) + p36).
    { apply reach_le2; unfold W, throughFar, realV; cbn [vx vy vz vw]; assumption || lra. }
    set (a := Rabs (vx (realV pl)) + Rabs (vy (realV pl)) + Rabs (vz (realV pl))).
    assert (Ha : 0 <= a <= 3 * p36).
    { unfold a, realV. cbn [vx vy vz]. pose proof (Rabs_pos (val (vx pl))). pose proof (Rabs_pos (val (vy pl))). pose proof (Rabs_pos (val (vz pl))). lra. }
    assert (Un : under4 0 (10 * eta0) (realV pl) W = 10 * (eta0 * a)) by (unfold under4, a; ring).
    assert (EA : 0 <= eta0 * a <= 3 * p36).
    { split; [apply Rmult_le_pos; lra|]. assert (eta0 * a <= 1 * (3 * p36)) by (apply Rmult_le_compat; lra). lra. }
    assert (LM : reach (realV pl) W + under4 0 (10 * eta0) (realV pl) W <= limit / 2) by (rewrite Un; lra).
    assert (E : errP 0 4.01 0 (10 * eta0) (realV pl) W <= s pl).
    { unfold errP, s, slack. fold a. rewrite Un, eta_val. unfold Rdiv. assert (0 <= 0.1 * U * reach (realV pl) W) by (apply Rmult_le_pos; lra). lra. }
    assert (H0 : 0 <= 0 <= 20) by lra. assert (Hj : 0 <= 4.01 <= 20) by lra. assert (H00 : 0 <= 0) by lra. assert (Hf : 0 <= 10 * eta0) by lra.
    pose proof (near_self pl) as Np. destruct Mb as (_ & _ & Ne). split.
    - intros H q Hq.
      pose proof (eight_behind p b pl (realV pl) W 0 0 4.01 (10 * eta0) (mulV p m) (through (realM m)) (pull (realM m) (realV pl)) H0 Hj H00 Hf Fp Np Nc LM (pull_side _ _) H q Hq). lra.
    - intros H. apply (eight_back p b pl (realV pl) W 0 0 4.01 (10 * eta0) (mulV p m) (through (realM m)) H0 Hj H00 Hf Fp Np Nc LM Ne).
      intros q Hq. specialize (H q Hq). lra. }
  unfold isBehindFrustumModel. rewrite behind8_iff by reflexivity.
  split; intros (pl & Hi & H); exists pl; (split; [exact Hi|]); apply (G pl Hi); exact H.
Qed.
