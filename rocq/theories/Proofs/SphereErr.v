(** Sphere tests in binary32. *)
From Coq Require Import ZArith Bool List Reals Lra Lia Psatz.
From Flocq Require Import Core.Core IEEE754.BinarySingleNaN IEEE754.Binary IEEE754.Bits.
From Verif.Model Require Import Outcome Scalar Vec Simd Aabb Geometry.
From Verif.Spec Require Import GeomSpec EuclidSpec ClosestErrSpec.
From Verif.Proofs Require Import OrdScalar F32Round F32Err Approx NormProofs MatErrProofs GeometryProofs CullProofs RayErr Euclid RealLits Frustum RayProofs SphereProofs ClosestErr AabbOrder BvhFrustum AabbWitness ClosestWitness.
Import ListNotations.
Local Open Scope R_scope.

(** the squared distance *)
Lemma distSq_near : forall p (x a : vec4 f32), fair (l43 x) -> fair (l43 a) ->
  let d := lengthSq3 p (vsub x a) in let L := distS (realV x) (realV a) in
  fin d /\ Rabs (val d - L * L) <= 5.1 * U * (L * L) + 10 * eta0.
Proof.
  intros p x a FX FA d L. destruct (diff_near x a FX FA) as (FW & BS & W1 & W2 & W3).
  set (w := vsub x a) in *. set (W := minusS (realV x) (realV a)) in *. change L with (lenS W). set (N := lenS W) in *.
  assert (PN : 0 <= N) by apply lenS_pos.
  assert (LL : N * N = vx W * vx W + vy W * vy W + vz W * vz W) by apply lenS_sq.
  assert (IW : inner (l43 w) (l43 w) = val (vx w) * val (vx w) + val (vy w) * val (vy w) + val (vz w) * val (vz w)) by (unfold inner, l43; cbn [vx vy vz]; ring).
  assert (IA : innerAbs (l43 w) (l43 w) = inner (l43 w) (l43 w)).
  { rewrite IW. unfold innerAbs, l43. rewrite !Rabs_pos_eq by apply Rle_0_sqr. ring. }
  pose proof (rel_lane _ _ W1) as K1. pose proof (rel_lane _ _ W2) as K2. pose proof (rel_lane _ _ W3) as K3.
  assert (IB : (1 - U) * (1 - U) * (N * N) <= inner (l43 w) (l43 w) <= (1 + U) * (1 + U) * (N * N)) by (rewrite IW, LL; lra).
  assert (BLL : 0 <= N * N <= 4398046511104 * 4398046511104) by (split; [apply Rmult_le_pos|apply Rmult_le_compat]; lra).
  destruct (dot3_err p w w FW FW) as [F E]; [rewrite IA; lra|]. fold eta0 in E. rewrite IA in E.
  split; [exact F|]. change (dot3 p w w) with d in E. apply abs2 in E. apply Rabs_le. lra.
Qed.
Lemma lane4 : forall s : vec4 f32, fair (l4 s) -> fair (l43 s) /\ fin (vw s) /\ Rabs (val (vw s)) <= 1099511627776.
Proof.
  intros s [F B]. unfold fair, allFin, boundedBy, l43, l4 in *. rewrite p40 in *. rewrite !Forall_cons_iff in *. tauto.
Qed.
(** the squared radius *)
Lemma radSq_near : forall r : f32, fin r -> / 1099511627776 <= val r <= 4398046511104 ->
  fin (r * r)%sc /\ Rabs (val (r * r)%sc - val r * val r) <= 1.001 * U * (val r * val r) /\ 11 * eta0 <= 0.001 * U * (val r * val r).
Proof.
  intros r F B.
  assert (BB : / 1099511627776 * / 1099511627776 <= val r * val r <= 4398046511104 * 4398046511104) by (split; apply Rmult_le_compat; lra).
  pose proof eta_70 as E7. pose proof eta0_pos as E0.
  assert (EB : 11 * eta0 <= 0.001 * U * (val r * val r)) by lra.
  destruct (mul_small r r F F) as [G V]; [apply small_num; rewrite Rabs_pos_eq; lra|].
  split; [exact G|]. split; [|exact EB]. rewrite V. pose proof (rnd_err (val r * val r)) as E. rewrite u24_val in E.
  rewrite (Rabs_pos_eq (val r * val r)) in E by lra. lra.
Qed.
Lemma slt_iff' : forall a b : f32, fin a -> fin b -> (slt a b = true <-> val a < val b).
Proof. intros a b A B. rewrite slt_iff by (apply fin_num; assumption). rewrite !fin_ext by assumption. reflexivity. Qed.
Lemma sle_iff' : forall a b : f32, fin a -> fin b -> (sle a b = true <-> val a <= val b).
Proof. intros a b A B. rewrite sle_iff by (apply fin_num; assumption). rewrite !fin_ext by assumption. reflexivity. Qed.
(** from the squares to the numbers *)
Lemma root_up : forall L r k, 0 <= L -> 0 < r -> 0 <= k -> L * L < (1 + 2 * k) * (r * r) -> L < r * (1 + k).
Proof.
  intros L r k H1 H2 H3 H. destruct (Rlt_le_dec L (r * (1 + k))) as [|G]; [assumption|exfalso].
  assert (P : 0 <= r * (1 + k)) by (apply Rmult_le_pos; lra).
  assert (r * (1 + k) * (r * (1 + k)) <= L * L) by (apply Rmult_le_compat; lra).
  replace (r * (1 + k) * (r * (1 + k))) with ((1 + 2 * k + k * k) * (r * r)) in H0 by ring.
  assert (0 <= k * k * (r * r)) by (apply Rmult_le_pos; apply Rle_0_sqr). lra.
Qed.
Lemma root_down : forall L r k, 0 <= L -> 0 < r -> 0 <= k <= 1 -> L <= r * (1 - k) -> L * L <= (1 - 2 * k + k * k) * (r * r).
Proof.
  intros L r k H1 H2 H3 H.
  replace ((1 - 2 * k + k * k) * (r * r)) with (r * (1 - k) * (r * (1 - k))) by ring. apply Rmult_le_compat; lra.
Qed.

Lemma within_radius : forall p (s q : vec4 f32), fair (l43 s) -> fair (l43 q) -> fin (vw s) -> / 1099511627776 <= val (vw s) <= 4398046511104 ->
  let t := slt (lengthSq3 p (vsub s q)) (vw s * vw s)%sc in
  (t = true -> distS (realV s) (realV q) < val (vw s) * (1 + 4 / 16777216)) /\
  (distS (realV s) (realV q) <= val (vw s) * (1 - 4 / 16777216) -> t = true).
Proof.
  intros p s q FS FQ FR BR t. destruct (distSq_near p s q FS FQ) as [FD ED]. destruct (radSq_near _ FR BR) as (FM & EM & EE).
  unfold t. rewrite slt_iff' by assumption. apply abs2 in ED, EM. set (L := distS (realV s) (realV q)) in *.
  assert (PL : 0 <= L) by apply sqrt_pos. pose proof (Rle_0_sqr L) as PLL. unfold Rsqr in PLL. pose proof eta0_pos.
  set (r := val (vw s)) in *. assert (PR : 0 < r * r) by (apply Rmult_lt_0_compat; lra).
  split; intros H'.
  - apply root_up; lra.
  - apply root_down in H'; try lra.
Qed.
Theorem isInsideSphere_near : forall p (s q : vec4 f32), fair (l4 s) -> fair (l43 q) -> bpow radix2 (-40) <= val (vw s) ->
  (isInsideSphere p s q = true -> distS (realV s) (realV q) < val (vw s) * (1 + 4 / 16777216)) /\
  (distS (realV s) (realV q) <= val (vw s) * (1 - 4 / 16777216) -> isInsideSphere p s q = true).
Proof.
  intros p s q FS FQ HR. rewrite m40 in HR. destruct (lane4 s FS) as (F3 & FR & BR). rewrite Rabs_pos_eq in BR by lra.
  apply within_radius; try assumption; lra.
Qed.
Theorem isIntersectedSpheres_near : forall p (a b : vec4 f32), fair (l4 a) -> fair (l4 b) -> 0 <= val (vw a) -> 0 <= val (vw b) ->
  bpow radix2 (-40) <= val (vw a) + val (vw b) ->
  (isIntersectedSpheres p a b = true -> distS (realV a) (realV b) < (val (vw a) + val (vw b)) * (1 + 5 / 16777216)) /\
  (distS (realV a) (realV b) <= (val (vw a) + val (vw b)) * (1 - 5 / 16777216) -> isIntersectedSpheres p a b = true).
Proof.
  intros p a b FA FB PA PB HR. rewrite m40 in HR. destruct (lane4 a FA) as (A3 & FRA & BA). destruct (lane4 b FB) as (B3 & FRB & BB).
  rewrite Rabs_pos_eq in BA, BB by assumption.
  destruct (distSq_near p a b A3 B3) as [FD ED]. unfold isIntersectedSpheres.
  destruct (add_small (vw a) (vw b) FRA FRB) as [FS VS]; [apply small_num; rewrite Rabs_pos_eq; lra|].
  set (s := (vw a + vw b)%sc) in *. set (T := val (vw a) + val (vw b)) in *.
  assert (HT : T <= 4398046511104) by (unfold T; lra).
  assert (ES : Rabs (val s - T) <= 1.001 * U * T).
  { rewrite VS. pose proof (rnd_err T) as E. rewrite u24_val in E. rewrite (Rabs_pos_eq T) in E by lra. pose proof eta_70. lra. }
  apply abs2 in ES.
  assert (SS : (1 - 2.01 * U) * (T * T) <= val s * val s <= (1 + 2.01 * U) * (T * T)).
  { assert (0 < T * T) by (apply Rmult_lt_0_compat; lra). split.
    - apply Rle_trans with ((1 - 1.001 * U) * T * ((1 - 1.001 * U) * T)); [lra|apply Rmult_le_compat; lra].
    - apply Rle_trans with ((1 + 1.001 * U) * T * ((1 + 1.001 * U) * T)); [apply Rmult_le_compat; lra|lra]. }
  assert (Q : fin (s * s)%sc /\ Rabs (val (s * s)%sc - T * T) <= 3.02 * U * (T * T) /\ 11 * eta0 <= 0.001 * U * (T * T)).
  { assert (BT : / 1099511627776 * / 1099511627776 <= T * T <= 4398046511104 * 4398046511104) by (split; apply Rmult_le_compat; lra).
    pose proof eta_70 as E7. pose proof eta0_pos as E0.
    destruct (mul_small s s FS FS) as [G V]; [apply small_num; rewrite Rabs_pos_eq; lra|].
    split; [exact G|]. split; [|lra]. rewrite V. pose proof (rnd_err (val s * val s)) as E. rewrite u24_val in E.
    rewrite (Rabs_pos_eq (val s * val s)) in E by lra. apply abs2 in E. apply Rabs_le. lra. }
  destruct Q as (FM & EM & EE). rewrite sle_iff' by assumption. apply abs2 in ED, EM. set (L := distS (realV a) (realV b)) in *.
  assert (PL : 0 <= L) by apply sqrt_pos. pose proof (Rle_0_sqr L) as PLL. unfold Rsqr in PLL. pose proof eta0_pos.
  assert (PT : 0 < T * T) by (apply Rmult_lt_0_compat; lra).
  split; intros H'.
  - apply root_up; lra.
  - apply root_down in H'; try lra.
Qed.

(** sphere against box *)
Lemma clamp_val : forall p (v mn mx : f32), fin v -> fin mn -> fin mx -> val mn <= val mx -> Rabs (val v) <= 1099511627776 ->
  Rabs (val mn) <= 1099511627776 -> Rabs (val mx) <= 1099511627776 ->
  let r := simdmax p (simdmin p v mx) mn in
  (fin r /\ Rabs (val r) <= 1099511627776) /\ val mn <= val r <= val mx /\
  forall q, val mn <= q <= val mx -> (val v - val r)² <= (val v - q)².
Proof.
  intros p v mn mx Fv Fn Fx LE Bv Bn Bx r.
  destruct (clamp_lane p v mn mx (fin_num _ Fv) (fin_num _ Fn) (fin_num _ Fx)) as (N & I & D & _); [rewrite !fin_ext by assumption; exact LE|].
  fold r in N, I, D.
  assert (F : fin r).
  { apply simdmax_fin; [apply simdmin_fin|]; assumption. }
  rewrite (fin_ext r F), (fin_ext v Fv), (fin_ext mn Fn), (fin_ext mx Fx) in *. split; [|split; assumption].
  split; [exact F|]. apply abs2 in Bn, Bx. apply Rabs_le. lra.
Qed.
Theorem isIntersectedSphereBox_near : forall p (s : vec4 f32) (b : aabb f32), fair (l4 s) -> fair (l43 (bmin b)) -> fair (l43 (bmax b)) ->
  nonEmpty (realBox b) -> bpow radix2 (-40) <= val (vw s) ->
  (isIntersectedSphereBox p s b = true -> exists q, inBox (realBox b) q /\ distS (realV s) q < val (vw s) * (1 + 4 / 16777216)) /\
  ((exists q, inBox (realBox b) q /\ distS (realV s) q <= val (vw s) * (1 - 4 / 16777216)) -> isIntersectedSphereBox p s b = true).
Proof.
  intros p s b FS FN FX NE HR. rewrite m40 in HR. destruct (lane4 s FS) as (F3 & FR & BR). rewrite Rabs_pos_eq in BR by lra.
  destruct (fair_lanes _ F3) as ((S1 & P1) & (S2 & P2) & (S3 & P3)). destruct (fair_lanes _ FN) as ((N1 & Q1) & (N2 & Q2) & (N3 & Q3)).
  destruct (fair_lanes _ FX) as ((X1 & R1) & (X2 & R2) & (X3 & R3)). destruct NE as (E1 & E2 & E3).
  unfold realBox, realV in E1, E2, E3. cbn [bmin bmax vx vy vz] in E1, E2, E3.
  destruct (clamp_val p _ _ _ S1 N1 X1 E1 P1 Q1 R1) as ((C1 & D1) & I1 & M1).
  destruct (clamp_val p _ _ _ S2 N2 X2 E2 P2 Q2 R2) as ((C2 & D2) & I2 & M2).
  destruct (clamp_val p _ _ _ S3 N3 X3 E3 P3 Q3 R3) as ((C3 & D3) & I3 & M3).
  set (c := closestPointBox p b s).
  change (simdmax p (simdmin p (vx s) (vx (bmax b))) (vx (bmin b))) with (vx c) in *.
  change (simdmax p (simdmin p (vy s) (vy (bmax b))) (vy (bmin b))) with (vy c) in *.
  change (simdmax p (simdmin p (vz s) (vz (bmax b))) (vz (bmin b))) with (vz c) in *.
  assert (FC : fair (l43 c)).
  { split; unfold allFin, boundedBy, l43; rewrite ?p40; repeat (apply Forall_cons; [assumption|]); apply Forall_nil. }
  destruct (within_radius p s c F3 FC FR) as [A B]; [lra|]. unfold isIntersectedSphereBox. fold c. clearbody c.
  split.
  - intros H. exists (realV c). split; [|exact (A H)]. unfold inBox, in3, realBox, realV. cbn [bmin bmax vx vy vz ext]. auto.
  - intros (q & Hq & Hd). apply B. eapply Rle_trans; [|exact Hd]. destruct Hq as (G1 & G2 & G3).
    unfold realBox, realV in G1, G2, G3. cbn [bmin bmax vx vy vz] in G1, G2, G3.
    specialize (M1 (vx q) G1). specialize (M2 (vy q) G2). specialize (M3 (vz q) G3).
    unfold distS. apply sqrt_le_1_alt. unfold realV. cbn [vx vy vz]. lra.
Qed.

(** squares that leave the binary32 range *)
Theorem square_lost :
  (exists s : vec4 f32, fair (l4 s) /\ 0 < val (vw s) /\ forall p, isInsideSphere p s s = false) /\
  (exists s q : vec4 f32, allFin (l4 s) /\ allFin (l43 q) /\ 0 < val (vw s) /\ 2 * distS (realV s) (realV q) = val (vw s) /\ forall p, isInsideSphere p s q = false).
Proof.
  destruct (lit_exact 0 0 ltac:(lia) ltac:(lia)) as [F0 V0]. rewrite Rmult_0_l in V0.
  split.
  - destruct (lit_exact 1 (-80) ltac:(lia) ltac:(lia)) as [F V]. rewrite Rmult_1_l in V.
    exists (V4 (slit 0 0) (slit 0 0) (slit 0 0) (slit 1 (-80))). split; [|split].
    + split; unfold allFin, boundedBy, l4; cbn [vx vy vz vw].
      * repeat (apply Forall_cons; [assumption|]). apply Forall_nil.
      * pose proof (bpow_ge_0 radix2 40). rewrite !Forall_cons_iff, V0, V, Rabs_R0. rewrite Rabs_pos_eq by apply bpow_ge_0.
        repeat split; try assumption; try apply Forall_nil. apply bpow_le. lia.
    + cbn [vw]. rewrite V. apply bpow_gt_0.
    + intros []; vm_compute; reflexivity.
  - destruct (lit_exact 1 65 ltac:(lia) ltac:(lia)) as [F V]. rewrite Rmult_1_l in V.
    destruct (lit_exact 1 64 ltac:(lia) ltac:(lia)) as [G W]. rewrite Rmult_1_l in W.
    exists (V4 (slit 0 0) (slit 0 0) (slit 0 0) (slit 1 65)), (V4 (slit 1 64) (slit 0 0) (slit 0 0) (slit 0 0)).
    split; [|split; [|split; [|split]]].
    + unfold allFin, l4; cbn [vx vy vz vw]. repeat (apply Forall_cons; [assumption|]). apply Forall_nil.
    + unfold allFin, l43; cbn [vx vy vz vw]. repeat (apply Forall_cons; [assumption|]). apply Forall_nil.
    + cbn [vw]. rewrite V. apply bpow_gt_0.
    + unfold realV, distS. cbn [vx vy vz vw]. rewrite V, W, V0.
      replace ((0 - bpow radix2 64)² + (0 - 0)² + (0 - 0)²) with (bpow radix2 64 * bpow radix2 64) by (unfold Rsqr; ring).
      rewrite sqrt_square by apply bpow_ge_0. change 65%Z with (1 + 64)%Z. rewrite bpow_plus. reflexivity.
    + intros []; vm_compute; reflexivity.
Qed.
Lemma fair4i : forall x y z w, (Z.abs x <= 10)%Z -> (Z.abs y <= 10)%Z -> (Z.abs z <= 10)%Z -> (Z.abs w <= 10)%Z -> fair (l4 (V4 (fi x) (fi y) (fi z) (fi w))).
Proof.
  intros x y z w X Y Z W. destruct (fi_val x X) as [Fx Vx]. destruct (fi_val y Y) as [Fy Vy]. destruct (fi_val z Z) as [Fz Vz]. destruct (fi_val w W) as [Fw Vw].
  assert (B : forall k, (Z.abs k <= 10)%Z -> Rabs (IZR k) <= bpow radix2 40).
  { intros k K. apply IZR_le in K. rewrite abs_IZR in K. eapply Rle_trans; [exact K|]. cbn. lra. }
  split; unfold allFin, boundedBy, l4; cbn [vx vy vz vw]; rewrite ?Vx, ?Vy, ?Vz, ?Vw; repeat (apply Forall_cons; [auto|]); rewrite ?Vx, ?Vy, ?Vz, ?Vw; auto.
Qed.
Theorem sphere_example : forall p, let s := V4 (fi 1) (fi 2) (fi 3) (fi 5) in let q := v4 4 4 3 in let b := bx 4 4 3 7 9 8 in
  fair (l4 s) /\ fair (l43 q) /\ bpow radix2 (-40) <= val (vw s) /\ fair (l43 (bmin b)) /\ fair (l43 (bmax b)) /\ nonEmpty (realBox b) /\
  isInsideSphere p s q = true /\ isIntersectedSphereBox p s b = true /\ isIntersectedSpheres p s (V4 (fi 9) (fi 2) (fi 3) (fi 2)) = false.
Proof.
  intros p s q b. destruct (fi_val 5 ltac:(lia)) as [F5 V5].
  assert (V : forall z, (Z.abs z <= 10)%Z -> val (fi z) = IZR z) by (intros; apply fi_val; assumption).
  split; [apply fair4i; lia|]. split; [apply (lane4 q), (fair4i 4 4 3 0); lia|]. split.
  { cbn [vw s]. rewrite V5, m40. lra. }
  split; [apply (lane4 (bmin b)), (fair4i 4 4 3 0); lia|]. split; [apply (lane4 (bmax b)), (fair4i 7 9 8 0); lia|]. split.
  { unfold nonEmpty, realBox, realV, b, bx, v4. cbn [bmin bmax vx vy vz]. rewrite !V by lia. lra. }
  destruct p; vm_compute; auto.
Qed.
