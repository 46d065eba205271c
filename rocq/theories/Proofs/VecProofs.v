(** Vector algebra over the reals and independence of the fourth lane. *)
From Coq Require Import ZArith Bool List Reals Lra Lia Psatz.
From Flocq Require Import Core.Core.
From Verif.Model Require Import Outcome Scalar Vec Simd Lanes.
From Verif.Spec Require Import GeomSpec VecSpec.
From Verif.Proofs Require Import RealLits Frustum QuatProofs.
Import ListNotations.
Local Open Scope R_scope.

(** ** facts about the specification *)
Lemma dotL_comm : forall a b, dotL a b = dotL b a.
Proof. induction a as [|x a IH]; intros [|y b]; cbn; try reflexivity. rewrite IH. ring. Qed.
Lemma dotL_add : forall a b c, length a = length b -> dotL (addL a b) c = dotL a c + dotL b c.
Proof.
  induction a as [|x a IH]; intros [|y b] c H; cbn in *; try discriminate; [destruct c; lra|].
  destruct c as [|z c]; [lra|]. rewrite IH by congruence. ring.
Qed.
Lemma dotL_scale : forall k a c, dotL (scaleL k a) c = k * dotL a c.
Proof. induction a as [|x a IH]; intros c; cbn; [ring|]. destruct c as [|z c]; [ring|]. unfold scaleL in IH. rewrite IH. ring. Qed.
Lemma dotL_nonneg : forall a, 0 <= dotL a a.
Proof. induction a as [|x a IH]; cbn; [lra|]. nra. Qed.
Lemma dotL_zero : forall a, dotL a a = 0 <-> zeroL a.
Proof.
  intros a. split.
  - induction a as [|x a IH]; cbn; intros H; constructor; pose proof (dotL_nonneg a).
    + nra.
    + apply IH. nra.
  - induction 1 as [|x a H _ IH]; cbn; [reflexivity|]. rewrite IH, H. ring.
Qed.
Lemma cauchyL : forall a b, (dotL a b) * (dotL a b) <= dotL a a * dotL b b.
Proof.
  induction a as [|x a IH]; intros [|y b]; [cbn; nra|cbn; nra|cbn; nra|]. cbn.
  specialize (IH b). pose proof (dotL_nonneg a) as HA. pose proof (dotL_nonneg b) as HB.
  set (A := dotL a a) in *. set (B := dotL b b) in *. set (D := dotL a b) in *.
  assert (K : 2 * (x * y) * D <= x * x * B + y * y * A).
  { destruct (Rle_dec (2 * (x * y) * D) 0) as [L|G]; [nra|].
    apply Rsqr_incr_0_var; [|nra]. unfold Rsqr.
    assert (E1 : (2 * (x * y) * D) * (2 * (x * y) * D) <= 4 * (x * x * B) * (y * y * A)).
    { replace ((2 * (x * y) * D) * (2 * (x * y) * D)) with (4 * (x * x) * (y * y) * (D * D)) by ring.
      replace (4 * (x * x * B) * (y * y * A)) with (4 * (x * x) * (y * y) * (A * B)) by ring.
      apply Rmult_le_compat_l; [nra|exact IH]. }
    pose proof (Rle_0_sqr (x * x * B - y * y * A)) as Q. unfold Rsqr in Q. nra. }
  nra.
Qed.
Lemma normL_nonneg : forall a, 0 <= normL a.
Proof. intros a. apply sqrt_pos. Qed.
Lemma normL_zero : forall a, normL a = 0 <-> zeroL a.
Proof.
  intros a. rewrite <- dotL_zero. unfold normL. split; intros H; [apply sqrt_eq_0; [apply dotL_nonneg|exact H]|rewrite H; apply sqrt_0].
Qed.
Lemma normL_scale : forall k a, normL (scaleL k a) = Rabs k * normL a.
Proof.
  intros k a. unfold normL. rewrite dotL_scale, dotL_comm, dotL_scale. rewrite <- sqrt_Rsqr_abs.
  rewrite <- sqrt_mult_alt by apply Rle_0_sqr. f_equal. unfold Rsqr. ring.
Qed.
Lemma normL_triangle : forall a b, length a = length b -> normL (addL a b) <= normL a + normL b.
Proof.
  intros a b H. pose proof (normL_nonneg a) as HA. pose proof (normL_nonneg b) as HB.
  apply Rsqr_incr_0_var; [|lra]. unfold Rsqr. unfold normL at 1 2. rewrite sqrt_sqrt by apply dotL_nonneg.
  rewrite dotL_add by exact H. rewrite (dotL_comm a), (dotL_comm b). rewrite !dotL_add by exact H.
  assert (EA : normL a * normL a = dotL a a) by (apply sqrt_sqrt, dotL_nonneg).
  assert (EB : normL b * normL b = dotL b b) by (apply sqrt_sqrt, dotL_nonneg).
  assert (C : dotL a b <= normL a * normL b).
  { destruct (Rle_dec (dotL a b) 0) as [L|G]; [nra|]. apply Rsqr_incr_0_var; [|nra]. unfold Rsqr.
    pose proof (cauchyL a b). nra. }
  rewrite (dotL_comm b a). nra.
Qed.
Lemma unitOf_scale : forall a, ~ zeroL a -> unitOf a (scaleL (/ normL a) a).
Proof.
  intros a H. assert (N : 0 < normL a).
  { destruct (normL_nonneg a) as [L|E]; [exact L|]. exfalso. apply H, normL_zero. auto. }
  split.
  - rewrite dotL_scale, dotL_comm, dotL_scale. rewrite <- (sqrt_sqrt (dotL a a)) by apply dotL_nonneg.
    fold (normL a). field. lra.
  - exists (/ normL a). split; [apply Rinv_0_lt_compat, N|reflexivity].
Qed.

(** ** the code computes dotL, crossL, normL *)
Ltac vec := repeat match goal with v : vec2 _ |- _ => destruct v as [?a ?a] | v : vec3 _ |- _ => destruct v as [?a ?a ?a]
                                 | v : vec4 _ |- _ => destruct v as [?a ?a ?a ?a] end.
Lemma cons_eq : forall (x y : R) l m, x = y -> l = m -> x :: l = y :: m.
Proof. intros; subst; reflexivity. Qed.
Ltac leq := repeat (apply cons_eq; [ring|]); reflexivity.
Lemma dot_plain : forall (a2 b2 : vec2 R) (a3 b3 : vec3 R) (a4 b4 : vec4 R),
  dotp2 a2 b2 = dotL (l2 a2) (l2 b2) /\ dotp3 a3 b3 = dotL (l3 a3) (l3 b3) /\ dotp4 a4 b4 = dotL (l4 a4) (l4 b4).
Proof. intros. vec. cbn. repeat split; ring. Qed.
Lemma dot_simd : forall p (a b : vec4 R), dot3 p a b = dotL (l43 a) (l43 b) /\ dot4 p a b = dotL (l4 a) (l4 b).
Proof. intros p a b. rewrite dot3R, dot4R. vec. unfold RotSpec.inner4. cbn. split; ring. Qed.
Lemma cross_plain : forall a b : vec3 R, l3 (crossp a b) = crossL (l3 a) (l3 b).
Proof. intros. vec. reflexivity. Qed.
Lemma cross_simd : forall p (a b : vec4 R), l43 (cross3 p a b) = crossL (l43 a) (l43 b).
Proof.
  intros p a b. destruct a as [a1 a2 a3 a4], b as [b1 b2 b3 b4].
  destruct p; unfold cross3, swYZXX, vsub, vmul, map2_4, ofFloat3, of3, crossp, xyz, l43, crossL;
    cbn [vx vy vz vw x3 y3 z3 ssub smul ScalarR]; leq.
Qed.
Lemma cross_facts : forall a b : vec3 R,
  crossp a b = neg3 (crossp b a) /\ dotp3 a (crossp a b) = 0 /\ dotp3 b (crossp a b) = 0 /\
  dotp3 (crossp a b) (crossp a b) = dotp3 a a * dotp3 b b - dotp3 a b * dotp3 a b.
Proof.
  intros a b. destruct a as [a1 a2 a3], b as [b1 b2 b3].
  unfold crossp, neg3, map_3, dotp3. cbn [x3 y3 z3 sadd ssub smul sneg ScalarR]. repeat split; try ring. f_equal; ring.
Qed.
Lemma length_plain : forall (a2 : vec2 R) (a3 : vec3 R) (a4 : vec4 R),
  lengthp2 a2 = normL (l2 a2) /\ lengthp3 a3 = normL (l3 a3) /\ lengthp4 a4 = normL (l4 a4) /\
  lengthSqp2 a2 = dotL (l2 a2) (l2 a2) /\ lengthSqp3 a3 = dotL (l3 a3) (l3 a3) /\ lengthSqp4 a4 = dotL (l4 a4) (l4 a4).
Proof.
  intros a2 a3 a4. destruct (dot_plain a2 a2 a3 a3 a4 a4) as (E2 & E3 & E4).
  unfold lengthp2, lengthp3, lengthp4, lengthSqp2, lengthSqp3, lengthSqp4, normL. rewrite E2, E3, E4. repeat split; reflexivity.
Qed.
Lemma length_simd : forall p (a : vec4 R),
  length3 p a = normL (l43 a) /\ length4 p a = normL (l4 a) /\
  lengthSq3 p a = dotL (l43 a) (l43 a) /\ lengthSq4 p a = dotL (l4 a) (l4 a).
Proof.
  intros p a. destruct (dot_simd p a a) as [E3 E4].
  unfold length3, length4, lengthSq3, lengthSq4, normL. rewrite E3, E4. repeat split; reflexivity.
Qed.
Lemma sub_lists : forall (a2 b2 : vec2 R) (a3 b3 : vec3 R) (a4 b4 : vec4 R),
  l2 (sub2 a2 b2) = subL (l2 a2) (l2 b2) /\ l3 (sub3 a3 b3) = subL (l3 a3) (l3 b3) /\
  l4 (subp4 a4 b4) = subL (l4 a4) (l4 b4) /\ l4 (vsub a4 b4) = subL (l4 a4) (l4 b4) /\ l43 (vsub a4 b4) = subL (l43 a4) (l43 b4).
Proof.
  intros a2 b2 a3 b3 a4 b4. vec. unfold sub2, sub3, subp4, vsub, map2_2, map2_3, map2_4, l2, l3, l4, l43, subL, addL, scaleL, map.
  cbn [x2 y2 x3 y3 z3 vx vy vz vw ssub ScalarR]. repeat split; leq.
Qed.
Lemma distance_plain : forall (a2 b2 : vec2 R) (a3 b3 : vec3 R) (a4 b4 : vec4 R),
  distancep2 a2 b2 = normL (subL (l2 a2) (l2 b2)) /\ distancep3 a3 b3 = normL (subL (l3 a3) (l3 b3)) /\
  distancep4 a4 b4 = normL (subL (l4 a4) (l4 b4)) /\
  distanceSqp2 a2 b2 = Rsqr (normL (subL (l2 a2) (l2 b2))) /\ distanceSqp3 a3 b3 = Rsqr (normL (subL (l3 a3) (l3 b3))) /\
  distanceSqp4 a4 b4 = Rsqr (normL (subL (l4 a4) (l4 b4))).
Proof.
  intros a2 b2 a3 b3 a4 b4. destruct (sub_lists a2 b2 a3 b3 a4 b4) as (E2 & E3 & E4 & _).
  unfold distancep2, distancep3, distancep4, distanceSqp2, distanceSqp3, distanceSqp4.
  destruct (length_plain (sub2 a2 b2) (sub3 a3 b3) (subp4 a4 b4)) as (L2 & L3 & L4 & S2 & S3 & S4).
  rewrite L2, L3, L4, S2, S3, S4, E2, E3, E4. unfold normL, Rsqr. rewrite !sqrt_sqrt by apply dotL_nonneg. repeat split; reflexivity.
Qed.
Lemma distance_simd : forall p (a b : vec4 R),
  distancev3 p a b = normL (subL (l43 a) (l43 b)) /\ distancev4 p a b = normL (subL (l4 a) (l4 b)) /\
  distanceSq3 p a b = Rsqr (normL (subL (l43 a) (l43 b))) /\ distanceSq4 p a b = Rsqr (normL (subL (l4 a) (l4 b))).
Proof.
  intros p a b. destruct (sub_lists (V2 0 0) (V2 0 0) (V3 0 0 0) (V3 0 0 0) a b) as (_ & _ & _ & E4 & E3).
  unfold distancev3, distancev4, distanceSq3, distanceSq4.
  destruct (length_simd p (vsub a b)) as (L3 & L4 & S3 & S4). rewrite L3, L4, S3, S4, E3, E4.
  unfold normL, Rsqr. rewrite !sqrt_sqrt by apply dotL_nonneg. repeat split; reflexivity.
Qed.
Lemma normalize_plain : forall (a2 : vec2 R) (a3 : vec3 R) (a4 : vec4 R),
  (~ zeroL (l2 a2) -> unitOf (l2 a2) (l2 (normalizep2 a2))) /\
  (~ zeroL (l3 a3) -> unitOf (l3 a3) (l3 (normalizep3 a3))) /\
  (~ zeroL (l4 a4) -> unitOf (l4 a4) (l4 (normalizep4 a4))).
Proof.
  intros a2 a3 a4. destruct (length_plain a2 a3 a4) as (L2 & L3 & L4 & _).
  unfold normalizep2, normalizep3, normalizep4. rewrite L2, L3, L4, f1R.
  assert (G : forall k x : R, x * (1 / k) = / k * x) by (intros; unfold Rdiv; ring).
  split; [|split]; intros H; apply unitOf_scale in H.
  - replace (l2 (scale2 a2 (1 / normL (l2 a2)))) with (scaleL (/ normL (l2 a2)) (l2 a2)); [exact H|].
    generalize (normL (l2 a2)) as k; intro k. destruct a2 as [x y]. unfold scale2, scale3, scalep4, vdiv, dup4, map_2, map_3, map_4, map2_4, l2, l3, l4, l43, scaleL, map.
    cbn [x2 y2 x3 y3 z3 vx vy vz vw smul sdiv ScalarR]. rewrite !G. reflexivity.
  - replace (l3 (scale3 a3 (1 / normL (l3 a3)))) with (scaleL (/ normL (l3 a3)) (l3 a3)); [exact H|].
    generalize (normL (l3 a3)) as k; intro k. destruct a3 as [x y z]. unfold scale2, scale3, scalep4, vdiv, dup4, map_2, map_3, map_4, map2_4, l2, l3, l4, l43, scaleL, map.
    cbn [x2 y2 x3 y3 z3 vx vy vz vw smul sdiv ScalarR]. rewrite !G. reflexivity.
  - replace (l4 (scalep4 a4 (1 / normL (l4 a4)))) with (scaleL (/ normL (l4 a4)) (l4 a4)); [exact H|].
    generalize (normL (l4 a4)) as k; intro k. destruct a4 as [x y z w]. unfold scale2, scale3, scalep4, vdiv, dup4, map_2, map_3, map_4, map2_4, l2, l3, l4, l43, scaleL, map.
    cbn [x2 y2 x3 y3 z3 vx vy vz vw smul sdiv ScalarR]. rewrite !G. reflexivity.
Qed.
Lemma normalize_simd : forall p (a : vec4 R),
  (~ zeroL (l43 a) -> unitOf (l43 a) (l43 (normalize3 p a))) /\
  (~ zeroL (l4 a) -> unitOf (l4 a) (l4 (normalize4 p a))).
Proof.
  intros p a. destruct (dot_simd p a a) as [E3 E4].
  assert (G : forall k x : R, x / k = / k * x) by (intros; unfold Rdiv; ring).
  destruct (normalize_plain (V2 0 0) (xyz a) a) as (_ & P3 & P4).
  assert (H3 : ~ zeroL (l43 a) -> unitOf (l43 a) (l43 (vdiv a (dup4 (ssqrt (dot3 p a a)))))).
  { intros H. apply unitOf_scale in H. rewrite E3.
    change (ssqrt (dotL (l43 a) (l43 a))) with (normL (l43 a)).
    replace (l43 (vdiv a (dup4 (normL (l43 a))))) with (scaleL (/ normL (l43 a)) (l43 a)); [exact H|].
    generalize (normL (l43 a)) as k; intro k. destruct a as [x y z w]. unfold scale2, scale3, scalep4, vdiv, dup4, map_2, map_3, map_4, map2_4, l2, l3, l4, l43, scaleL, map.
    cbn [x2 y2 x3 y3 z3 vx vy vz vw smul sdiv ScalarR]. rewrite !G. reflexivity. }
  assert (H4 : ~ zeroL (l4 a) -> unitOf (l4 a) (l4 (vdiv a (dup4 (ssqrt (dot4 p a a)))))).
  { intros H. apply unitOf_scale in H. rewrite E4.
    change (ssqrt (dotL (l4 a) (l4 a))) with (normL (l4 a)).
    replace (l4 (vdiv a (dup4 (normL (l4 a))))) with (scaleL (/ normL (l4 a)) (l4 a)); [exact H|].
    generalize (normL (l4 a)) as k; intro k. destruct a as [x y z w]. unfold scale2, scale3, scalep4, vdiv, dup4, map_2, map_3, map_4, map2_4, l2, l3, l4, l43, scaleL, map.
    cbn [x2 y2 x3 y3 z3 vx vy vz vw smul sdiv ScalarR]. rewrite !G. reflexivity. }
  assert (Q3 : ~ zeroL (l43 a) -> unitOf (l43 a) (l43 (ofFloat3 (normalizep3 (xyz a))))) by exact P3.
  destruct p; split; assumption.
Qed.

(** ** the fourth lane never influences three-dimensional results, in any arithmetic *)
Lemma fourth_lane : forall (F : Type) (S : Scalar F) p (a b : vec4 F) u v,
  dot3 p (withW a u) (withW b v) = dot3 p a b /\
  lengthSq3 p (withW a u) = lengthSq3 p a /\ length3 p (withW a u) = length3 p a /\
  distanceSq3 p (withW a u) (withW b v) = distanceSq3 p a b /\
  distancev3 p (withW a u) (withW b v) = distancev3 p a b /\
  isNormalized3 p (withW a u) = isNormalized3 p a /\
  cross3 p (withW a u) (withW b v) = cross3 p a b /\
  xyz (normalize3 p (withW a u)) = xyz (normalize3 p a) /\
  vmin3 p (withW a u) = vmin3 p a /\ vmax3 p (withW a u) = vmax3 p a.
Proof. intros F S p a b u v. vec. destruct p; repeat split; reflexivity. Qed.
(** the SIMD versions are the plain ones, in any arithmetic, on the paths that fall back to them *)
Lemma fallback : forall (F : Type) (S : Scalar F) (a b : vec4 F),
  dot3 GEN a b = dotp3 (xyz a) (xyz b) /\ dot4 GEN a b = dotp4 a b /\ dot3 SSE2 a b = dotp3 (xyz a) (xyz b) /\
  dot4 SSE2 a b = dotp4 a b /\ xyz (cross3 GEN a b) = crossp (xyz a) (xyz b) /\
  xyz (normalize3 GEN a) = normalizep3 (xyz a) /\ normalize4 GEN a = normalizep4 a.
Proof. intros. vec. repeat split; reflexivity. Qed.
