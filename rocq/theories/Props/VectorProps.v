(** C82 - C84, C100: float vectors.  Vectors are compared with lists of their components ([l2], [l3],
    [l4]; [l43] is the first three lanes).  [fin x] says the binary32 value is finite and [val x] is its
    value; [num x] excludes NaN and [ext x] orders infinities around the finite values. *)
From Coq Require Import ZArith Reals Bool List Lia Lra.
From Flocq Require Import Core.Core IEEE754.BinarySingleNaN IEEE754.Binary IEEE754.Bits.
From Verif.Model Require Import Outcome Scalar Vec Simd Lanes.
From Verif.Spec Require Import VecSpec LaneSpec.
From Verif.Proofs Require Import OrdScalar F32Round F32Err VecProofs LaneProofs.
Import ListNotations.
Local Open Scope R_scope.

(** ** C82 *)

Theorem C82_dot : forall (a2 b2 : vec2 R) (a3 b3 : vec3 R) (a4 b4 : vec4 R),
  dotp2 a2 b2 = dotL (l2 a2) (l2 b2) /\ dotp3 a3 b3 = dotL (l3 a3) (l3 b3) /\ dotp4 a4 b4 = dotL (l4 a4) (l4 b4).
Proof. exact dot_plain. Qed.
Print Assumptions C82_dot.

Theorem C82_dot_simd : forall p (a b : vec4 R), dot3 p a b = dotL (l43 a) (l43 b) /\ dot4 p a b = dotL (l4 a) (l4 b).
Proof. exact dot_simd. Qed.
Print Assumptions C82_dot_simd.

Theorem C82_dot_symmetric : forall a b, dotL a b = dotL b a.
Proof. exact dotL_comm. Qed.
Print Assumptions C82_dot_symmetric.

Theorem C82_dot_linear : forall a b c, length a = length b -> dotL (addL a b) c = dotL a c + dotL b c.
Proof. exact dotL_add. Qed.
Print Assumptions C82_dot_linear.

Theorem C82_dot_homogeneous : forall k a c, dotL (scaleL k a) c = k * dotL a c.
Proof. exact dotL_scale. Qed.
Print Assumptions C82_dot_homogeneous.

Theorem C82_cauchy_schwarz : forall a b, dotL a b * dotL a b <= dotL a a * dotL b b.
Proof. exact cauchyL. Qed.
Print Assumptions C82_cauchy_schwarz.

Theorem C82_cross : forall a b : vec3 R, l3 (crossp a b) = crossL (l3 a) (l3 b).
Proof. exact cross_plain. Qed.
Print Assumptions C82_cross.

Theorem C82_cross_simd : forall p (a b : vec4 R), l43 (cross3 p a b) = crossL (l43 a) (l43 b).
Proof. exact cross_simd. Qed.
Print Assumptions C82_cross_simd.

Theorem C82_cross_facts : forall a b : vec3 R,
  crossp a b = neg3 (crossp b a) /\ dotp3 a (crossp a b) = 0 /\ dotp3 b (crossp a b) = 0 /\
  dotp3 (crossp a b) (crossp a b) = dotp3 a a * dotp3 b b - dotp3 a b * dotp3 a b.
Proof. exact cross_facts. Qed.
Print Assumptions C82_cross_facts.

Theorem C82_length : forall (a2 : vec2 R) (a3 : vec3 R) (a4 : vec4 R),
  lengthp2 a2 = normL (l2 a2) /\ lengthp3 a3 = normL (l3 a3) /\ lengthp4 a4 = normL (l4 a4) /\
  lengthSqp2 a2 = dotL (l2 a2) (l2 a2) /\ lengthSqp3 a3 = dotL (l3 a3) (l3 a3) /\ lengthSqp4 a4 = dotL (l4 a4) (l4 a4).
Proof. exact length_plain. Qed.
Print Assumptions C82_length.

Theorem C82_length_simd : forall p (a : vec4 R),
  length3 p a = normL (l43 a) /\ length4 p a = normL (l4 a) /\
  lengthSq3 p a = dotL (l43 a) (l43 a) /\ lengthSq4 p a = dotL (l4 a) (l4 a).
Proof. exact length_simd. Qed.
Print Assumptions C82_length_simd.

Theorem C82_norm_zero : forall a, normL a = 0 <-> zeroL a.
Proof. exact normL_zero. Qed.
Print Assumptions C82_norm_zero.

Theorem C82_norm_homogeneous : forall k a, normL (scaleL k a) = Rabs k * normL a.
Proof. exact normL_scale. Qed.
Print Assumptions C82_norm_homogeneous.

Theorem C82_norm_triangle : forall a b, length a = length b -> normL (addL a b) <= normL a + normL b.
Proof. exact normL_triangle. Qed.
Print Assumptions C82_norm_triangle.

Theorem C82_distance : forall (a2 b2 : vec2 R) (a3 b3 : vec3 R) (a4 b4 : vec4 R),
  distancep2 a2 b2 = normL (subL (l2 a2) (l2 b2)) /\ distancep3 a3 b3 = normL (subL (l3 a3) (l3 b3)) /\
  distancep4 a4 b4 = normL (subL (l4 a4) (l4 b4)) /\
  distanceSqp2 a2 b2 = Rsqr (normL (subL (l2 a2) (l2 b2))) /\ distanceSqp3 a3 b3 = Rsqr (normL (subL (l3 a3) (l3 b3))) /\
  distanceSqp4 a4 b4 = Rsqr (normL (subL (l4 a4) (l4 b4))).
Proof. exact distance_plain. Qed.
Print Assumptions C82_distance.

Theorem C82_distance_simd : forall p (a b : vec4 R),
  distancev3 p a b = normL (subL (l43 a) (l43 b)) /\ distancev4 p a b = normL (subL (l4 a) (l4 b)) /\
  distanceSq3 p a b = Rsqr (normL (subL (l43 a) (l43 b))) /\ distanceSq4 p a b = Rsqr (normL (subL (l4 a) (l4 b))).
Proof. exact distance_simd. Qed.
Print Assumptions C82_distance_simd.

Theorem C82_normalize : forall (a2 : vec2 R) (a3 : vec3 R) (a4 : vec4 R),
  (~ zeroL (l2 a2) -> unitOf (l2 a2) (l2 (normalizep2 a2))) /\
  (~ zeroL (l3 a3) -> unitOf (l3 a3) (l3 (normalizep3 a3))) /\
  (~ zeroL (l4 a4) -> unitOf (l4 a4) (l4 (normalizep4 a4))).
Proof. exact normalize_plain. Qed.
Print Assumptions C82_normalize.

Theorem C82_normalize_simd : forall p (a : vec4 R),
  (~ zeroL (l43 a) -> unitOf (l43 a) (l43 (normalize3 p a))) /\
  (~ zeroL (l4 a) -> unitOf (l4 a) (l4 (normalize4 p a))).
Proof. exact normalize_simd. Qed.
Print Assumptions C82_normalize_simd.

(** bit-exact, for every scalar type *)

Theorem C82_fourth_lane : forall (F : Type) (S : Scalar F) p (a b : vec4 F) u v,
  dot3 p (withW a u) (withW b v) = dot3 p a b /\
  lengthSq3 p (withW a u) = lengthSq3 p a /\ length3 p (withW a u) = length3 p a /\
  distanceSq3 p (withW a u) (withW b v) = distanceSq3 p a b /\
  distancev3 p (withW a u) (withW b v) = distancev3 p a b /\
  isNormalized3 p (withW a u) = isNormalized3 p a /\
  cross3 p (withW a u) (withW b v) = cross3 p a b /\
  xyz (normalize3 p (withW a u)) = xyz (normalize3 p a) /\
  vmin3 p (withW a u) = vmin3 p a /\ vmax3 p (withW a u) = vmax3 p a.
Proof. exact fourth_lane. Qed.
Print Assumptions C82_fourth_lane.

Theorem C82_fallback : forall (F : Type) (S : Scalar F) (a b : vec4 F),
  dot3 GEN a b = dotp3 (xyz a) (xyz b) /\ dot4 GEN a b = dotp4 a b /\ dot3 SSE2 a b = dotp3 (xyz a) (xyz b) /\
  dot4 SSE2 a b = dotp4 a b /\ xyz (cross3 GEN a b) = crossp (xyz a) (xyz b) /\
  xyz (normalize3 GEN a) = normalizep3 (xyz a) /\ normalize4 GEN a = normalizep4 a.
Proof. exact fallback. Qed.
Print Assumptions C82_fallback.

Example C82_example : ~ zeroL (l43 (V4 3 4 0 7)) /\ dotL (l3 (V3 1 2 3)) (l3 (V3 4 5 6)) = 32 /\
  crossL (l3 (V3 1 0 0)) (l3 (V3 0 1 0)) = l3 (V3 0 0 1) /\ length (l3 (V3 1 2 3)) = length (l3 (V3 4 5 6)).
Proof.
  split; [|split; [|split]].
  - intros H. cbn in H. inversion H. lra.
  - cbn. ring.
  - unfold l3; cbn [x3 y3 z3]. repeat (apply cons_eq; [ring|]); reflexivity.
  - reflexivity.
Qed.

(** ** C83 *)

Theorem C83_min : forall p (a b : vec4 f32), nums (l4 a) -> nums (l4 b) ->
  lanewise (fun x y r => isLeast [x; y] r) (l4 a) (l4 b) (l4 (vmin p a b)).
Proof. exact min_lanes. Qed.
Print Assumptions C83_min.

Theorem C83_max : forall p (a b : vec4 f32), nums (l4 a) -> nums (l4 b) ->
  lanewise (fun x y r => isGreatest [x; y] r) (l4 a) (l4 b) (l4 (vmax p a b)).
Proof. exact max_lanes. Qed.
Print Assumptions C83_max.

Theorem C83_min_plain : forall (a b : vec4 f32) (c d : vec3 f32) (e f : vec2 f32),
  nums (l4 a ++ l4 b ++ l3 c ++ l3 d ++ l2 e ++ l2 f) ->
  lanewise (fun x y r => isLeast [x; y] r) (l4 a) (l4 b) (l4 (minp4 a b)) /\
  lanewise (fun x y r => isLeast [x; y] r) (l3 c) (l3 d) (l3 (minp3 c d)) /\
  lanewise (fun x y r => isLeast [x; y] r) (l2 e) (l2 f) (l2 (minp2 e f)).
Proof. exact plain_min. Qed.
Print Assumptions C83_min_plain.

Theorem C83_max_plain : forall (a b : vec4 f32) (c d : vec3 f32) (e f : vec2 f32),
  nums (l4 a ++ l4 b ++ l3 c ++ l3 d ++ l2 e ++ l2 f) ->
  lanewise (fun x y r => isGreatest [x; y] r) (l4 a) (l4 b) (l4 (maxp4 a b)) /\
  lanewise (fun x y r => isGreatest [x; y] r) (l3 c) (l3 d) (l3 (maxp3 c d)) /\
  lanewise (fun x y r => isGreatest [x; y] r) (l2 e) (l2 f) (l2 (maxp2 e f)).
Proof. exact plain_max. Qed.
Print Assumptions C83_max_plain.

Theorem C83_min4 : forall p (v : vec4 f32), nums (l4 v) -> isLeast (l4 v) (vmin4 p v).
Proof. exact min4_least. Qed.
Print Assumptions C83_min4.

Theorem C83_max4 : forall p (v : vec4 f32), nums (l4 v) -> isGreatest (l4 v) (vmax4 p v).
Proof. exact max4_greatest. Qed.
Print Assumptions C83_max4.

Theorem C83_min3 : forall p (v : vec4 f32), nums (l43 v) -> isLeast (l43 v) (vmin3 p v).
Proof. exact min3_least. Qed.
Print Assumptions C83_min3.

Theorem C83_max3 : forall p (v : vec4 f32), nums (l43 v) -> isGreatest (l43 v) (vmax3 p v).
Proof. exact max3_greatest. Qed.
Print Assumptions C83_max3.

Theorem C83_three_arguments : forall a b c : f32, num a -> num b -> num c ->
  isLeast [a; b; c] (min3f a b c) /\ isGreatest [a; b; c] (max3f a b c).
Proof. exact scalar3. Qed.
Print Assumptions C83_three_arguments.

Theorem C83_clamp : forall p (v lo hi : vec4 f32), nums (l4 v) -> nums (l4 lo) -> nums (l4 hi) -> ordered (l4 lo) (l4 hi) ->
  lanewise4 clamped (l4 v) (l4 lo) (l4 hi) (l4 (vclamp p v lo hi)).
Proof. exact clamp_lanes. Qed.
Print Assumptions C83_clamp.

Theorem C83_clamp_idempotent : forall p (v lo hi : vec4 f32), nums (l4 v) -> nums (l4 lo) -> nums (l4 hi) -> ordered (l4 lo) (l4 hi) ->
  vclamp p (vclamp p v lo hi) lo hi = vclamp p v lo hi.
Proof. exact clamp_idem. Qed.
Print Assumptions C83_clamp_idempotent.

Theorem C83_clamp_scalar : forall v lo hi : f32, num v -> num lo -> num hi ->
  (ext lo <= ext hi -> exists r, clampS v lo hi = Ok r /\ clamped v lo hi r) /\
  (ext hi < ext lo -> clampS v lo hi = UB).
Proof. exact clampS_ok. Qed.
Print Assumptions C83_clamp_scalar.

Theorem C83_clamp_scalar_idempotent : forall v lo hi r : f32, num v -> num lo -> num hi ->
  clampS v lo hi = Ok r -> clampS r lo hi = Ok r.
Proof. exact clampS_idem. Qed.
Print Assumptions C83_clamp_scalar_idempotent.

Theorem C83_clamp_plain4 : forall v lo hi : vec4 f32, nums (l4 v) -> nums (l4 lo) -> nums (l4 hi) -> ordered (l4 lo) (l4 hi) ->
  exists r, clamp4 v lo hi = Ok r /\ lanewise4 clamped (l4 v) (l4 lo) (l4 hi) (l4 r).
Proof. exact clamp_vectors. Qed.
Print Assumptions C83_clamp_plain4.

Theorem C83_clamp_plain3 : forall v lo hi : vec3 f32, nums (l3 v) -> nums (l3 lo) -> nums (l3 hi) -> ordered (l3 lo) (l3 hi) ->
  exists r, clamp3 v lo hi = Ok r /\ lanewise4 clamped (l3 v) (l3 lo) (l3 hi) (l3 r).
Proof. exact clamp_vectors3. Qed.
Print Assumptions C83_clamp_plain3.

Theorem C83_clamp_plain2 : forall v lo hi : vec2 f32, nums (l2 v) -> nums (l2 lo) -> nums (l2 hi) -> ordered (l2 lo) (l2 hi) ->
  exists r, clamp2 v lo hi = Ok r /\ lanewise4 clamped (l2 v) (l2 lo) (l2 hi) (l2 r).
Proof. exact clamp_vectors2. Qed.
Print Assumptions C83_clamp_plain2.

Theorem C83_select : forall A (c : vec4 Z) (t f : vec4 A) i, (0 <= i < 4)%Z ->
  lane (select4 c t f) i = if Z.testbit (lane c i) 31 then lane t i else lane f i.
Proof. exact select_lanes. Qed.
Print Assumptions C83_select.

Theorem C83_select_masks : forall A (b0 b1 b2 b3 : bool) (t f : vec4 A),
  select4 (V4 (maskOf b0) (maskOf b1) (maskOf b2) (maskOf b3)) t f =
  V4 (if b0 then vx t else vx f) (if b1 then vy t else vy f) (if b2 then vz t else vz f) (if b3 then vw t else vw f).
Proof. exact select_compare. Qed.
Print Assumptions C83_select_masks.

Theorem C83_select_short : forall A (b0 b1 b2 : bool) (t f : vec3 A) (t2 f2 : vec2 A),
  select3 (V3 (maskOf b0) (maskOf b1) (maskOf b2)) t f =
    V3 (if b0 then x3 t else x3 f) (if b1 then y3 t else y3 f) (if b2 then z3 t else z3 f) /\
  select2 (V2 (maskOf b0) (maskOf b1)) t2 f2 = V2 (if b0 then x2 t2 else x2 f2) (if b1 then y2 t2 else y2 f2).
Proof. exact select_short. Qed.
Print Assumptions C83_select_short.

Example C83_example : let v := V4 (slit 3 0) (sneg f0) (slit (-7) (-2)) (B754_infinity 24 128 false) : vec4 f32 in
  nums (l4 v) /\ ordered (l4 v) (l4 v) /\ seq (vmin4 SSE41 v) (slit (-7) (-2)) = true /\ seq (vmax3 NEON v) (slit 3 0) = true.
Proof.
  cbv zeta. split; [repeat (apply Forall_cons; [vm_compute; reflexivity|]); apply Forall_nil|].
  split; [repeat (apply Forall2_cons; [apply Rle_refl|]); apply Forall2_nil|].
  split; vm_compute; reflexivity.
Qed.

(** ** C84 *)

Theorem C84_sign : forall p (v : vec4 f32) (v3 : vec3 f32) (v2 : vec2 f32),
  l4 (signV p v) = map signOf (l4 v) /\ l4 (sign4 v) = map signOf (l4 v) /\
  l3 (sign3 v3) = map signOf (l3 v3) /\ l2 (sign2 v2) = map signOf (l2 v2).
Proof. exact sign_vectors. Qed.
Print Assumptions C84_sign.

Theorem C84_signBits : forall (v : vec4 f32) (v3 : vec3 f32) (v2 : vec2 f32),
  packedBits (map (Bsign 24 128) (l4 v)) (signBits4 v) /\
  packedBits (map (Bsign 24 128) (l3 v3)) (signBits3 v3) /\
  packedBits (map (Bsign 24 128) (l2 v2)) (signBits2 v2).
Proof. exact sign_bits_spec. Qed.
Print Assumptions C84_signBits.

Theorem C84_signBits_simd : forall p (v : vec4 f32), packedBits (map (Bsign 24 128) (l4 v)) (signBitsV p v).
Proof. exact sign_bits_simd. Qed.
Print Assumptions C84_signBits_simd.

Theorem C84_abs : forall v : f32, num v -> ext (absSse v) = Rabs (ext v) /\ Bsign 24 128 (absSse v) = false.
Proof. exact abs_value. Qed.
Print Assumptions C84_abs.

Theorem C84_one : val (f1 : f32) = 1 /\ val (slit (-1) 0 : f32) = -1.
Proof. exact one_values. Qed.
Print Assumptions C84_one.

Example C84_example : let v := V4 (slit 3 0) (sneg f0) (slit (-7) (-2)) (B754_infinity 24 128 true) : vec4 f32 in
  signBitsV NEON v = 14%Z /\ signBitsV SSE2 v = 14%Z /\ signBits4 v = 14%Z /\ seq (signLane SSE41 (vy v)) (slit (-1) 0) = true.
Proof. repeat split; vm_compute; reflexivity. Qed.

(** ** C100 *)

Theorem C100_floor_ceil_trunc : forall p (v : f32), fin v ->
  (fin (floorLane p v) /\ val (floorLane p v) = IZR (Zfloor (val v))) /\
  (fin (ceilLane p v) /\ val (ceilLane p v) = IZR (Zceil (val v))) /\
  (fin (truncLane p v) /\ val (truncLane p v) = IZR (Ztrunc (val v))) /\
  (Bsign 24 128 (floorLane p v) = Bsign 24 128 v /\ Bsign 24 128 (ceilLane p v) = Bsign 24 128 v /\
   Bsign 24 128 (truncLane p v) = Bsign 24 128 v).
Proof. exact floor_ceil_trunc. Qed.
Print Assumptions C100_floor_ceil_trunc.

Theorem C100_round_nearest : forall p (v : f32), fin v ->
  exists n, nearestInt (val v) n /\ fin (roundLane p v) /\ val (roundLane p v) = IZR n.
Proof. exact round_nearest. Qed.
Print Assumptions C100_round_nearest.

Theorem C100_ties_refuted : exists v : f32, fin v /\
  (seq (roundLane SSE41 v) f0 = true /\ seq (roundLane NEON v) f0 = true /\
   seq (roundLane SSE2 v) f1 = true /\ seq (roundLane GEN v) f1 = true /\ seq (roundS v) f1 = true).
Proof. exact round_disagree. Qed.
Print Assumptions C100_ties_refuted.

Theorem C100_ties_actual : forall p (v : f32), fin v ->
  val (roundLane p v) = IZR (match p with
    | SSE2 | GEN => Znearest (Z.leb 0) (val v)
    | _ => Znearest (fun x => negb (Z.even x)) (val v)
    end).
Proof. exact round_ties. Qed.
Print Assumptions C100_ties_actual.

Theorem C100_agree_off_half : forall p q (v : f32), fin v -> val v - IZR (Zfloor (val v)) <> / 2 ->
  roundLane p v = roundLane q v.
Proof. exact round_agree_off_half. Qed.
Print Assumptions C100_agree_off_half.

Theorem C100_special : forall p (v : f32), is_finite 24 128 v = false ->
  floorLane p v = v /\ ceilLane p v = v /\ truncLane p v = v /\ roundLane p v = v.
Proof. exact special_rounds. Qed.
Print Assumptions C100_special.

Example C100_example : seq (floorLane SSE41 (slit (-7) (-2))) (slit (-2) 0) = true /\
  seq (ceilLane GEN (slit (-7) (-2))) (slit (-1) 0) = true /\ seq (roundLane SSE41 (slit 5 (-1))) (slit 2 0) = true /\
  seq (roundLane GEN (slit 5 (-1))) (slit 3 0) = true.
Proof. repeat split; vm_compute; reflexivity. Qed.
