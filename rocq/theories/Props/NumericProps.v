(** C69 - C75, C97 - C99: numeric helpers, colour spaces, angles, ggx.  Scalars are exact reals or
    binary32; powers are real powers ([PowR]).  [fin x] says the binary32 value is finite and
    [val x] is its value; [rnd] rounds to nearest binary32. *)
From Coq Require Import ZArith Reals Bool List Lia Lra.
From Flocq Require Import Core.Core IEEE754.BinarySingleNaN IEEE754.Binary IEEE754.Bits.
From Verif.Model Require Import Outcome Scalar Vec Simd Matrix Numeric.
From Verif.Spec Require Import OrderSpec GeomSpec NumericSpec.
From Verif.Proofs Require Import OrdScalar F32Round F32Err BitReverse NumericProofs LerpProofs GainProofs SrgbProofs PiBounds.
Local Open Scope R_scope.

(** ** C69 *)

Theorem C69_reversal : forall n, u32 n -> reversal32 n (reverseBits n).
Proof. exact reverse_spec. Qed.
Print Assumptions C69_reversal.

Theorem C69_reversal_unique : forall n r s, reversal32 n r -> reversal32 n s -> r = s.
Proof. exact reversal_unique. Qed.
Print Assumptions C69_reversal_unique.

Theorem C69_distinct : forall a b, u32 a -> u32 b -> reverseBits a = reverseBits b -> a = b.
Proof. exact reverse_distinct. Qed.
Print Assumptions C69_distinct.

Theorem C69_exact : forall i n, u32 i -> u32 n -> (i < n)%Z ->
  let h := hammersley i (1 / IZR n) in
  x2 h = IZR i / IZR n /\ y2 h = IZR (reverseBits i) / 4294967296 /\
  reversal32 i (reverseBits i) /\ 0 <= x2 h < 1 /\ 0 <= y2 h < 1.
Proof. exact hammersley_real. Qed.
Print Assumptions C69_exact.

Theorem C69_refuted : exists i n : Z, u32 i /\ u32 n /\ (i < n)%Z /\
  forall inv : f32, seq (y2 (hammersley i inv)) f1 = true.
Proof. exact hammersley_top. Qed.
Print Assumptions C69_refuted.

Theorem C69_nearest : forall i (inv : f32), u32 i ->
  fin (y2 (hammersley i inv)) /\
  val (y2 (hammersley i inv)) = rnd (IZR (reverseBits i)) * bpow radix2 (-32) /\
  0 <= val (y2 (hammersley i inv)) <= 1.
Proof. exact hammersley_y. Qed.
Print Assumptions C69_nearest.

Theorem C69_actual : forall i (inv : f32), (0 <= i < 2 ^ 24)%Z ->
  val (y2 (hammersley i inv)) = IZR (reverseBits i) / 4294967296 /\ 0 <= val (y2 (hammersley i inv)) < 1.
Proof. exact hammersley_small. Qed.
Print Assumptions C69_actual.

Theorem C69_actual_distinct : forall i j (inv : f32), (0 <= i < 2 ^ 24)%Z -> (0 <= j < 2 ^ 24)%Z -> i <> j ->
  val (y2 (hammersley i inv)) <> val (y2 (hammersley j inv)).
Proof. exact hammersley_distinct. Qed.
Print Assumptions C69_actual_distinct.

Theorem C69_actual_first : forall i n, (0 <= i < n)%Z -> (n <= 2 ^ 23)%Z ->
  let inv := (f1 / slit n 0 : f32)%sc in
  fin (x2 (hammersley i inv)) /\ 0 <= val (x2 (hammersley i inv)) < 1.
Proof. exact hammersley_x. Qed.
Print Assumptions C69_actual_first.

Example C69_ex : u32 6 /\ reverseBits 6 = (3 * 2 ^ 29)%Z /\ (0 <= 6 < 1000)%Z /\ (1000 <= 2 ^ 23)%Z.
Proof. unfold u32. repeat split; try lia; reflexivity. Qed.

(** ** C70 *)

Theorem C70_refuted : exists v : f32, fin v /\ val (repeatS v) = 1 /\ val v = -1.
Proof. exact repeat_minus1. Qed.
Print Assumptions C70_refuted.

Theorem C70_tiny_refuted : let v : f32 := b32_lit (-1) (-60) in fin v /\ seq (repeatS v) f1 = true /\ seq (repeatLane v) f1 = true.
Proof. exact repeat_tiny. Qed.
Print Assumptions C70_tiny_refuted.

Theorem C70_actual : forall v : f32, fin v ->
  fin (repeatS v) /\ fin (repeatLane v) /\ val (repeatLane v) = val (repeatS v) /\
  (0 <= val v -> 0 <= val (repeatS v) < 1 /\ integerApart (val v) (val (repeatS v))) /\
  (val v < 0 -> 0 <= val (repeatS v) <= 1 /\
     exists y, integerApart (val v) y /\ Rabs (val (repeatS v) - y) <= / 8388608).
Proof. exact repeat_f32. Qed.
Print Assumptions C70_actual.

Theorem C70_exact : forall v : R,
  repeatLane v = repeatS v /\ 0 <= repeatS v <= 1 /\ integerApart v (repeatS v) /\
  (repeatS v = 1 <-> v < 0 /\ exists n : Z, v = IZR n).
Proof. exact repeat_real. Qed.
Print Assumptions C70_exact.

Example C70_ex : fin (b32_lit (-11) (-2)) /\ seq (repeatS (b32_lit (-11) (-2))) (b32_lit 1 (-2)) = true /\
  seq (repeatLane (b32_lit 11 (-2))) (b32_lit 3 (-2)) = true.
Proof. vm_compute. repeat split. Qed.

(** ** C71 *)

Theorem C71_exact : forall a b t : R,
  lerpS a b 0 = a /\ lerpS a b 1 = b /\ lerpLane a b t = lerpS a b t /\
  (unit t -> between a b (lerpS a b t)).
Proof. exact lerp_real. Qed.
Print Assumptions C71_exact.

Theorem C71_exact_mono : forall a b t t' : R, a <= b -> t <= t' -> lerpS a b t <= lerpS a b t'.
Proof. exact lerp_mono. Qed.
Print Assumptions C71_exact_mono.

Theorem C71_simd : forall (F : Type) (S : Scalar F) (a b : vec4 F) t, vlerp a b t = lerp4 a b t.
Proof. exact vlerp_lanes. Qed.
Print Assumptions C71_simd.

Theorem C71_end1_refuted : let a := b32_lit 1 0 in let b := b32_lit 1 (-30) in
  fin a /\ fin b /\ seq (lerpS a b f1) f0 = true /\ slt f0 b = true /\ slt b a = true.
Proof. exact lerpS_end1_wrong. Qed.
Print Assumptions C71_end1_refuted.

Theorem C71_end0_refuted : let a := b32_lit (-3) 126 in let b := b32_lit 3 126 in
  fin a /\ fin b /\ snan (lerpS a b f0) = true.
Proof. exact lerpS_end0_wrong. Qed.
Print Assumptions C71_end0_refuted.

Theorem C71_between_refuted : let a := b32_lit 13684099 (-23) in let t := b32_lit 11265529 (-24) in
  fin a /\ fin t /\ slt f0 t = true /\ slt t f1 = true /\ slt (lerpLane a a t) a = true.
Proof. exact lerpLane_not_between. Qed.
Print Assumptions C71_between_refuted.

Theorem C71_vector_ends : forall a b t : f32, fin a -> fin b -> fin t ->
  (val t = 0 -> fin (lerpLane a b t) /\ val (lerpLane a b t) = val a) /\
  (val t = 1 -> fin (lerpLane a b t) /\ val (lerpLane a b t) = val b).
Proof. exact lerpLane_ends. Qed.
Print Assumptions C71_vector_ends.

Theorem C71_scalar_error : forall (M : R) (a b t : f32), big M -> fin a -> fin b -> fin t ->
  Rabs (val a) <= M -> Rabs (val b) <= M -> unit (val t) ->
  fin (lerpS a b t) /\ Rabs (val (lerpS a b t) - (val a + val t * (val b - val a))) <= 10 * (u24 * M).
Proof. exact lerpS_err. Qed.
Print Assumptions C71_scalar_error.

Theorem C71_vector_error : forall (M : R) (a b t : f32), big M -> fin a -> fin b -> fin t ->
  Rabs (val a) <= M -> Rabs (val b) <= M -> unit (val t) ->
  fin (lerpLane a b t) /\ Rabs (val (lerpLane a b t) - (val a + val t * (val b - val a))) <= 10 * (u24 * M).
Proof. exact lerpLane_err. Qed.
Print Assumptions C71_vector_error.

Example C71_ex : big 3 /\ u24 = / 16777216 /\ fin (b32_lit 3 0) /\ fin (b32_lit 1 (-2)) /\
  seq (lerpS (b32_lit 3 0) (b32_lit (-1) 0) (b32_lit 1 (-2))) (b32_lit 2 0) = true /\
  seq (lerpLane (b32_lit 3 0) (b32_lit (-1) 0) (b32_lit 1 (-2))) (b32_lit 2 0) = true.
Proof.
  split; [|split; [exact u24_val|vm_compute; repeat split]].
  split; [apply Rle_trans with (bpow radix2 0)|apply Rle_trans with (bpow radix2 2)]; try (apply bpow_le; lia); cbn; lra.
Qed.

(** ** C72 *)

Theorem C72_range : forall x k, unit x -> 0 < k -> unit (gainS x k).
Proof. exact gain_range. Qed.
Print Assumptions C72_range.

Theorem C72_fixed : forall k, 0 < k -> gainS 0 k = 0 /\ gainS (/ 2) k = / 2 /\ gainS 1 k = 1.
Proof. exact gain_fix. Qed.
Print Assumptions C72_fixed.

Theorem C72_mono : forall x y k, unit x -> unit y -> 0 < k -> x < y -> gainS x k < gainS y k.
Proof. exact gain_mono. Qed.
Print Assumptions C72_mono.

Theorem C72_inverse : forall x k, unit x -> 0 < k -> gainS (gainS x k) (1 / k) = x.
Proof. exact gain_inverse. Qed.
Print Assumptions C72_inverse.

Theorem C72_symmetric : forall x k, unit x -> 0 < k -> gainS (1 - x) k = 1 - gainS x k.
Proof. exact gain_sym. Qed.
Print Assumptions C72_symmetric.

Theorem C72_quadratic : forall x, 0 <= x < / 2 -> gainS x 2 = 2 * (x * x).
Proof. exact gain_two. Qed.
Print Assumptions C72_quadratic.

Theorem C72_vector : forall x k : R, gainLane x k = gainS x k.
Proof. exact gain_eq. Qed.
Print Assumptions C72_vector.

Example C72_ex : unit (/ 4) /\ unit (3 / 4) /\ gainS (/ 4) 2 = / 8.
Proof. unfold unit. split; [lra|]. split; [lra|]. rewrite gain_two by lra. lra. Qed.

(** ** C73 *)

Theorem C73_lanes : forall (F : Type) (S : Scalar F) (P : Pow F) p (v : vec4 F),
  rgbToSrgb p v = V4 (toSrgbLane p (vx v)) (toSrgbLane p (vy v)) (toSrgbLane p (vz v)) (vw v) /\
  srgbToRgb v = V4 (toRgbLane (vx v)) (toRgbLane (vy v)) (toRgbLane (vz v)) (vw v).
Proof. exact srgb_lanes. Qed.
Print Assumptions C73_lanes.

Theorem C73_roundtrip : forall p (v : vec4 R), awayFromSeam (vx v) -> awayFromSeam (vy v) -> awayFromSeam (vz v) ->
  srgbToRgb (rgbToSrgb p v) = v.
Proof. exact srgb_vec_roundtrip. Qed.
Print Assumptions C73_roundtrip.

Theorem C73_roundtrip_seam : forall p x, 3361671 / 1073741824 < x -> x < 3131 / 1000000 ->
  Rabs (toRgbLane (toSrgbLane p x) - x) <= 1 / 1000000.
Proof. exact srgb_roundtrip_seam. Qed.
Print Assumptions C73_roundtrip_seam.

Theorem C73_back : forall p y, y <= 6773801 / 524288 * (3361671 / 1073741824) \/ 5429107 / 134217728 < y ->
  toSrgbLane p (toRgbLane y) = y.
Proof. exact rgb_roundtrip. Qed.
Print Assumptions C73_back.

Theorem C73_linear_mono : forall y y', y <= y' -> toRgbLane y <= toRgbLane y'.
Proof. exact toRgb_mono. Qed.
Print Assumptions C73_linear_mono.

Theorem C73_srgb_mono_refuted : exists x y, unit x /\ unit y /\ x < y /\ forall p, toSrgbLane p y < toSrgbLane p x.
Proof. exact toSrgb_not_mono. Qed.
Print Assumptions C73_srgb_mono_refuted.

Theorem C73_srgb_mono_actual : forall p x x', x <= x' ->
  x' <= 3361671 / 1073741824 \/ 3361671 / 1073741824 < x \/ 3131 / 1000000 <= x' ->
  toSrgbLane p x <= toSrgbLane p x'.
Proof. exact toSrgb_mono. Qed.
Print Assumptions C73_srgb_mono_actual.

Theorem C73_range : forall p x, unit x -> unit (toSrgbLane p x).
Proof. exact srgb_range. Qed.
Print Assumptions C73_range.

Theorem C73_meaning : forall p x, (x <= 3361671 / 1073741824 -> toSrgbLane p x = x * (6773801 / 524288)) /\
  (3361671 / 1073741824 < x ->
     toSrgbLane p x = Rpower x (1 / (5033165 / 2097152)) * (8849981 / 8388608) - 7381975 / 134217728).
Proof. exact srgb_meaning. Qed.
Print Assumptions C73_meaning.

Example C73_ex : awayFromSeam (1 / 1000) /\ awayFromSeam (1 / 2) /\
  3361671 / 1073741824 < 31309 / 10000000 < 3131 / 1000000 /\ 5429107 / 134217728 < / 2.
Proof. unfold awayFromSeam. repeat split; lra. Qed.

(** ** C74 *)

Theorem C74_yxy : forall p (c : vec4 R), vx c + vy c + vz c <> 0 -> vy c <> 0 ->
  eq3 (yxyToXyz (xyzToYxy p c)) c.
Proof. exact yxy_roundtrip. Qed.
Print Assumptions C74_yxy.

Theorem C74_xyz : forall p (c : vec4 R), vx c <> 0 -> vz c <> 0 ->
  eq3 (xyzToYxy p (yxyToXyz c)) c.
Proof. exact yxy_roundtrip'. Qed.
Print Assumptions C74_xyz.

Theorem C74_rgb : forall p (c : vec4 R),
  near3 (21 / 100000000 * abs1 c) (xyzToRgb p (rgbToXyz p c)) c /\
  near3 (21 / 100000000 * abs1 c) (rgbToXyz p (xyzToRgb p c)) c.
Proof. exact xyz_rgb_near. Qed.
Print Assumptions C74_rgb.

Theorem C74_luminance : forall p (c : vec4 R), Rabs (vy (rgbToXyz p c) -
  (2126 / 10000 * vx c + 7152 / 10000 * vy c + 722 / 10000 * vz c)) <= / 10000 * abs1 c.
Proof. exact luminance. Qed.
Print Assumptions C74_luminance.

Example C74_ex : let c := V4 (/ 4) (/ 2) 1 0 in vx c + vy c + vz c <> 0 /\ vy c <> 0 /\ vx c <> 0 /\ vz c <> 0 /\
  abs1 c = 7 / 4.
Proof. cbn. unfold abs1. cbn. repeat split; try lra. rewrite !Rabs_right; lra. Qed.

(** ** C75 *)

Theorem C75_inverse : forall x : R, degreesS (radiansS x) = x /\ radiansS (degreesS x) = x /\
  degreesLane (radiansLane x) = x /\ radiansLane (degreesLane x) = x /\
  radiansLane x = radiansS x /\ degreesLane x = degreesS x.
Proof. exact angles_inverse. Qed.
Print Assumptions C75_inverse.

Theorem C75_halfturn : radiansS 180 = 13176795 / 4194304.
Proof. exact radians_180. Qed.
Print Assumptions C75_halfturn.

Theorem C75_pi : Rabs (13176795 / 4194304 - PI) <= / 8000000.
Proof. exact pi_close. Qed.
Print Assumptions C75_pi.

Example C75_ex : radiansS (90 : R) = 13176795 / 8388608.
Proof. destruct (angles_inverse 90) as (_ & _ & _ & _ & E & _). pose proof radians_180 as H.
  unfold radiansS in *. cbn [smul ScalarR] in *. lra. Qed.

(** ** C97 *)

Theorem C97_compose : forall a b f dt1 dt2, 0 <= f -> 0 < dt1 -> 0 < dt2 ->
  lerpDelta (lerpDelta a b f dt1) b f dt2 = lerpDelta a b f (dt1 + dt2).
Proof. exact lerpDelta_compose. Qed.
Print Assumptions C97_compose.

Theorem C97_rate : forall a b f n, 0 < f -> b - lerpDelta a b f (INR n) = f ^ n * (b - a).
Proof. exact lerpDelta_rate. Qed.
Print Assumptions C97_rate.

Theorem C97_still : forall a b f, 0 < f -> lerpDelta a b f 0 = a.
Proof. exact lerpDelta_zero. Qed.
Print Assumptions C97_still.

Theorem C97_between : forall a b f dt, unit f -> 0 < dt -> between a b (lerpDelta a b f dt).
Proof. exact lerpDelta_between. Qed.
Print Assumptions C97_between.

Theorem C97_ends : forall a b dt, 0 < dt -> lerpDelta a b 0 dt = b /\ lerpDelta a b 1 dt = a.
Proof. exact lerpDelta_ends. Qed.
Print Assumptions C97_ends.

Example C97_ex : unit (/ 2) /\ lerpDelta 0 8 (/ 2) (INR 3) = 7.
Proof. unfold unit. split; [lra|]. pose proof (lerpDelta_rate 0 8 (/ 2) 3 ltac:(lra)). lra. Qed.

(** ** C98 *)

Theorem C98_refuted : forall (P : Pow f32), (forall y : f32, spow f1 y = (f1 : f32)) -> forall p,
  slt (toSrgbLane p (f1 : f32)) f1 = true /\ seq (toSrgbLane p (f1 : f32)) (slit 16777215 (-24)) = true.
Proof. exact white_not_white. Qed.
Print Assumptions C98_refuted.

Theorem C98_back : forall (P : Pow f32), (forall y : f32, spow f1 y = (f1 : f32)) ->
  seq (toRgbLane (f1 : f32)) f1 = true.
Proof. exact white_back. Qed.
Print Assumptions C98_back.

Theorem C98_black : forall (P : Pow f32) p,
  seq (toSrgbLane p (f0 : f32)) f0 = true /\ seq (toRgbLane (f0 : f32)) f0 = true.
Proof. exact black_black. Qed.
Print Assumptions C98_black.

Example C98_ex : exists P : Pow f32, forall y : f32, @spow f32 P f1 y = f1.
Proof. exists {| spow := fun x _ => x |}. reflexivity. Qed.

(** ** C99 *)

Theorem C99_ggx : forall n a : R, ggx n a = a * a / (13176795 / 4194304 * ((a * a - 1) * (n * n) + 1) * ((a * a - 1) * (n * n) + 1)).
Proof. exact ggx_formula. Qed.
Print Assumptions C99_ggx.

Theorem C99_positive : forall n a : R, -1 <= n <= 1 -> a <> 0 -> 0 < (a * a - 1) * (n * n) + 1 /\ 0 < ggx n a.
Proof. exact ggx_pos. Qed.
Print Assumptions C99_positive.

Theorem C99_peak : forall n n' a : R, 0 < a <= 1 -> 0 <= n <= n' -> n' <= 1 -> ggx n a <= ggx n' a.
Proof. exact ggx_mono. Qed.
Print Assumptions C99_peak.

Theorem C99_reflectance : forall n : R, n <> -1 ->
  iorToReflectance n = Rabs ((n - 1) / (n + 1)) / sqrt (5368709 / 33554432) /\
  Rabs (5368709 / 33554432 - 0.16) < / 10 ^ 8.
Proof. exact iorR. Qed.
Print Assumptions C99_reflectance.

Example C99_ex : 0 < / 2 <= 1 /\ 0 <= / 3 <= 1 /\ ggx (1 : R) 1 = 4194304 / 13176795.
Proof. split; [lra|]. split; [lra|]. rewrite ggx_formula. field. Qed.
