(** C124: comparison, equality, arithmetic, conversions and constants of the float vectors, for all
    binary32 lanes including infinities and NaN. *)
From Coq Require Import ZArith Reals Bool List.
From Flocq Require Import Core.Core IEEE754.BinarySingleNaN IEEE754.Binary IEEE754.Bits.
From Verif.Model Require Import Outcome Scalar Vec Simd IntVec FloatVec.
From Verif.Spec Require Import OrderSpec IntSpec FloatSpec.
From Verif.Proofs Require Import FloatVecProofs FloatConv.
Import ListNotations.
Local Open Scope Z_scope.

Theorem C124_compare2 : forall c a b,
  Forall3 (fun x y m => maskFor (frel c x y) m) (lanes2 a) (lanes2 b) (lanes2 (fcompare2 c a b)).
Proof. exact fcompare2_lanes. Qed.
Print Assumptions C124_compare2.

Theorem C124_compare3 : forall c a b,
  Forall3 (fun x y m => maskFor (frel c x y) m) (lanes3 a) (lanes3 b) (lanes3 (fcompare3 c a b)).
Proof. exact fcompare3_lanes. Qed.
Print Assumptions C124_compare3.

Theorem C124_compare4 : forall c a b,
  Forall3 (fun x y m => maskFor (frel c x y) m) (lanes4 a) (lanes4 b) (lanes4 (fcompare4 c a b)).
Proof. exact fcompare4_lanes. Qed.
Print Assumptions C124_compare4.

Theorem C124_compare_simd : forall c (a b : vec4 f32),
  Forall3 (fun x y m => maskFor (frel c x y) m) (lanes4 a) (lanes4 b) (lanes4 (fcompareS c a b)).
Proof. exact fcompareS_lanes. Qed.
Print Assumptions C124_compare_simd.

(** equal and notEqual of a float2 compare it with the first two lanes of a float4 *)
Theorem C124_equal_float2_actual : forall (a : vec2 f32) b,
  Forall3 (fun x y m => maskFor (frel CEq x y) m) (lanes2 a) [vx b; vy b] (lanes2 (equalF2 a b)) /\
  Forall3 (fun x y m => maskFor (frel CNe x y) m) (lanes2 a) [vx b; vy b] (lanes2 (notEqualF2 a b)).
Proof. exact equalF2_lanes. Qed.
Print Assumptions C124_equal_float2_actual.

Theorem C124_compare_number : forall c (n : f32),
  (forall v, Forall2 (fun x m => maskFor (frel c x n) m) (lanes2 v) (lanes2 (fcompareN2 c v n))) /\
  (forall v, Forall2 (fun x m => maskFor (frel c x n) m) (lanes3 v) (lanes3 (fcompareN3 c v n))) /\
  (forall v, Forall2 (fun x m => maskFor (frel c x n) m) (lanes4 v) (lanes4 (fcompareN4 c v n))) /\
  (forall v, Forall2 (fun x m => maskFor (frel c x n) m) (lanes4 v) (lanes4 (fcompareSN c v n))).
Proof. exact number_right. Qed.
Print Assumptions C124_compare_number.

Theorem C124_number_compare : forall c (n : f32),
  (forall v, Forall2 (fun x m => maskFor (frel c n x) m) (lanes2 v) (lanes2 (nfcompare2 c n v))) /\
  (forall v, Forall2 (fun x m => maskFor (frel c n x) m) (lanes3 v) (lanes3 (nfcompare3 c n v))) /\
  (forall v, Forall2 (fun x m => maskFor (frel c n x) m) (lanes4 v) (lanes4 (nfcompare4 c n v))) /\
  (forall v, Forall2 (fun x m => maskFor (frel c n x) m) (lanes4 v) (lanes4 (nfcompareS c n v))).
Proof. exact number_left. Qed.
Print Assumptions C124_number_compare.

Theorem C124_mirror : forall c,
  (forall a b : vec2 f32, fcompare2 c a b = fcompare2 (mirrored c) b a) /\
  (forall a b : vec3 f32, fcompare3 c a b = fcompare3 (mirrored c) b a) /\
  (forall a b : vec4 f32, fcompare4 c a b = fcompare4 (mirrored c) b a) /\
  (forall a b : vec4 f32, fcompareS c a b = fcompareS (mirrored c) b a) /\
  (forall n (v : vec2 f32), nfcompare2 c n v = fcompareN2 (mirrored c) v n) /\
  (forall n (v : vec3 f32), nfcompare3 c n v = fcompareN3 (mirrored c) v n) /\
  (forall n (v : vec4 f32), nfcompare4 c n v = fcompareN4 (mirrored c) v n) /\
  (forall n (v : vec4 f32), nfcompareS c n v = fcompareSN (mirrored c) v n).
Proof. exact mirror_all. Qed.
Print Assumptions C124_mirror.

Theorem C124_nan : forall c (a b : f32), denotes a = NotNumber \/ denotes b = NotNumber ->
  (frel c a b <-> c = CNe).
Proof. exact nan_lane. Qed.
Print Assumptions C124_nan.

Theorem C124_equality :
  (forall a b : vec2 f32, feq2 a b = true <-> Forall2 (frel CEq) (lanes2 a) (lanes2 b)) /\
  (forall a b : vec3 f32, feq3 a b = true <-> Forall2 (frel CEq) (lanes3 a) (lanes3 b)) /\
  (forall a b : vec4 f32, feq4 a b = true <-> Forall2 (frel CEq) (lanes4 a) (lanes4 b)) /\
  (forall p (a b : vec4 f32), feqS p a b = true <-> Forall2 (frel CEq) (lanes4 a) (lanes4 b)).
Proof. exact equality_all. Qed.
Print Assumptions C124_equality.

Theorem C124_equality_number : forall n : f32,
  (forall v, feqN2 v n = true <-> Forall (fun x => frel CEq x n) (lanes2 v)) /\
  (forall v, feqN3 v n = true <-> Forall (fun x => frel CEq x n) (lanes3 v)) /\
  (forall v, feqN4 v n = true <-> Forall (fun x => frel CEq x n) (lanes4 v)).
Proof. exact number_equality. Qed.
Print Assumptions C124_equality_number.

Theorem C124_inequality :
  (forall a b : vec2 f32, fne2 a b = negb (feq2 a b)) /\ (forall a b : vec3 f32, fne3 a b = negb (feq3 a b)) /\
  (forall a b : vec4 f32, fne4 a b = negb (feq4 a b)) /\ (forall p (a b : vec4 f32), fneS p a b = negb (feqS p a b)).
Proof. exact inequality_all. Qed.
Print Assumptions C124_inequality.

Theorem C124_self_equality : forall v : vec4 f32, (forall p, feqS p v v = feq4 v v) /\
  (feq4 v v = true <-> Forall (fun x => denotes x <> NotNumber) (lanes4 v)).
Proof. exact self_equal. Qed.
Print Assumptions C124_self_equality.

Theorem C124_arithmetic : forall o,
  (forall a b, Forall3 (nearestOf o) (lanes2 a) (lanes2 b) (lanes2 (fop2 o a b))) /\
  (forall a b, Forall3 (nearestOf o) (lanes3 a) (lanes3 b) (lanes3 (fop3 o a b))) /\
  (forall a b, Forall3 (nearestOf o) (lanes4 a) (lanes4 b) (lanes4 (fop4 o a b))) /\
  (forall a b, Forall3 (nearestOf o) (lanes4 a) (lanes4 b) (lanes4 (fopS o a b))).
Proof. exact arith_all. Qed.
Print Assumptions C124_arithmetic.

Theorem C124_arithmetic_number : forall o (n : f32),
  (forall v, Forall2 (fun x r => nearestOf o x n r) (lanes2 v) (lanes2 (fopN2 o v n))) /\
  (forall v, Forall2 (fun x r => nearestOf o x n r) (lanes3 v) (lanes3 (fopN3 o v n))) /\
  (forall v, Forall2 (fun x r => nearestOf o x n r) (lanes4 v) (lanes4 (fopN4 o v n))) /\
  (forall v, Forall2 (fun x r => nearestOf o x n r) (lanes4 v) (lanes4 (fopSN o v n))).
Proof. exact arith_number. Qed.
Print Assumptions C124_arithmetic_number.

Theorem C124_number_arithmetic : forall o (n : f32),
  (forall v, Forall2 (fun x r => nearestOf o n x r) (lanes2 v) (lanes2 (nfop2 o n v))) /\
  (forall v, Forall2 (fun x r => nearestOf o n x r) (lanes3 v) (lanes3 (nfop3 o n v))) /\
  (forall v, Forall2 (fun x r => nearestOf o n x r) (lanes4 v) (lanes4 (nfop4 o n v))) /\
  (forall p v, Forall2 (fun x r => nearestOf o n x r) (lanes4 v) (lanes4 (nfopS p o n v))).
Proof. exact number_arith. Qed.
Print Assumptions C124_number_arithmetic.

Theorem C124_to_signed :
  (forall v, convertsAll i32 (lanes2 v) lanes2 (int2OfF v)) /\
  (forall v, convertsAll i32 (lanes3 v) lanes3 (int3OfF v)) /\
  (forall v, convertsAll i32 (lanes4 v) lanes4 (int4OfF v)) /\
  (forall v, convertsAll i32 [x3 v; y3 v] lanes2 (int2OfF3 v)) /\
  (forall v, convertsAll i32 [vx v; vy v] lanes2 (int2OfF4 v)) /\
  (forall v, convertsAll i32 [vx v; vy v; vz v] lanes3 (int3OfF4 v)).
Proof. exact to_signed. Qed.
Print Assumptions C124_to_signed.

Theorem C124_to_unsigned :
  (forall v, convertsAll u32 (lanes2 v) lanes2 (uint2OfF v)) /\
  (forall v, convertsAll u32 (lanes3 v) lanes3 (uint3OfF v)) /\
  (forall v, convertsAll u32 (lanes4 v) lanes4 (uint4OfF v)) /\
  (forall v, convertsAll u32 [x3 v; y3 v] lanes2 (uint2OfF3 v)) /\
  (forall v, convertsAll u32 [vx v; vy v] lanes2 (uint2OfF4 v)) /\
  (forall v, convertsAll u32 [vx v; vy v; vz v] lanes3 (uint3OfF4 v)).
Proof. exact to_unsigned. Qed.
Print Assumptions C124_to_unsigned.

Theorem C124_from_integer :
  (forall v, Forall (fun n => Z.abs n <= 2 ^ 32) (lanes2 v) -> Forall2 (fun n r => closest (IZR n) r) (lanes2 v) (lanes2 (float2OfInt v))) /\
  (forall v, Forall (fun n => Z.abs n <= 2 ^ 32) (lanes3 v) -> Forall2 (fun n r => closest (IZR n) r) (lanes3 v) (lanes3 (float3OfInt v))) /\
  (forall v, Forall (fun n => Z.abs n <= 2 ^ 32) (lanes4 v) -> Forall2 (fun n r => closest (IZR n) r) (lanes4 v) (lanes4 (float4OfInt v))).
Proof. exact from_int. Qed.
Print Assumptions C124_from_integer.

Theorem C124_roundtrip :
  (forall v, Forall (fun n => Z.abs n <= 2 ^ 24) (lanes2 v) -> int2OfF (float2OfInt v) = Ok v) /\
  (forall v, Forall (fun n => Z.abs n <= 2 ^ 24) (lanes3 v) -> int3OfF (float3OfInt v) = Ok v) /\
  (forall v, Forall (fun n => Z.abs n <= 2 ^ 24) (lanes4 v) -> int4OfF (float4OfInt v) = Ok v) /\
  (forall v, Forall (fun n => 0 <= n <= 2 ^ 24) (lanes2 v) -> uint2OfF (float2OfInt v) = Ok v) /\
  (forall v, Forall (fun n => 0 <= n <= 2 ^ 24) (lanes3 v) -> uint3OfF (float3OfInt v) = Ok v) /\
  (forall v, Forall (fun n => 0 <= n <= 2 ^ 24) (lanes4 v) -> uint4OfF (float4OfInt v) = Ok v).
Proof. exact back_all. Qed.
Print Assumptions C124_roundtrip.

(** beyond 2^24 the round trip may change the number, and at the top of the range it is undefined *)
Theorem C124_roundtrip_signed_actual : forall n, i32 n -> (toI32F (ofIntF n) = UB <-> 2 ^ 31 - 64 <= n) /\
  (n < 2 ^ 31 - 64 -> exists z, toI32F (ofIntF n) = Ok z).
Proof. exact back_signed. Qed.
Print Assumptions C124_roundtrip_signed_actual.

Theorem C124_roundtrip_unsigned_actual : forall n, u32 n -> (toU32F (ofIntF n) = UB <-> 2 ^ 32 - 128 <= n) /\
  (n < 2 ^ 32 - 128 -> exists z, toU32F (ofIntF n) = Ok z).
Proof. exact back_unsigned. Qed.
Print Assumptions C124_roundtrip_unsigned_actual.

Theorem C124_constants : forall k,
  Forall (fun x => denotes x = constValue k) (lanes2 (const2 k)) /\
  Forall (fun x => denotes x = constValue k) (lanes3 (const3 k)) /\
  Forall (fun x => denotes x = constValue k) (lanes4 (const4 k)).
Proof. exact const_lanes. Qed.
Print Assumptions C124_constants.

Theorem C124_max_is_greatest : forall (x : f32) v, denotes x = Real v -> (- maxFinite <= v <= maxFinite)%R.
Proof. exact max_greatest. Qed.
Print Assumptions C124_max_is_greatest.

Theorem C124_epsilon_is_gap : forall (x : f32) v, denotes x = Real v -> (1 < v)%R -> (1 + / IZR (2 ^ 23) <= v)%R.
Proof. exact epsilon_gap. Qed.
Print Assumptions C124_epsilon_is_gap.

Theorem C124_min_is_precise : forall r, (/ IZR (2 ^ 126) <= Rabs r <= maxFinite)%R -> forall x : f32,
  closest r x -> exists v, denotes x = Real v /\ (Rabs (v - r) <= Rabs r / IZR (2 ^ 24))%R.
Proof. exact min_normal. Qed.
Print Assumptions C124_min_is_precise.

Theorem C124_directions :
  let o := Real 0 in let i := Real 1 in let m := Real (-1) in
  let is l := map denotes l in
  is (lanes2 left2) = [m; o] /\ is (lanes2 right2) = [i; o] /\ is (lanes2 bottom2) = [o; m] /\ is (lanes2 top2) = [o; i] /\
  is (lanes3 left3) = [m; o; o] /\ is (lanes3 right3) = [i; o; o] /\ is (lanes3 bottom3) = [o; m; o] /\
  is (lanes3 top3) = [o; i; o] /\ is (lanes3 back3) = [o; o; m] /\ is (lanes3 front3) = [o; o; i] /\
  is (lanes4 leftS) = [m; o; o; o] /\ is (lanes4 rightS) = [i; o; o; o] /\ is (lanes4 bottomS) = [o; m; o; o] /\
  is (lanes4 topS) = [o; i; o; o] /\ is (lanes4 backS) = [o; o; m; o] /\ is (lanes4 frontS) = [o; o; i; o].
Proof. exact directions. Qed.
Print Assumptions C124_directions.

(** lanes: 1 < 2, a NaN, and -0 = +0 *)
Example C124_ex_compare : let nan := constLane KNan in
  let a := V3 (slit 1 0 : f32) nan (sneg f0) in let b := V3 (slit 2 0 : f32) f0 f0 in
  fcompare3 CLt a b = V3 4294967295 0 0 /\ fcompare3 CGe a b = V3 0 0 4294967295 /\
  fcompare3 CNe a b = V3 4294967295 4294967295 0 /\ feq3 a a = false /\ fne3 a a = true /\
  fcompareN3 CLt a (slit 3 0) = V3 4294967295 0 4294967295.
Proof. vm_compute. auto 10. Qed.
Example C124_ex_equal : forall p, feqS p (V4 (slit 1 0 : f32) (sneg f0) (slit 3 0) (slit 4 0)) (V4 (slit 1 0) f0 (slit 3 0) (slit 4 0)) = true /\
  fneS p (V4 (slit 1 0 : f32) f0 (slit 3 0) (slit 4 0)) (V4 (slit 1 0) f0 (slit 3 0) (slit 5 0)) = true.
Proof. intros []; vm_compute; auto. Qed.
Example C124_ex_arith : let bits := map_2 bits_of_b32 in
  bits (fop2 AAdd (V2 (slit 1 0) (slit 2 0)) (V2 (slit 3 0) (slit 5 0))) = bits (V2 (slit 4 0) (slit 7 0)) /\
  bits (nfop2 ADiv (slit 6 0) (V2 (slit 3 0) (slit 4 0))) = bits (V2 (slit 2 0) (slit 3 (-1))).
Proof. vm_compute. auto. Qed.
Example C124_ex_convert : int3OfF (V3 (slit (-7) (-1)) (slit 5 (-1)) (sneg f0)) = Ok (V3 (-3) 2 0) /\
  uint2OfF (V2 (slit (-1) (-1)) (slit 3 30)) = Ok (V2 0 3221225472) /\
  uint2OfF (V2 (slit (-1) 0) f0) = UB /\ int2OfF (V2 f0 (constLane KNan)) = UB.
Proof. vm_compute. auto. Qed.
Example C124_ex_roundtrip : int2OfF (float2OfInt (V2 (-16777216) 12345)) = Ok (V2 (-16777216) 12345) /\
  toI32F (ofIntF (2 ^ 24 + 1)) = Ok (2 ^ 24) /\ toI32F (ofIntF (2 ^ 31 - 1)) = UB.
Proof. vm_compute. auto. Qed.
Example C124_ex_const : denotes (constLane KEpsilon) = Real (/ IZR (2 ^ 23)) /\
  slt (slit 1 0 : f32) (slit 8388609 (-23)) = true.
Proof. split; [exact (const_value KEpsilon) | vm_compute; reflexivity]. Qed.
