(** Lane-wise float vector functions of vector/float.hpp and simd/vector/float.hpp which the other
    models do not need: min, max, clamp, select, comparisons of float2/3/4, sign and signBits,
    rounding, distances, isClose, isNormalized. *)
From Coq Require Import ZArith Bool.
From Flocq Require Import Core.Core IEEE754.BinarySingleNaN IEEE754.Binary IEEE754.Bits.
From Verif.Model Require Import Outcome Scalar Vec Simd.
Local Open Scope Z_scope.
Local Open Scope outcome_scope.

Section Lanes.
  Context {F : Type} {S : Scalar F}.

  (** common.hpp:37, 45 *)
  Definition min3f (a b c : F) : F := stdmin (stdmin a b) c.
  Definition max3f (a b c : F) : F := stdmax (stdmax a b) c.
  (** vector/float.hpp:606, 613, 871-888, 1164-1180 *)
  Definition minp2 : vec2 F -> vec2 F -> vec2 F := map2_2 stdmin.
  Definition maxp2 : vec2 F -> vec2 F -> vec2 F := map2_2 stdmax.
  Definition minp3 : vec3 F -> vec3 F -> vec3 F := map2_3 stdmin.
  Definition maxp3 : vec3 F -> vec3 F -> vec3 F := map2_3 stdmax.
  Definition minp4 : vec4 F -> vec4 F -> vec4 F := map2_4 stdmin.
  Definition maxp4 : vec4 F -> vec4 F -> vec4 F := map2_4 stdmax.
  (** std::clamp is undefined when hi < lo *)
  Definition clampS (v lo hi : F) : outcome F := if slt hi lo then UB else Ok (stdclamp v lo hi).
  (** vector/float.hpp:638-641, 909-913, 1202-1206 *)
  Definition clamp2 (v lo hi : vec2 F) : outcome (vec2 F) :=
    x <- clampS (x2 v) (x2 lo) (x2 hi) ;; y <- clampS (y2 v) (y2 lo) (y2 hi) ;; Ok (V2 x y).
  Definition clamp3 (v lo hi : vec3 F) : outcome (vec3 F) :=
    x <- clampS (x3 v) (x3 lo) (x3 hi) ;; y <- clampS (y3 v) (y3 lo) (y3 hi) ;;
    z <- clampS (z3 v) (z3 lo) (z3 hi) ;; Ok (V3 x y z).
  Definition clamp4 (v lo hi : vec4 F) : outcome (vec4 F) :=
    x <- clampS (vx v) (vx lo) (vx hi) ;; y <- clampS (vy v) (vy lo) (vy hi) ;;
    z <- clampS (vz v) (vz lo) (vz hi) ;; w <- clampS (vw v) (vw lo) (vw hi) ;; Ok (V4 x y z w).
  (** vector/float.hpp:595-598, 860-863; float4 and f32x4 are [select4] *)
  Definition select2 {A} (c : vec2 Z) (t f : vec2 A) : vec2 A :=
    V2 (sel (x2 c) (x2 t) (x2 f)) (sel (y2 c) (y2 t) (y2 f)).
  Definition select3 {A} (c : vec3 Z) (t f : vec3 A) : vec3 A :=
    V3 (sel (x3 c) (x3 t) (x3 f)) (sel (y3 c) (y3 t) (y3 f)) (sel (z3 c) (z3 t) (z3 f)).

  (** common.hpp:69 *)
  Definition signS (v : F) : F := if ssign v then slit (-1) 0 else f1.
  (** vector/float.hpp:668, 939, 1237 *)
  Definition sign2 : vec2 F -> vec2 F := map_2 signS.
  Definition sign3 : vec3 F -> vec3 F := map_3 signS.
  Definition sign4 : vec4 F -> vec4 F := map_4 signS.
  (** vector/float.hpp:673, 944-947, 1242-1246 *)
  Definition bitIf (b : bool) (k : Z) : Z := if b then k else 0.
  Definition signBits2 (v : vec2 F) : Z := Z.lor (bitIf (ssign (x2 v)) 1) (bitIf (ssign (y2 v)) 2).
  Definition signBits3 (v : vec3 F) : Z :=
    Z.lor (Z.lor (bitIf (ssign (x3 v)) 1) (bitIf (ssign (y3 v)) 2)) (bitIf (ssign (z3 v)) 4).
  Definition signBits4 (v : vec4 F) : Z :=
    Z.lor (Z.lor (Z.lor (bitIf (ssign (vx v)) 1) (bitIf (ssign (vy v)) 2)) (bitIf (ssign (vz v)) 4))
          (bitIf (ssign (vw v)) 8).

  (** vector/float.hpp:709-730, 993-1014, 1294-1315 *)
  Definition lengthSqp2 (v : vec2 F) : F := dotp2 v v.
  Definition lengthSqp3 (v : vec3 F) : F := dotp3 v v.
  Definition lengthSqp4 (v : vec4 F) : F := dotp4 v v.
  Definition distanceSqp2 (a b : vec2 F) : F := lengthSqp2 (sub2 a b).
  Definition distanceSqp3 (a b : vec3 F) : F := lengthSqp3 (sub3 a b).
  Definition distanceSqp4 (a b : vec4 F) : F := lengthSqp4 (subp4 a b).
  Definition distancep2 (a b : vec2 F) : F := lengthp2 (sub2 a b).
  Definition distancep3 (a b : vec3 F) : F := lengthp3 (sub3 a b).
  Definition distancep4 (a b : vec4 F) : F := lengthp4 (subp4 a b).
  (** simd/vector/float.hpp:1099, 1106 *)
  Definition distanceSq4 (p : path) (a b : vec4 F) : F := lengthSq4 p (vsub a b).
  Definition distancev4 (p : path) (a b : vec4 F) : F := length4 p (vsub a b).
  (** vector/float.hpp:737-740, 1021-1024, 1322-1325 with the default 1.0e-12f *)
  Definition closeTol : F := slit 9223372 (-63).
  Definition isClose2 (a b : vec2 F) : bool := sle (distanceSqp2 a b) closeTol.
  Definition isClose3 (a b : vec3 F) : bool := sle (distanceSqp3 a b) closeTol.
  Definition isClose4 (a b : vec4 F) : bool := sle (distanceSqp4 a b) closeTol.
  (** vector/float.hpp:753-756, 1037-1040, 1338-1341 with the default 1.0e-6f *)
  Definition unitTol : F := slit 8796093 (-43).
  Definition isNormalizedp2 (v : vec2 F) : bool := sle (sabs (lengthSqp2 v - f1)%sc) unitTol.
  Definition isNormalizedp3 (v : vec3 F) : bool := sle (sabs (lengthSqp3 v - f1)%sc) unitTol.
  Definition isNormalizedp4 (v : vec4 F) : bool := sle (sabs (lengthSqp4 v - f1)%sc) unitTol.
End Lanes.

(** ** Bit-level lanes *)
(** 0xBF800000 and 0x3F800000, the bits of -1.0f and 1.0f *)
Definition minusOneBits : Z := 3212836864.
Definition oneBits : Z := 1065353216.
(** simd/vector/float.hpp:880-891, one lane: and with -1.0f, or with 1.0f *)
Definition signLane (p : path) (v : f32) : f32 :=
  match p with
  | GEN => signS v
  | _ => b32_of_bits (Z.lor (Z.land (bits_of_b32 v) minusOneBits) oneBits)
  end.
Definition signV (p : path) : vec4 f32 -> vec4 f32 := map_4 (signLane p).
(** simd/vector/float.hpp:895-905: movemask, or shifts by 31 right and i left, then the sum *)
Definition signBitsV (p : path) (v : vec4 f32) : Z :=
  let top x := Z.shiftr (bits_of_b32 x) 31 in
  match p with
  | SSE2 | SSE41 | AVX2 => getTrues4 (map_4 bits_of_b32 v)
  | NEON => top (vx v) + Z.shiftl (top (vy v)) 1 + Z.shiftl (top (vz v)) 2 + Z.shiftl (top (vw v)) 3
  | GEN => signBits4 v
  end.
(** simd/vector/float.hpp:848-860 on SSE: and with 0x7FFFFFFF *)
Definition absSse (v : f32) : f32 := b32_of_bits (Z.land (bits_of_b32 v) 2147483647).

(** std::round, floor, ceil, trunc (round: halves away from zero), used by vector/float.hpp:679-694,
    953-968, 1252-1280 *)
Definition roundS : f32 -> f32 := Bnearbyint 24 128 eq_refl unop_nan_pl32 mode_NA.
Definition floorS : f32 -> f32 := Bnearbyint 24 128 eq_refl unop_nan_pl32 mode_DN.
Definition ceilS : f32 -> f32 := Bnearbyint 24 128 eq_refl unop_nan_pl32 mode_UP.
Definition truncS : f32 -> f32 := Bnearbyint 24 128 eq_refl unop_nan_pl32 mode_ZR.
(** simd/vector/float.hpp:911-961, one lane: SSE4.1 and NEON round halves to even *)
Definition roundLane (p : path) : f32 -> f32 :=
  match p with
  | SSE41 | AVX2 | NEON => Bnearbyint 24 128 eq_refl unop_nan_pl32 mode_NE
  | SSE2 | GEN => roundS
  end.
Definition floorLane (p : path) : f32 -> f32 := floorS.
Definition ceilLane (p : path) : f32 -> f32 := ceilS.
Definition truncLane (p : path) : f32 -> f32 := truncS.
