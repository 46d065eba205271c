(** Model of the integer SIMD vectors: u32x4 (/repo/include/math/simd/vector/uint.hpp) and
    i32x4 (/repo/include/math/simd/vector/int.hpp), per code path, and the conversions
    between u32x4, i32x4 and f32x4.  On SSE2 alone the operations without an SSE2
    instruction fall back to the scalar vectors, as on the generic path. *)
From Coq Require Import ZArith Bool List.
From Flocq Require Import Core.Core IEEE754.BinarySingleNaN IEEE754.Binary IEEE754.Bits.
From Verif.Model Require Import Outcome Scalar Vec Simd Aabb IntVec.
Local Open Scope Z_scope.
Local Open Scope outcome_scope.

(** ** u32x4 *)
(** uint.hpp:376-499: + - & | ^ wrap in hardware or in uint4; * likewise; / and % go through
    uint4.  Shifts by a vector (455-474): AVX2 shifts out to zero from 32 on, NEON takes the
    low byte of the count as a signed number (a negative count shifts the other way), the rest
    use uint4. *)
Definition sbyte (x : Z) : Z := let u := x mod 256 in if u <? 128 then u else u - 256.
(** vshlq_u32: one lane *)
Definition neonShl (a c : Z) : Z :=
  if 0 <=? c then (if c <? 32 then toU32 (Z.shiftl a c) else 0)
  else (if - c <? 32 then Z.shiftr a (- c) else 0).
Definition u32lane (p : path) (o : iop) (a b : Z) : outcome Z :=
  match o, p with
  | OShr, AVX2 => Ok (if b <? 32 then Z.shiftr a b else 0)
  | OShl, AVX2 => Ok (if b <? 32 then toU32 (Z.shiftl a b) else 0)
  | OShr, NEON => Ok (neonShl a (sbyte (- b)))
  | OShl, NEON => Ok (neonShl a (sbyte b))
  | _, _ => ulane o a b
  end.
Definition u32Op (p : path) (o : iop) (a b : vec4 Z) : outcome (vec4 Z) := seqO4 (map2_4 (u32lane p o) a b).

(** uint.hpp:475-494: shift by one scalar count *)
Definition u32shiftN (p : path) (left : bool) (a n : Z) : outcome Z :=
  match p with
  | SSE2 | SSE41 | AVX2 =>
      Ok (if n <? 32 then (if left then toU32 (Z.shiftl a n) else Z.shiftr a n) else 0)
  | NEON => Ok (neonShl a (sbyte (if left then n else - n)))
  | GEN => ulane (if left then OShl else OShr) a n
  end.

(** uint.hpp:535-554: operator== and != *)
Definition u32eq (p : path) (a b : vec4 Z) : bool :=
  match p with
  | SSE2 | SSE41 | AVX2 => movemask8 (compare4 CEq a b) =? 65535
  | NEON => zmin4 (compare4 CEq a b) =? allOnes
  | GEN => eqv4 a b
  end.
Definition u32ne (p : path) (a b : vec4 Z) : bool :=
  match p with
  | SSE2 | SSE41 | AVX2 => negb (movemask8 (compare4 CEq a b) =? 65535)
  | NEON => zmin4 (compare4 CEq a b) =? 0
  | GEN => nev4 a b
  end.

(** uint.hpp:555-594: _mm_cmplt_epi32 and _mm_cmpgt_epi32 compare signed numbers *)
Definition u32cmpLane (p : path) (c : cmp) (a b : Z) : bool :=
  match p with
  | SSE2 | SSE41 | AVX2 => cmpLane c (toI32 a) (toI32 b)
  | NEON | GEN => cmpLane c a b
  end.
Definition u32compare (p : path) (c : cmp) : vec4 Z -> vec4 Z -> vec4 Z :=
  map2_4 (fun a b => maskOf (u32cmpLane p c a b)).

(** uint.hpp:795-820: _mm_min_epi32 and _mm_max_epi32 are signed *)
Definition u32minLane (p : path) (a b : Z) : Z :=
  match p with
  | SSE41 | AVX2 => if toI32 a <? toI32 b then a else b
  | SSE2 | NEON | GEN => Z.min a b
  end.
Definition u32maxLane (p : path) (a b : Z) : Z :=
  match p with
  | SSE41 | AVX2 => if toI32 b <? toI32 a then a else b
  | SSE2 | NEON | GEN => Z.max a b
  end.
Definition u32min (p : path) : vec4 Z -> vec4 Z -> vec4 Z := map2_4 (u32minLane p).
Definition u32max (p : path) : vec4 Z -> vec4 Z -> vec4 Z := map2_4 (u32maxLane p).
(** uint.hpp:826-883: the least and greatest of four and of three lanes *)
Definition u32min4 (p : path) (v : vec4 Z) : Z :=
  let m := u32min p v (swYUWU v) in vx (u32min p m (swZUUU m)).
Definition u32max4 (p : path) (v : vec4 Z) : Z :=
  let m := u32max p v (swYUWU v) in vx (u32max p m (swZUUU m)).
Definition u32min3 (p : path) (v : vec4 Z) : Z :=
  let m := u32min p v (swYUZU v) in vx (u32min p m (swZUUU m)).
Definition u32max3 (p : path) (v : vec4 Z) : Z :=
  let m := u32max p v (swYUZU v) in vx (u32max p m (swZUUU m)).
(** uint.hpp:892-895 *)
Definition u32clamp (p : path) (v lo hi : vec4 Z) : vec4 Z := u32max p (u32min p v hi) lo.
(** uint.hpp:746-755: a & ~b *)
Definition u32bic : vec4 Z -> vec4 Z -> vec4 Z := map2_4 (fun a b => Z.land a (ucompl b)).
(** uint.hpp:898-905 *)
Definition calcMipCount3s (p : path) (size : vec4 Z) : outcome Z := calcMipCount (u32max3 p size).
Definition calcSizeAtMip3s (p : path) (size : vec4 Z) (mip : Z) : outcome (vec4 Z) :=
  d <- mipDivisor mip;; q <- u32Op p ODiv size (dup4 d);; Ok (u32max p q (dup4 1)).

(** ** i32x4 *)
(** vshlq_s32: one lane; a negative count shifts right, keeping the sign *)
Definition neonSshl (a c : Z) : Z :=
  if 0 <=? c then (if c <? 32 then toI32 (Z.shiftl a c) else 0)
  else Z.shiftr a (Z.min (- c) 31).
(** int.hpp:399-482: the SSE and NEON instructions wrap; int4 is undefined on overflow.  The
    product has an instruction from SSE4.1 on.  Shifts by a vector (463-482): AVX2 reads the
    count as unsigned and fills with the sign (right) or zeros (left) from 32 on, NEON takes its
    low byte as a signed number, the rest use int4. *)
Definition i32lane (p : path) (o : iop) (a b : Z) : outcome Z :=
  match o, p with
  | OAdd, (SSE2 | SSE41 | AVX2 | NEON) => Ok (toI32 (a + b))
  | OSub, (SSE2 | SSE41 | AVX2 | NEON) => Ok (toI32 (a - b))
  | OMul, (SSE41 | AVX2 | NEON) => Ok (toI32 (a * b))
  | OShr, AVX2 => Ok (Z.shiftr a (Z.min (toU32 b) 31))
  | OShl, AVX2 => Ok (if toU32 b <? 32 then toI32 (Z.shiftl a b) else 0)
  | OShr, NEON => Ok (neonSshl a (sbyte (- b)))
  | OShl, NEON => Ok (neonSshl a (sbyte b))
  | _, _ => ilane o a b
  end.
Definition i32Op (p : path) (o : iop) (a b : vec4 Z) : outcome (vec4 Z) := seqO4 (map2_4 (i32lane p o) a b).
(** int.hpp:483-502: shift by one scalar count *)
Definition i32shiftN (p : path) (left : bool) (a n : Z) : outcome Z :=
  match p with
  | SSE2 | SSE41 | AVX2 =>
      Ok (if left then (if toU32 n <? 32 then toI32 (Z.shiftl a n) else 0)
          else Z.shiftr a (Z.min (toU32 n) 31))
  | NEON => Ok (neonSshl a (sbyte (if left then n else - n)))
  | GEN => ilane (if left then OShl else OShr) a n
  end.
(** int.hpp:503-532: the unary operators; the instructions wrap at INT_MIN *)
Definition i32neg (p : path) (v : vec4 Z) : outcome (vec4 Z) :=
  match p with
  | GEN => seqO4 (map_4 ineg v)
  | _ => Ok (map_4 (fun a => toI32 (0 - a)) v)
  end.
Definition i32not (p : path) (v : vec4 Z) : vec4 Z :=
  match p with
  | GEN => map_4 unot v
  | _ => map_4 (fun a => Z.land (toI32 (maskOf (a =? 0))) 1) v
  end.
Definition i32compl (p : path) (v : vec4 Z) : vec4 Z :=
  match p with
  | NEON | GEN => map_4 icompl v
  | _ => map_4 (fun a => Z.lxor a (-1)) v
  end.
(** int.hpp:568-587: operator== and != *)
Definition i32eq (p : path) (a b : vec4 Z) : bool :=
  match p with
  | SSE2 | SSE41 | AVX2 => movemask8 (compare4 CEq a b) =? 65535
  | NEON => zmin4 (compare4 CEq a b) =? allOnes
  | GEN => eqv4 a b
  end.
Definition i32ne (p : path) (a b : vec4 Z) : bool :=
  match p with
  | SSE2 | SSE41 | AVX2 => negb (movemask8 (compare4 CEq a b) =? 65535)
  | NEON => zmin4 (compare4 CEq a b) =? 0
  | GEN => nev4 a b
  end.
(** int.hpp:588-627: the comparisons are signed on every path *)
Definition i32compare : cmp -> vec4 Z -> vec4 Z -> vec4 Z := compare4.
(** int.hpp:772-797 *)
Definition i32min : vec4 Z -> vec4 Z -> vec4 Z := imin4.
Definition i32max : vec4 Z -> vec4 Z -> vec4 Z := imax4.
(** int.hpp:803-863: the least and greatest of four (min, max and min4, max4 share their bodies)
    and of three lanes *)
Definition i32min4 (v : vec4 Z) : Z := let m := i32min v (swYUWU v) in vx (i32min m (swZUUU m)).
Definition i32max4 (v : vec4 Z) : Z := let m := i32max v (swYUWU v) in vx (i32max m (swZUUU m)).
Definition i32min3 (v : vec4 Z) : Z := let m := i32min v (swYUZU v) in vx (i32min m (swZUUU m)).
Definition i32max3 (v : vec4 Z) : Z := let m := i32max v (swYUZU v) in vx (i32max m (swZUUU m)).
(** int.hpp:724-735: a & ~b *)
Definition i32bic : vec4 Z -> vec4 Z -> vec4 Z := map2_4 (fun a b => Z.land a (Z.lnot b)).
(** int.hpp:750-763: SSE4.1 blends on the top bit of the condition; SSE2 and NEON spread it over
    the lane and combine the bits; the generic path does not compile (it passes the condition as
    int4) and is given the meaning of int4's select. *)
Definition spread31 (c : Z) : Z := if Z.testbit c 31 then -1 else 0.
Definition i32select (p : path) (c t f : vec4 Z) : vec4 Z :=
  match p with
  | SSE41 | AVX2 | GEN => select4 c t f
  | SSE2 | NEON =>
      let m := map_4 spread31 c in
      map2_4 Z.lor (map2_4 Z.land m t) (map2_4 Z.land (map_4 Z.lnot m) f)
  end.
(** int.hpp:869-872 *)
Definition i32clamp (v lo hi : vec4 Z) : vec4 Z := i32max (i32min v hi) lo.

(** ** Loads and conversions *)
(** Constructing a vector from a pointer to four values (uint.hpp:186-195, int.hpp:195-204,
    float.hpp:218-227): the generic path assigns the first value to the whole vector. *)
Definition loadPtr {A} (p : path) (a b c d : A) : vec4 A :=
  match p with GEN => dup4 a | _ => V4 a b c d end.
(** loadAligned: uint.hpp:202-211, int.hpp:211-220, float.hpp:234-243 *)
Definition loadAligned {A} (a b c d : A) : vec4 A := V4 a b c d.

(** float.hpp:147-156: f32x4(u32x4).  SSE converts the lanes as signed numbers; the generic
    path copies the bits. *)
Definition f32ofU32 (p : path) (u : Z) : f32 :=
  match p with
  | SSE2 | SSE41 | AVX2 => b32_lit (toI32 u) 0
  | NEON => b32_lit u 0
  | GEN => b32_of_bits u
  end.
(** float.hpp:161-170: f32x4(i32x4); the generic path copies the bits *)
Definition f32ofI32 (p : path) (i : Z) : f32 :=
  match p with
  | SSE2 | SSE41 | AVX2 | NEON => b32_lit i 0
  | GEN => b32_of_bits (toU32 i)
  end.
(** float.hpp:393-402: (u32x4)f32x4.  cvttps2dq gives the indefinite integer 2^31 outside
    the int32 range and on NaN; NEON saturates; the scalar conversion is undefined outside
    (-1, 2^32). *)
Definition u32ofF32 (p : path) (x : f32) : outcome Z :=
  match p with
  | SSE2 | SSE41 | AVX2 =>
      match strunc x with
      | Some z => Ok (if inI32 z then toU32 z else 2 ^ 31)
      | None => Ok (2 ^ 31)
      end
  | NEON =>
      match strunc x with
      | Some z => Ok (Z.max 0 (Z.min z (2 ^ 32 - 1)))
      | None => Ok (if snan x then 0 else if ssign x then 0 else 2 ^ 32 - 1)
      end
  | GEN =>
      match strunc x with
      | Some z => if (0 <=? z) && (z <? 2 ^ 32) then Ok z else UB
      | None => UB
      end
  end.

(** ** Binary comparison of float vectors and boxes *)
(** vector/float.hpp:586, 851, 1143 and simd/vector/float.hpp:719: the bit patterns *)
Definition floatLess2 (a b : vec2 f32) : bool :=
  intLess2 (map_2 bits_of_b32 a) (map_2 bits_of_b32 b).
Definition floatLess3 (a b : vec3 f32) : bool :=
  binLess3 (map_3 bits_of_b32 a) (map_3 bits_of_b32 b).
Definition floatLess4 (a b : vec4 f32) : bool :=
  binLess4 (map_4 bits_of_b32 a) (map_4 bits_of_b32 b).
(** aabb.hpp:277: memcmp over sizeof(float3) * 2 = 24 of the 32 bytes of a box (two f32x4) *)
Definition boxBytes (b : aabb f32) : list Z :=
  mem4 (map_4 bits_of_b32 (bmin b)) ++ mem4 (map_4 bits_of_b32 (bmax b)).
Definition aabbLess (a b : aabb f32) : bool :=
  memcmpLess (firstn 24 (boxBytes a)) (firstn 24 (boxBytes b)).
