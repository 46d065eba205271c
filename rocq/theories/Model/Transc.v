(** The SIMD exponential, logarithm, power, sine and cosine of simd/vector/float.hpp: one binary32
    lane on the four SIMD paths (numeric_limits<float>::is_iec559 holds).  The generic path is not
    modelled: its integer conversions copy bits (SimdInt.v) and its select does not compile. *)
From Coq Require Import ZArith Bool List.
From Flocq Require Import Core.Core IEEE754.BinarySingleNaN IEEE754.Binary IEEE754.Bits.
From Verif.Model Require Import Outcome Scalar Vec Simd IntVec SimdInt Lanes.
Local Open Scope Z_scope.

Definition pinf : f32 := B754_infinity 24 128 false.
Definition ninf : f32 := B754_infinity 24 128 true.
(** NAN, the default quiet NaN: bits 0x7FC00000 *)
Definition qnan : f32 := b32_of_bits 2143289344.

(** float.hpp:406-415, (i32x4)f32x4: cvttps2dq, or the saturating NEON conversion *)
Definition i32ofF32 (p : path) (x : f32) : Z :=
  match strunc x with
  | Some z => match p with
              | NEON => Z.max (- 2 ^ 31) (Z.min z (2 ^ 31 - 1))
              | _ => if inI32 z then z else - 2 ^ 31
              end
  | None => match p with
            | NEON => if snan x then 0 else if ssign x then - 2 ^ 31 else 2 ^ 31 - 1
            | _ => - 2 ^ 31
            end
  end.
(** (u32x4)f32x4 on the SIMD paths, defined for every value (SimdInt.u32ofF32) *)
Definition u32ofF32s (p : path) (x : f32) : Z := match u32ofF32 p x with Ok z => z | _ => 0 end.
(** float.hpp:629-678: the casts that keep the bits; i32 lanes are signed *)
Definition asInt (x : f32) : Z := toI32 (bits_of_b32 x).
Definition intAsF (i : Z) : f32 := b32_of_bits (toU32 i).
(** int.hpp:399-512 on the SIMD paths: wrapping +, -, unary -, << by a constant; >> is arithmetic *)
Definition iadd (a b : Z) : Z := toI32 (a + b).
Definition isub (a b : Z) : Z := toI32 (a - b).
Definition ishl (a n : Z) : Z := toI32 (Z.shiftl a n).
Definition isar (a n : Z) : Z := Z.shiftr a n.

(** ** exp, float.hpp:1227-1258 *)
Definition log2eF : f32 := slit 12102203 (-23).
Definition ln2Hi : f32 := slit (-22713) (-15).
Definition ln2Lo : f32 := slit (-6283079) (-42).
Definition expC5 : f32 := slit 6821357 (-35).
Definition expC4 : f32 := slit 11966153 (-33).
Definition expC3 : f32 := slit 4473939 (-29).
Definition expC2 : f32 := slit 5592381 (-27).
Definition expC1 : f32 := slit 11184811 (-26).
(** 1232-1233 *)
Definition expQ (p : path) (v : f32) : Z :=
  let s := (v * log2eF)%sc in
  i32ofF32 p (if slt s f0 then (s - fhalf)%sc else (s + fhalf)%sc).
(** 1234-1236 *)
Definition expS (p : path) (v : f32) : f32 :=
  let q := f32ofI32 p (expQ p v) in
  simdfma p q ln2Lo (simdfma p q ln2Hi v).
(** 1238-1245 *)
Definition expPoly (p : path) (s : f32) : f32 :=
  let u := simdfma p expC5 s expC4 in
  let u := simdfma p u s expC3 in
  let u := simdfma p u s expC2 in
  let u := simdfma p u s expC1 in
  let u := simdfma p u s fhalf in
  (simdfma p (s * s)%sc u s + f1)%sc.
(** 1246-1247 *)
Definition expScale (u : f32) (q : Z) : f32 :=
  (u * intAsF (ishl (iadd (isar q 1) 127) 23) * intAsF (ishl (iadd (isub q (isar q 1)) 127) 23))%sc.
(** 1249-1250: the lane is cleared to +0 unless v >= -104 *)
Definition expLane (p : path) (v : f32) : f32 :=
  let u := expScale (expPoly p (expS p v)) (expQ p v) in
  let u := if sge v (slit (-13) 3) then u else f0 in
  if sgt v (slit 13 3) then pinf else u.

(** ** log, float.hpp:1189-1222 *)
Definition logC5 : f32 := slit 1003625 (-22).
Definition logC4 : f32 := slit 2392281 (-23).
Definition logC3 : f32 := slit 6710985 (-24).
Definition logC1 : f32 := slit 11184811 (-24).
Definition ln2F : f32 := slit 1453635 (-21).
(** 1.0f / 0.75f *)
Definition fourThirds : f32 := slit 11184811 (-23).
(** 1194-1195 *)
Definition logScaled (v : f32) : bool * f32 :=
  let o := slt v fltMin in (o, if o then (v * slit 1 64)%sc else v).
(** 1197: an unsigned number, wrapping below 0 *)
Definition logExp (v : f32) : Z :=
  toU32 (Z.land (Z.shiftr (bits_of_b32 (v * fourThirds)%sc) 23) 255 - 127).
(** 1198 *)
Definition logMant (v : f32) : f32 := intAsF (iadd (asInt v) (ishl (toI32 (- toI32 (logExp v))) 23)).
(** 1201-1209; line 1207 repeats the coefficient of line 1205 *)
Definition logPoly (p : path) (x2 : f32) : f32 :=
  let t := logC5 in
  let t := simdfma p t x2 logC4 in
  let t := simdfma p t x2 logC3 in
  let t := simdfma p t x2 logC4 in
  let t := simdfma p t x2 logC1 in
  simdfma p t x2 f2.
(** 1199-1211 *)
Definition logCore (p : path) (v : f32) : f32 :=
  let '(o, v) := logScaled v in
  let e := logExp v in
  let m := logMant v in
  let e := if o then toU32 (e - 64) else e in
  let x := ((m - f1) / (m + f1))%sc in
  simdfma p x (logPoly p (x * x)%sc) (ln2F * f32ofU32 p e)%sc.
(** 1212-1214; v is the scaled value there *)
Definition logLane (p : path) (v : f32) : f32 :=
  let w := snd (logScaled v) in
  let x := logCore p v in
  let x := if seq w pinf || seq w ninf then ninf else x in
  let x := if slt w f0 || seq w qnan then qnan else x in
  if seq w f0 then ninf else x.

(** ** fastPow, float.hpp:1275-1297 *)
Definition absLane (p : path) (v : f32) : f32 := match p with NEON => sabs v | _ => absSse v end.
Definition fastPowLane (p : path) (b e : f32) : f32 :=
  let r := expLane p (logLane p (absLane p b) * e)%sc in
  let eInt := i32ofF32 p e in
  let eAbs := absLane p e in
  let eIsInt := seq e (f32ofI32 p eInt) || sge eAbs (slit 1 24) in
  let eIsOdd := negb (Z.land eInt 1 =? 0) && eIsInt && slt eAbs (slit 1 24) in
  let r := (r * (if slt b f0 && eIsOdd then slit (-1) 0 else f1))%sc in
  let r := if seq b f0 then f0 else r in
  if seq e f0 then f1 else r.

(** ** sinCos, float.hpp:1306-1347 *)
Definition twoOverPi : f32 := slit 10680707 (-24).
Definition piA : f32 := slit 201 (-7).
Definition piB : f32 := slit 2029 (-22).
Definition piC : f32 := slit 10625385 (-47).
Definition signMask : Z := 2 ^ 31.
(** 1311-1314 *)
Definition scSign (v : f32) : Z := Z.land (bits_of_b32 v) signMask.
Definition scAbs (v : f32) : f32 := b32_of_bits (Z.lxor (bits_of_b32 v) (scSign v)).
Definition scQuad (p : path) (v : f32) : Z := u32ofF32s p (simdfma p twoOverPi (scAbs v) fhalf).
(** 1315-1316 *)
Definition scRed (p : path) (v : f32) : f32 :=
  let q := f32ofU32 p (scQuad p v) in
  (scAbs v - q * piA - q * piB - q * piC)%sc.
(** 1318-1322 *)
Definition polyCos (p : path) (x : f32) : f32 :=
  let x2 := (x * x)%sc in
  (simdfma p (slit 6716135 (-38) * x2 - slit 5964557 (-32)) x2 (slit 11184805 (-28)) * x2 * x2 - fhalf * x2 + f1)%sc.
Definition polySin (p : path) (x : f32) : f32 :=
  let x2 := (x * x)%sc in
  ((simdfma p (slit (-13410809) (-36)) x2 (slit 4473295 (-29)) * x2 - slit 11184803 (-26)) * x2 * x + x)%sc.
(** 1324-1331; select looks at the top bit of its control *)
Definition sinCosLane (p : path) (v : f32) : f32 * f32 :=
  let q := scQuad p v in
  let x := scRed p v in
  let bit1 := toU32 (Z.shiftl q 31) in
  let bit2 := Z.land (toU32 (Z.shiftl q 30)) signMask in
  let s := if Z.testbit bit1 31 then polyCos p x else polySin p x in
  let c := if Z.testbit bit1 31 then polySin p x else polyCos p x in
  let sinSign := Z.lxor (scSign v) bit2 in
  let cosSign := Z.lxor bit1 bit2 in
  (b32_of_bits (Z.lxor (bits_of_b32 s) sinSign), b32_of_bits (Z.lxor (bits_of_b32 c) cosSign)).

(** ** tone-mapping.hpp:34-58: fastGammaCorrection; the w lane is kept *)
Definition fastGamma (p : path) (c : vec4 f32) (inv : f32) : vec4 f32 :=
  V4 (fastPowLane p (vx c) inv) (fastPowLane p (vy c) inv) (fastPowLane p (vz c) inv) (vw c).
Definition defaultGamma : f32 := slit 9227469 (-22).
Definition fastGammaDefault (p : path) (c : vec4 f32) : vec4 f32 := fastGamma p c (f1 / defaultGamma)%sc.
