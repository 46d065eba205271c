(** Model of the numeric helpers: common.hpp, the interpolation functions of vector/float.hpp and
    simd/vector/float.hpp, angles.hpp, color-space.hpp, hammersley, ggx and iorToReflectance of
    brdf.hpp.  min, max and sign are in Scalar.v and Lanes.v. *)
From Coq Require Import Reals ZArith Bool List.
From Verif.Model Require Import Outcome Scalar Vec Simd Matrix.
Local Open Scope Z_scope.

(** std::pow, whose rounding the C++ standard does not fix; the real instance is only meant for
    non-negative bases (and positive exponents at 0). *)
Class Pow (F : Type) := { spow : F -> F -> F }.
Definition powR (x y : R) : R :=
  if Req_EM_T x 0 then (if Req_EM_T y 0 then 1%R else 0%R) else Rpower x y.
#[global] Instance PowR : Pow R := { spow := powR }.

Section Numeric.
  Context {F : Type} {S : Scalar F}.
  Notation f32x4 := (vec4 F).

  (** std::fmod(x, 1) for x >= 0 (which is exact): the fractional part *)
  Definition fmod1 (x : F) : F := (x - sfloor x)%sc.
  (** common.hpp:73-80 *)
  Definition repeatS (v : F) : F :=
    if slt v f0 then (f1 - fmod1 (- v))%sc
    else if sge v f1 then fmod1 v else v.
  (** simd/vector/float.hpp:1180-1183, one lane *)
  Definition modLane (n d : F) : F := (n - sfloor (n / d) * d)%sc.
  (** simd/vector/float.hpp:1346-1350, one lane *)
  Definition repeatLane (v : F) : F :=
    let r := sel (maskOf (slt v f0)) (f1 - modLane (- v) f1)%sc v in
    sel (maskOf (slt v f1)) r (modLane v f1).
  (** vector/float.hpp:762, 1046, 1347; simd/vector/float.hpp:1346-1350 *)
  Definition repeat2 : vec2 F -> vec2 F := map_2 repeatS.
  Definition repeat3 : vec3 F -> vec3 F := map_3 repeatS.
  Definition repeat4 : vec4 F -> vec4 F := map_4 repeatS.
  Definition repeatV : f32x4 -> f32x4 := map_4 repeatLane.

  (** common.hpp:89 *)
  Definition lerpS (a b t : F) : F := (a + t * (b - a))%sc.
  (** one lane of vector/float.hpp:771, 1055, 1356 and simd/vector/float.hpp:1359 *)
  Definition lerpLane (a b t : F) : F := (a * (f1 - t) + b * t)%sc.
  (** vector/float.hpp:771, 1055, 1356 (float2, float3, float4); f32x4 is [vlerp] *)
  Definition lerp2 (a b : vec2 F) (t : F) : vec2 F := map2_2 (fun x y => lerpLane x y t) a b.
  Definition lerp3 (a b : vec3 F) (t : F) : vec3 F := map2_3 (fun x y => lerpLane x y t) a b.
  Definition lerp4 (a b : vec4 F) (t : F) : vec4 F := map2_4 (fun x y => lerpLane x y t) a b.

  (** hammersley's bit reversal, brdf.hpp:63-68, on uint32 *)
  Definition shl32 (x k : Z) : Z := Z.shiftl x k mod 2 ^ 32.
  Definition swapBits (m k x : Z) : Z :=
    Z.lor (shl32 (Z.land x m) k) (Z.shiftr (Z.land x (2 ^ 32 - 1 - m)) k).
  Definition reverseBits (index : Z) : Z :=
    let b := Z.lor (shl32 index 16) (Z.shiftr index 16) in
    let b := swapBits 1431655765 1 b in
    let b := swapBits 858993459 2 b in
    let b := swapBits 252645135 4 b in
    swapBits 16711935 8 b.
  (** brdf.hpp:60-70; converting uint32 to float rounds to nearest *)
  Definition hammersley (index : Z) (invSampleCount : F) : vec2 F :=
    V2 (slit index 0 * invSampleCount)%sc (slit (reverseBits index) 0 * (fhalf / slit (2 ^ 31) 0))%sc.

  (** (float)M_PI *)
  Definition piF : F := slit 13176795 (-22).
  Definition n180 : F := slit 180 0.
  (** angles.hpp:30-45 and 56-71, one component *)
  Definition radiansS (d : F) : F := (d * (piF / n180))%sc.
  Definition degreesS (r : F) : F := (r * (n180 / piF))%sc.
  (** angles.hpp:50 and 76, one lane of f32x4 *)
  Definition radiansLane (d : F) : F := (d * piF / n180)%sc.
  Definition degreesLane (r : F) : F := (r * n180 / piF)%sc.

  (** brdf.hpp:43-47 *)
  Definition ggx (noh roughness : F) : F :=
    let f := ((roughness - f1) * ((roughness + f1) * (noh * noh)) + f1)%sc in
    (roughness * roughness / (piF * f * f))%sc.
  (** brdf.hpp:95-99; the literal is 0.16f *)
  Definition iorToReflectance (ior : F) : F :=
    let g := ((ior - f1) * (ior - f1) / ((ior + f1) * (ior + f1)))%sc in
    ssqrt (g * (f1 / slit 5368709 (-25)))%sc.

  (** color-space.hpp:57-67 and 72-82 *)
  Definition rgbToXyz (p : path) (rgb : f32x4) : f32x4 :=
    multiply3x3v p (M4 (V4 (slit 3459935 (-23)) (slit 14272237 (-26)) (slit 10379809 (-29)) f0)
                       (V4 (slit 11998263 (-25)) (slit 11998263 (-24)) (slit 15997679 (-27)) f0)
                       (V4 (slit 3027239 (-24)) (slit 9687165 (-27)) (slit 15943457 (-24)) f0)
                       (V4 f0 f0 f0 f0)) rgb.
  Definition xyzToRgb (p : path) (xyz : f32x4) : f32x4 :=
    multiply3x3v p (M4 (V4 (slit 6795725 (-21)) (slit (-16261585) (-24)) (slit 14936661 (-28)) f0)
                       (V4 (slit (-3223613) (-21)) (slit 15737119 (-23)) (slit (-6845973) (-25)) f0)
                       (V4 (slit (-8363969) (-24)) (slit 348597 (-23)) (slit 1108581 (-20)) f0)
                       (V4 f0 f0 f0 f0)) xyz.
  (** color-space.hpp:88-93 and 98-102 *)
  Definition xyzToYxy (p : path) (xyz : f32x4) : f32x4 :=
    let y := vy xyz in
    let inv := (f1 / dot3 p xyz (dup4 f1))%sc in
    of3 y (vx xyz * inv)%sc (y * inv)%sc.
  Definition yxyToXyz (yxy : f32x4) : f32x4 :=
    let x := vx yxy in let y := vy yxy in let z := vz yxy in
    of3 (x * y / z)%sc x (x * (f1 - y - z) / z)%sc.
  (** color-space.hpp:108 and 113 *)
  Definition rgbToYxy (p : path) (rgb : f32x4) : f32x4 := xyzToYxy p (rgbToXyz p rgb).
  Definition yxyToRgb (p : path) (yxy : f32x4) : f32x4 := xyzToRgb p (yxyToXyz yxy).

  Context {P : Pow F}.
  (** common.hpp:99-102, vector/float.hpp:781, 1065, 1366, simd/vector/float.hpp:1369 *)
  Definition lerpDelta (a b f dt : F) : F := (a + (f1 - spow f dt) * (b - a))%sc.
  (** common.hpp:110-114 *)
  Definition gainS (x k : F) : F :=
    let a := (fhalf * spow (f2 * (if slt x fhalf then x else f1 - x)) k)%sc in
    if slt x fhalf then a else (f1 - a)%sc.
  (** vector/float.hpp:800-804, 1087-1091, 1388-1392, one lane: the conditions are masks *)
  Definition gainLane (x k : F) : F :=
    let a := (fhalf * spow (f2 * sel (maskOf (slt x fhalf)) x (f1 - x)) k)%sc in
    sel (maskOf (slt x fhalf)) a (f1 - a)%sc.

  (** one lane of color-space.hpp:30-38 and 43-51; pow is taken lane by lane *)
  Definition srgbC : F := slit 3361671 (-30).
  Definition srgbK : F := slit 6773801 (-19).
  Definition srgbA : F := slit 8849981 (-23).
  Definition srgbB : F := slit 7381975 (-27).
  Definition srgbG : F := slit 5033165 (-21).
  Definition srgbS : F := slit 5429107 (-27).
  Definition toSrgbLane (p : path) (x : F) : F :=
    let h := (x * srgbK)%sc in
    let l := simdfma p (spow x (f1 / srgbG)%sc) srgbA (- srgbB)%sc in
    sel (maskOf (sle x srgbC)) h l.
  Definition toRgbLane (y : F) : F :=
    let h := (y * (f1 / srgbK))%sc in
    let l := spow ((y + srgbB) * (f1 / srgbA))%sc srgbG in
    sel (maskOf (sle y srgbS)) h l.
  (** color-space.hpp:30-38 and 43-51 *)
  Definition rgbToSrgb (p : path) (v : f32x4) : f32x4 := withW (map_4 (toSrgbLane p) v) (vw v).
  Definition srgbToRgb (v : f32x4) : f32x4 := withW (map_4 toRgbLane v) (vw v).
End Numeric.
