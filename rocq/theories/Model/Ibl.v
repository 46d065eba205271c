(** Cube map directions and texel solid angles: ibl.hpp, and the first functions of sh.hpp; GGX
    importance sampling of brdf.hpp. *)
From Coq Require Import ZArith Bool List.
From Verif.Model Require Import Outcome Scalar Vec Simd Trig Numeric.
Import ListNotations.
Local Open Scope Z_scope.

Section Ibl.
  Context {F : Type} {S : Scalar F} {T : Trig F}.

  (** ibl.hpp:59-62; (float2)uint2 converts each coordinate, [slit c 0] rounds to nearest *)
  Definition stOf (c : Z) (invDim : F) : F := sfma (f1 - (slit c 0 + fhalf) * invDim)%sc f2 (slit (-1) 0).
  Definition coordsToST (cx cy : Z) (invDim : F) : vec2 F := V2 (stOf cx invDim) (stOf cy invDim).
  (** ibl.hpp:69-83 *)
  Definition stToDir (st : vec2 F) (face : Z) : outcome (vec3 F) :=
    let n d := Ok (normalizep3 d) in
    match face with
    | 0 => n (V3 f1 (y2 st) (x2 st))
    | 1 => n (V3 (slit (-1) 0) (y2 st) (sneg (x2 st)))
    | 2 => n (V3 (sneg (x2 st)) f1 (sneg (y2 st)))
    | 3 => n (V3 (sneg (x2 st)) (slit (-1) 0) (y2 st))
    | 4 => n (V3 (sneg (x2 st)) (y2 st) f1)
    | 5 => n (V3 (x2 st) (y2 st) (slit (-1) 0))
    | _ => Abort
    end.
  (** ibl.hpp:90-94 *)
  Definition coordsToDir (cx cy face : Z) (invDim : F) : outcome (vec3 F) :=
    stToDir (coordsToST cx cy invDim) face.

  (** sh.hpp:67-70 *)
  Definition sphereQuadrantArea (x y : F) : F := tatan2 (x * y)%sc (lengthp3 (V3 x y f1)).
  (** sh.hpp:71-77 *)
  Definition calcSolidAngle (st : vec2 F) (invDim : F) : F :=
    let v0 := V2 (x2 st - invDim)%sc (y2 st - invDim)%sc in
    let v1 := V2 (x2 st + invDim)%sc (y2 st + invDim)%sc in
    (sphereQuadrantArea (x2 v0) (y2 v0) - sphereQuadrantArea (x2 v0) (y2 v1)
     - sphereQuadrantArea (x2 v1) (y2 v0) + sphereQuadrantArea (x2 v1) (y2 v1))%sc.

  (** brdf.hpp:82-89; f32x4(x, y, z) repeats z *)
  Definition cosTheta2 (uy a : F) : F := ((f1 - uy) / (f1 + (a + f1) * ((a - f1) * uy)))%sc.
  Definition importanceSamplingNdfDggx (u : vec2 F) (a : F) : vec4 F :=
    let phi := (f2 * piF * x2 u)%sc in
    let c2 := cosTheta2 (y2 u) a in
    let cosTheta := ssqrt c2 in
    let sinTheta := ssqrt (f1 - c2)%sc in
    of3 (sinTheta * tcos phi)%sc (sinTheta * tsin phi)%sc cosTheta.
End Ibl.
