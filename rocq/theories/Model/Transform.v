(** Model of /repo/include/math/matrix/transform.hpp and matrix/projection.hpp. *)
From Coq Require Import ZArith Bool.
From Verif.Model Require Import Scalar Vec Simd Matrix Trig Quaternion.

Section Transform.
  Context {F : Type} {S : Scalar F} (p : path).
  Notation f32x4 := (vec4 F).
  Notation f32x4x4 := (mat4 F).
  Notation quat := (vec4 F) (only parsing).
  (** transform.hpp:31-34 *)
  Definition getTranslation (m : f32x4x4) : f32x4 := c3 m.
  (** transform.hpp:41-44 *)
  Definition setTranslation (m : f32x4x4) (t : f32x4) : f32x4x4 := M4 (c0 m) (c1 m) (c2 m) (withW t (vw (c3 m))).
  (** transform.hpp:50-54 *)
  Definition translate (t : f32x4) : f32x4x4 := M4 (V4 f1 f0 f0 f0) (V4 f0 f1 f0 f0) (V4 f0 f0 f1 f0) (withW t f1).
  (** transform.hpp:61-64 *)
  Definition translateBy (m : f32x4x4) (t : f32x4) : f32x4x4 :=
    M4 (c0 m) (c1 m) (c2 m) (withW (vadd (c3 m) (multiply3x3v p m t)) (vw (c3 m))).
  (** transform.hpp:71-74 *)
  Definition translateOf (t : f32x4) (m : f32x4x4) : f32x4x4 :=
    M4 (c0 m) (c1 m) (c2 m) (withW (vadd (c3 m) t) (vw (c3 m))).
  (** transform.hpp:80-84 *)
  Definition scale (s : f32x4) : f32x4x4 :=
    M4 (V4 (vx s) f0 f0 f0) (V4 f0 (vy s) f0 f0) (V4 f0 f0 (vz s) f0) (V4 f0 f0 f0 f1).
  (** transform.hpp:91-94 *)
  Definition scaleBy (m : f32x4x4) (s : f32x4) : f32x4x4 :=
    M4 (vmul (c0 m) (dup4 (vx s))) (vmul (c1 m) (dup4 (vy s))) (vmul (c2 m) (dup4 (vz s))) (c3 m).
  (** transform.hpp:101-105 *)
  Definition scaleOf (s : f32x4) (m : f32x4x4) : f32x4x4 :=
    let sm := scale s in M4 (mulV p sm (c0 m)) (mulV p sm (c1 m)) (mulV p sm (c2 m)) (mulV p sm (c3 m)).
  (** transform.hpp:111-114 *)
  Definition extractScale (m : f32x4x4) : f32x4 := of3 (lengthSq3 p (c0 m)) (lengthSq3 p (c1 m)) (lengthSq3 p (c2 m)).
  (** transform.hpp:119-122 *)
  Definition extractScale2 (m : f32x4x4) : vec2 F := V2 (lengthSq3 p (c0 m)) (length3 p (c1 m)).
  (** transform.hpp:128-140 *)
  Definition rotate (q : quat) : f32x4x4 :=
    let x := vx q in let y := vy q in let z := vz q in let w := vw q in
    let xx := (x * x)%sc in let yy := (y * y)%sc in let zz := (z * z)%sc in
    let xz := (x * z)%sc in let xy := (x * y)%sc in let yz := (y * z)%sc in
    let wx := (w * x)%sc in let wy := (w * y)%sc in let wz := (w * z)%sc in
    M4 (V4 (f1 - f2 * (yy + zz))%sc (f2 * (xy + wz))%sc (f2 * (xz - wy))%sc f0)
       (V4 (f2 * (xy - wz))%sc (f1 - f2 * (xx + zz))%sc (f2 * (yz + wx))%sc f0)
       (V4 (f2 * (xz + wy))%sc (f2 * (yz - wx))%sc (f1 - f2 * (xx + yy))%sc f0)
       (V4 f0 f0 f0 f1).
  (** transform.hpp:163-170 *)
  Definition rotateFront (front up : f32x4) : f32x4x4 :=
    let s := normalize3 p (cross3 p up front) in
    let u := cross3 p front s in
    M4 (withW s f0) (withW u f0) (withW front f0) (V4 f0 f0 f0 f1).
  (** transform.hpp:148-156 *)
  Definition rotateLook (lookFrom lookTo up : f32x4) : f32x4x4 :=
    rotateFront (normalize3 p (vsub lookTo lookFrom)) up.
  (** transform.hpp:176-185 *)
  Definition extractRotation (m : f32x4x4) : f32x4x4 :=
    let inv := vdiv (dup4 f1) (extractScale m) in
    M4 (withW (vscale (c0 m) (vx inv)) f0) (withW (vscale (c1 m) (vy inv)) f0)
       (withW (vscale (c2 m) (vz inv)) f0) (V4 f0 f0 f0 f1).
  (** transform.hpp:191-195 *)
  Definition extractRotationOnly (m : f32x4x4) : f32x4x4 :=
    M4 (withW (c0 m) f0) (withW (c1 m) f0) (withW (c2 m) f0) (V4 f0 f0 f0 f1).
  (** transform.hpp:201-242: index of the largest component (0 = w, 1 = x, 2 = y, 3 = z) and
      four times its square minus one *)
  Definition biggest (m : f32x4x4) : Z * F :=
    let a := vx (c0 m) in let b := vy (c1 m) in let c := vz (c2 m) in
    let x4 := (a - b - c)%sc in let y4 := (b - a - c)%sc in let z4 := (c - a - b)%sc in let w4 := (a + b + c)%sc in
    let r := (0%Z, w4) in
    let r := if sgt x4 (snd r) then (1%Z, x4) else r in
    let r := if sgt y4 (snd r) then (2%Z, y4) else r in
    if sgt z4 (snd r) then (3%Z, z4) else r.
  (** transform.hpp:201-242; 0.25f is [slit 1 (-2)].  The default branch (abort) is unreachable
      since [biggest] returns 0..3. *)
  Definition extractQuat (m : f32x4x4) : quat :=
    let b := biggest m in
    let v := (ssqrt (snd b + f1) * fhalf)%sc in
    let k := (slit 1 (-2) / v)%sc in
    let a01 := (vy (c0 m) + vx (c1 m))%sc in let a02 := (vx (c2 m) + vz (c0 m))%sc in let a12 := (vz (c1 m) + vy (c2 m))%sc in
    let s01 := (vy (c0 m) - vx (c1 m))%sc in let s02 := (vx (c2 m) - vz (c0 m))%sc in let s12 := (vz (c1 m) - vy (c2 m))%sc in
    if (fst b =? 0)%Z then V4 (s12 * k)%sc (s02 * k)%sc (s01 * k)%sc v
    else if (fst b =? 1)%Z then V4 v (a01 * k)%sc (a02 * k)%sc (s12 * k)%sc
    else if (fst b =? 2)%Z then V4 (a01 * k)%sc v (a12 * k)%sc (s02 * k)%sc
    else V4 (a02 * k)%sc (a12 * k)%sc v (s01 * k)%sc.
  (** simd/vector/float.hpp:508-517: all four lanes equal *)
  Definition allEq (a b : f32x4) : bool := seq (vx a) (vx b) && seq (vy a) (vy b) && seq (vz a) (vz b) && seq (vw a) (vw b).
  (** transform.hpp:251-256 *)
  Definition calcModel (position : f32x4) (rotation : quat) (s : f32x4) : f32x4x4 :=
    if allEq s (dup4 f1) then translateOf position (rotate (qnormalize p rotation))
    else mulM p (mulM p (translate position) (rotate (qnormalize p rotation))) (scale s).
  (** transform.hpp:265-270 *)
  Definition extractTransform (m : f32x4x4) : f32x4 * quat * f32x4 :=
    (getTranslation m, extractQuat (extractRotation m), extractScale m).
  (** transform.hpp:278-282 *)
  Definition extractTransform2 (m : f32x4x4) : f32x4 * quat := (getTranslation m, extractQuat (extractRotationOnly m)).
  (** transform.hpp:291-299 *)
  Definition lookAt (from to up : f32x4) : f32x4x4 :=
    let f := normalize3 p (vsub to from) in
    let s := normalize3 p (cross3 p up f) in
    let u := cross3 p f s in
    transpose4x4 p (M4 (withW s (- dot3 p s from)%sc) (withW u (- dot3 p u from)%sc)
      (withW f (- dot3 p f from)%sc) (V4 f0 f0 f0 f1)).
  (** transform.hpp:306-313; 0.00001f is [slit 2748779 (-38)] *)
  Definition lookAtQuat (direction up : f32x4) : quat :=
    let right := cross3 p up direction in
    let k := (f1 / ssqrt (stdmax (slit 2748779 (-38)) (dot3 p right right)))%sc in
    let c0 := vscale right k in
    let c1 := cross3 p right c0 in
    extractQuat (M4 c0 c1 direction direction).
  (** transform.hpp:320-325 *)
  Definition inverseTransRot (m : f32x4x4) : f32x4x4 :=
    let t := transpose4x4 p m in setTranslation t (vneg (multiply3x3v p t (getTranslation m))).

  (** *** projection.hpp *)
  Context {T : Trig F}.
  (** projection.hpp:39-47 *)
  Definition calcPerspProjInfRevZ (fieldOfView aspectRatio nearPlane : F) : mat4 F :=
    let t := ttan (fieldOfView * fhalf)%sc in
    rows4 (f1 / (aspectRatio * t))%sc f0 f0 f0  f0 (- f1 / t)%sc f0 f0  f0 f0 f0 nearPlane  f0 f0 f1 f0.
  (** projection.hpp:56-65 *)
  Definition calcPerspProjRevZ (fieldOfView aspectRatio nearPlane farPlane : F) : mat4 F :=
    let t := ttan (fieldOfView * fhalf)%sc in
    rows4 (f1 / (aspectRatio * t))%sc f0 f0 f0  f0 (- f1 / t)%sc f0 f0
      f0 f0 (nearPlane / (nearPlane - farPlane))%sc (- (nearPlane * farPlane) / (nearPlane - farPlane))%sc  f0 f0 f1 f0.
  (** projection.hpp:74-83 *)
  Definition calcPerspProj (fieldOfView aspectRatio nearPlane farPlane : F) : mat4 F :=
    let t := ttan (fieldOfView * fhalf)%sc in
    rows4 (f1 / (aspectRatio * t))%sc f0 f0 f0  f0 (- f1 / t)%sc f0 f0
      f0 f0 (farPlane / (farPlane - nearPlane))%sc (- (farPlane * nearPlane) / (farPlane - nearPlane))%sc  f0 f0 f1 f0.
End Transform.
Section Ortho.
  Context {F : Type} {S : Scalar F}.
  (** projection.hpp:92-99 *)
  Definition calcOrthoProjRevZ (width height depth : vec2 F) : mat4 F :=
    rows4 (f2 / (y2 width - x2 width))%sc f0 f0 (- (y2 width + x2 width) / (y2 width - x2 width))%sc
      f0 (- f2 / (y2 height - x2 height))%sc f0 ((y2 height + x2 height) / (y2 height - x2 height))%sc
      f0 f0 (f1 / (x2 depth - y2 depth))%sc (- y2 depth / (x2 depth - y2 depth))%sc  f0 f0 f0 f1.
  (** projection.hpp:107-114 *)
  Definition calcOrthoProj (width height depth : vec2 F) : mat4 F :=
    rows4 (f2 / (y2 width - x2 width))%sc f0 f0 (- (y2 width + x2 width) / (y2 width - x2 width))%sc
      f0 (- f2 / (y2 height - x2 height))%sc f0 ((y2 height + x2 height) / (y2 height - x2 height))%sc
      f0 f0 (f1 / (y2 depth - x2 depth))%sc (- x2 depth / (y2 depth - x2 depth))%sc  f0 f0 f0 f1.
End Ortho.
