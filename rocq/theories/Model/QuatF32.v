(** The quaternion constructors of /repo/include/math/quaternion.hpp that call sinCos, in binary32
    with the library's own sine and cosine (Transc.v). *)
From Coq Require Import ZArith.
From Verif.Model Require Import Scalar Vec Simd Transc.

(** quaternion.hpp:69-74: half the angle in all lanes; select takes the cosine in the last one *)
Definition axisQuat (p : path) (angle : f32) (axis : vec4 f32) : vec4 f32 :=
  let '(s, c) := sinCosLane p (angle * fhalf)%sc in
  V4 (vx axis * s)%sc (vy axis * s)%sc (vz axis * s)%sc c.
(** quaternion.hpp:155-166 *)
Definition eulerQuat (p : path) (a : vec4 f32) : vec4 f32 :=
  let '(sX, cX) := sinCosLane p (vx a * fhalf)%sc in
  let '(sY, cY) := sinCosLane p (vy a * fhalf)%sc in
  let '(sZ, cZ) := sinCosLane p (vz a * fhalf)%sc in
  V4 (sX * cY * cZ - cX * sY * sZ)%sc (cX * sY * cZ + sX * cY * sZ)%sc
     (cX * cY * sZ - sX * sY * cZ)%sc (cX * cY * cZ + sX * sY * sZ)%sc.
