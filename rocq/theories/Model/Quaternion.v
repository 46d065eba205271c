(** Model of /repo/include/math/quaternion.hpp; a quaternion is an f32x4 with the real part in w. *)
From Coq Require Import ZArith Bool.
From Verif.Model Require Import Scalar Vec Simd Trig.

Section Quat.
  Context {F : Type} {S : Scalar F} (p : path).
  Notation quat := (vec4 F).
  (** quaternion.hpp:143 *)
  Definition qidentity : quat := V4 f0 f0 f0 f1.
  (** quaternion.hpp:80-89 *)
  Definition qmul (a q : quat) : quat :=
    let x := vx a in let y := vy a in let z := vz a in let w := vw a in
    let qX := vx q in let qY := vy q in let qZ := vz q in let qW := vw q in
    V4 (w * qX + x * qW + y * qZ - z * qY)%sc (w * qY + y * qW + z * qX - x * qZ)%sc
       (w * qZ + z * qW + x * qY - y * qX)%sc (w * qW - x * qX - y * qY - z * qZ)%sc.
  (** quaternion.hpp:94-98 *)
  Definition qrot (q : quat) (v : vec4 F) : vec4 F :=
    let cq := cross3 p q v in let ccq := cross3 p q cq in
    vfma p (vfma p cq (dup4 (vw q)) ccq) (dup4 f2) v.
  (** quaternion.hpp:149 *)
  Definition qnormalize (q : quat) : quat := normalize4 p q.
  (** quaternion.hpp:199-203: the sign bits of x, y, z are flipped *)
  Definition qconj (q : quat) : quat := V4 (- vx q)%sc (- vy q)%sc (- vz q)%sc (vw q).
  (** quaternion.hpp:208 *)
  Definition qinverse (q : quat) : quat := vdivn (qconj q) (dot4 p q q).
  (** quaternion.hpp:216 *)
  Definition vqrot (v : vec4 F) (q : quat) : vec4 F := qrot (qinverse q) v.

  (** The functions below use sine and cosine.  sinCos (simd/vector/float.hpp:1306-1341), a
      polynomial approximation, is replaced by [tsin] and [tcos]. *)
  Context {T : Trig F}.
  (** quaternion.hpp:69-74 *)
  Definition quatOfAxis (angle : F) (axis : vec4 F) : quat :=
    let h := (angle * fhalf)%sc in
    V4 (vx axis * tsin h)%sc (vy axis * tsin h)%sc (vz axis * tsin h)%sc (tcos h).
  (** quaternion.hpp:155-166 *)
  Definition fromEulerAngles (a : vec4 F) : quat :=
    let sX := tsin (vx a * fhalf)%sc in let sY := tsin (vy a * fhalf)%sc in let sZ := tsin (vz a * fhalf)%sc in
    let cX := tcos (vx a * fhalf)%sc in let cY := tcos (vy a * fhalf)%sc in let cZ := tcos (vz a * fhalf)%sc in
    V4 (sX * cY * cZ - cX * sY * sZ)%sc (cX * sY * cZ + sX * cY * sZ)%sc
       (cX * cY * sZ - sX * sY * cZ)%sc (cX * cY * cZ + sX * sY * sZ)%sc.
  (** quaternion.hpp:108-118 *)
  Definition extractPitch (q : quat) : F :=
    let x := vx q in let y := vy q in let z := vz q in let w := vw q in
    let yy := (f2 * (y * z + w * x))%sc in
    let xx := (w * w - x * x - y * y + z * z)%sc in
    if sle (sabs xx) fltEps || sle (sabs yy) fltEps then (f2 * tatan2 x w)%sc else tatan2 yy xx.
  (** quaternion.hpp:122-125 *)
  Definition extractYaw (q : quat) : F :=
    tasin (stdclamp (- f2 * (vx q * vz q - vw q * vy q))%sc (- f1)%sc f1).
  (** quaternion.hpp:129-133 *)
  Definition extractRoll (q : quat) : F :=
    let x := vx q in let y := vy q in let z := vz q in let w := vw q in
    tatan2 (f2 * (x * y + w * z))%sc (w * w + x * x - y * y - z * z)%sc.
  (** quaternion.hpp:137 *)
  Definition extractEulerAngles (q : quat) : vec4 F := of3 (extractPitch q) (extractYaw q) (extractRoll q).
  (** quaternion.hpp:175-193 *)
  Definition slerp (a b : quat) (t : F) : quat :=
    let cosTheta := dot4 p a b in
    let c := if slt cosTheta f0 then vneg b else b in
    let cosTheta := if slt cosTheta f0 then (- cosTheta)%sc else cosTheta in
    if sgt cosTheta (f1 - fltEps)%sc then vlerp a c t else
    let angle := tacos cosTheta in
    vdivn (vadd (vscale a (tsin ((f1 - t) * angle)%sc)) (vscale c (tsin (t * angle)%sc))) (tsin angle).
End Quat.
