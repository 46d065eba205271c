(** Model of /repo/include/math/matrix/float.hpp (float2x2, float3x3, float4x4) and
    /repo/include/math/simd/matrix/float.hpp (f32x4x4). *)
From Coq Require Import ZArith Bool.
From Verif.Model Require Import Scalar Vec Simd.
Local Open Scope Z_scope.

(** matrix/float.hpp:36-39, 142-146, 369-374; simd/matrix/float.hpp:31-33: columns.  float4x4
    and f32x4x4 have the same layout and are cast into each other (simd/matrix/float.hpp:80,
    122-125). *)
Record mat2 (A : Type) := M2 { a0 : vec2 A; a1 : vec2 A }.
Record mat3 (A : Type) := M3 { b0 : vec3 A; b1 : vec3 A; b2 : vec3 A }.
Record mat4 (A : Type) := M4 { c0 : vec4 A; c1 : vec4 A; c2 : vec4 A; c3 : vec4 A }.
Arguments M2 {A} _ _. Arguments a0 {A} _. Arguments a1 {A} _.
Arguments M3 {A} _ _ _. Arguments b0 {A} _. Arguments b1 {A} _. Arguments b2 {A} _.
Arguments M4 {A} _ _ _ _. Arguments c0 {A} _. Arguments c1 {A} _. Arguments c2 {A} _. Arguments c3 {A} _.

(** matrix/float.hpp:50-54, 157-163, 395-403 (and simd/matrix/float.hpp:48-57): the
    constructors that list the entries row by row. *)
Definition rows2 {A} (c0r0 c1r0 c0r1 c1r1 : A) : mat2 A := M2 (V2 c0r0 c0r1) (V2 c1r0 c1r1).
Definition rows3 {A} (c0r0 c1r0 c2r0 c0r1 c1r1 c2r1 c0r2 c1r2 c2r2 : A) : mat3 A :=
  M3 (V3 c0r0 c0r1 c0r2) (V3 c1r0 c1r1 c1r2) (V3 c2r0 c2r1 c2r2).
Definition rows4 {A} (c0r0 c1r0 c2r0 c3r0 c0r1 c1r1 c2r1 c3r1 c0r2 c1r2 c2r2 c3r2 c0r3 c1r3 c2r3 c3r3 : A)
  : mat4 A :=
  M4 (V4 c0r0 c0r1 c0r2 c0r3) (V4 c1r0 c1r1 c1r2 c1r3) (V4 c2r0 c2r1 c2r2 c2r3) (V4 c3r0 c3r1 c3r2 c3r3).

(** (float3x3)float4x4, (float3x3)f32x4x4: matrix/float.hpp:432; simd/matrix/float.hpp:136-139 *)
Definition to3x3 {A} (m : mat4 A) : mat3 A := M3 (xyz (c0 m)) (xyz (c1 m)) (xyz (c2 m)).
(** f32x4x4(float3x3, c3, r3) with r3 given: simd/matrix/float.hpp:97-98 *)
Definition of3x3 {A} (m : mat3 A) (cc3 r3 : vec4 A) : mat4 A :=
  M4 (V4 (x3 (b0 m)) (y3 (b0 m)) (z3 (b0 m)) (vx r3)) (V4 (x3 (b1 m)) (y3 (b1 m)) (z3 (b1 m)) (vy r3))
     (V4 (x3 (b2 m)) (y3 (b2 m)) (z3 (b2 m)) (vz r3)) cc3.

(** matrix/float.hpp:613-641, transpose *)
Definition transposep2 {A} (m : mat2 A) : mat2 A :=
  rows2 (x2 (a0 m)) (y2 (a0 m)) (x2 (a1 m)) (y2 (a1 m)).
Definition transposep3 {A} (m : mat3 A) : mat3 A :=
  rows3 (x3 (b0 m)) (y3 (b0 m)) (z3 (b0 m)) (x3 (b1 m)) (y3 (b1 m)) (z3 (b1 m))
        (x3 (b2 m)) (y3 (b2 m)) (z3 (b2 m)).
Definition transposep4 {A} (m : mat4 A) : mat4 A :=
  rows4 (vx (c0 m)) (vy (c0 m)) (vz (c0 m)) (vw (c0 m)) (vx (c1 m)) (vy (c1 m)) (vz (c1 m)) (vw (c1 m))
        (vx (c2 m)) (vy (c2 m)) (vz (c2 m)) (vw (c2 m)) (vx (c3 m)) (vy (c3 m)) (vz (c3 m)) (vw (c3 m)).

(** _mm_shuffle_ps(v, w, _MM_SHUFFLE(d, c, b, a)): two lanes of v, then two lanes of w *)
Definition shuf {A} (v w : vec4 A) (d c b a : Z) : vec4 A := V4 (lane v a) (lane v b) (lane w c) (lane w d).
(** __builtin_shufflevector(v, w, a, b, c, d): lanes 0-3 of v, 4-7 of w *)
Definition lane8 {A} (v w : vec4 A) (i : Z) : A := if i <? 4 then lane v i else lane w (i - 4).
Definition shuf8 {A} (v w : vec4 A) (a b c d : Z) : vec4 A :=
  V4 (lane8 v w a) (lane8 v w b) (lane8 v w c) (lane8 v w d).
(** vzipq_f32: interleaved low halves and high halves *)
Definition zipLo {A} (v w : vec4 A) : vec4 A := V4 (vx v) (vx w) (vy v) (vy w).
Definition zipHi {A} (v w : vec4 A) : vec4 A := V4 (vz v) (vz w) (vw v) (vw w).

Section Matrix.
  Context {F : Type} {S : Scalar F} (p : path).
  Notation f32x4 := (vec4 F).
  Notation f32x4x4 := (mat4 F).

  (** *** Plain matrices *)
  (** identities: matrix/float.hpp:131-133, 248-251, 515-519; simd/matrix/float.hpp:267-272 *)
  Definition identity2 : mat2 F := rows2 f1 f0 f0 f1.
  Definition identity3 : mat3 F := rows3 f1 f0 f0 f0 f1 f0 f0 f0 f1.
  Definition identity4 : mat4 F := rows4 f1 f0 f0 f0 f0 f1 f0 f0 f0 f0 f1 f0 f0 f0 f0 f1.

  (** matrix/float.hpp:95-100 *)
  Definition mulm2 (a m : mat2 F) : mat2 F :=
    M2 (add2 (scale2 (a0 a) (x2 (a0 m))) (scale2 (a1 a) (y2 (a0 m))))
       (add2 (scale2 (a0 a) (x2 (a1 m))) (scale2 (a1 a) (y2 (a1 m)))).
  (** matrix/float.hpp:105-110 *)
  Definition mulv2 (a : mat2 F) (v : vec2 F) : vec2 F :=
    V2 (x2 (a0 a) * x2 v + x2 (a1 a) * y2 v)%sc (y2 (a0 a) * x2 v + y2 (a1 a) * y2 v)%sc.
  (** matrix/float.hpp:210-216 *)
  Definition col3 (a : mat3 F) (v : vec3 F) : vec3 F :=
    add3 (add3 (scale3 (b0 a) (x3 v)) (scale3 (b1 a) (y3 v))) (scale3 (b2 a) (z3 v)).
  Definition mulm3 (a m : mat3 F) : mat3 F := M3 (col3 a (b0 m)) (col3 a (b1 m)) (col3 a (b2 m)).
  (** matrix/float.hpp:221-227 *)
  Definition mulv3 (a : mat3 F) (v : vec3 F) : vec3 F :=
    V3 (x3 (b0 a) * x3 v + x3 (b1 a) * y3 v + x3 (b2 a) * z3 v)%sc
       (y3 (b0 a) * x3 v + y3 (b1 a) * y3 v + y3 (b2 a) * z3 v)%sc
       (z3 (b0 a) * x3 v + z3 (b1 a) * y3 v + z3 (b2 a) * z3 v)%sc.
  (** matrix/float.hpp:470-477 *)
  Definition col4 (a : mat4 F) (v : vec4 F) : vec4 F :=
    addp4 (addp4 (addp4 (scalep4 (c0 a) (vx v)) (scalep4 (c1 a) (vy v))) (scalep4 (c2 a) (vz v)))
          (scalep4 (c3 a) (vw v)).
  Definition mulm4 (a m : mat4 F) : mat4 F :=
    M4 (col4 a (c0 m)) (col4 a (c1 m)) (col4 a (c2 m)) (col4 a (c3 m)).
  (** matrix/float.hpp:482-489 *)
  Definition mulv4 (a : mat4 F) (v : vec4 F) : vec4 F :=
    V4 (vx (c0 a) * vx v + vx (c1 a) * vy v + vx (c2 a) * vz v + vx (c3 a) * vw v)%sc
       (vy (c0 a) * vx v + vy (c1 a) * vy v + vy (c2 a) * vz v + vy (c3 a) * vw v)%sc
       (vz (c0 a) * vx v + vz (c1 a) * vy v + vz (c2 a) * vz v + vz (c3 a) * vw v)%sc
       (vw (c0 a) * vx v + vw (c1 a) * vy v + vw (c2 a) * vz v + vw (c3 a) * vw v)%sc.

  (** matrix/float.hpp:575-607, vector * matrix *)
  Definition vmulm2 (v : vec2 F) (m : mat2 F) : vec2 F :=
    V2 (x2 (a0 m) * x2 v + x2 (a1 m) * x2 v)%sc (y2 (a0 m) * y2 v + y2 (a1 m) * y2 v)%sc.
  Definition vmulm3 (v : vec3 F) (m : mat3 F) : vec3 F :=
    V3 (x3 (b0 m) * x3 v + x3 (b1 m) * x3 v + x3 (b2 m) * x3 v)%sc
       (y3 (b0 m) * y3 v + y3 (b1 m) * y3 v + y3 (b2 m) * y3 v)%sc
       (z3 (b0 m) * z3 v + z3 (b1 m) * z3 v + z3 (b2 m) * z3 v)%sc.
  Definition vmulm4 (v : vec4 F) (m : mat4 F) : vec4 F :=
    V4 (vx (c0 m) * vx v + vx (c1 m) * vx v + vx (c2 m) * vx v + vx (c3 m) * vx v)%sc
       (vy (c0 m) * vy v + vy (c1 m) * vy v + vy (c2 m) * vy v + vy (c3 m) * vy v)%sc
       (vz (c0 m) * vz v + vz (c1 m) * vz v + vz (c2 m) * vz v + vz (c3 m) * vz v)%sc
       (vw (c0 m) * vw v + vw (c1 m) * vw v + vw (c2 m) * vw v + vw (c3 m) * vw v)%sc.

  (** matrix/float.hpp:647-652 *)
  Definition inverse2 (m : mat2 F) : mat2 F :=
    let i := (f1 / (x2 (a0 m) * y2 (a1 m) - x2 (a1 m) * y2 (a0 m)))%sc in
    rows2 (y2 (a1 m) * i)%sc (- y2 (a0 m) * i)%sc (- x2 (a1 m) * i)%sc (x2 (a0 m) * i)%sc.
  (** matrix/float.hpp:657-673 *)
  Definition inverse3 (m : mat3 F) : mat3 F :=
    let '(M3 (V3 ax ay az) (V3 bx by_ bz) (V3 cx cy cz)) := m in
    let i := (f1 / (ax * (by_ * cz - cy * bz) - bx * (ay * cz - cy * az) + cx * (ay * bz - by_ * az)))%sc in
    rows3 ((by_ * cz - cy * bz) * i)%sc (- (ay * cz - cy * az) * i)%sc ((ay * cz - by_ * az) * i)%sc
          (- (bx * cz - cx * bz) * i)%sc ((ax * cz - cx * az) * i)%sc (- (ax * cz - bx * az) * i)%sc
          ((bx * cy - cx * by_) * i)%sc (- (ax * cy - cx * ay) * i)%sc ((ax * cy - bx * ay) * i)%sc.
  (** matrix/float.hpp:680-715: the four signed cofactor columns *)
  Definition cofactors4 (m : mat4 F) : mat4 F :=
    let '(M4 (V4 m0x m0y m0z m0w) (V4 m1x m1y m1z m1w) (V4 m2x m2y m2z m2w) (V4 m3x m3y m3z m3w)) := m in
    let k00 := (m2z * m3w - m3z * m2w)%sc in
    let k02 := (m1z * m3w - m3z * m1w)%sc in
    let k03 := (m1z * m2w - m2z * m1w)%sc in
    let k04 := (m2y * m3w - m3y * m2w)%sc in
    let k06 := (m1y * m3w - m3y * m1w)%sc in
    let k07 := (m1y * m2w - m2y * m1w)%sc in
    let k08 := (m2y * m3z - m3y * m2z)%sc in
    let k10 := (m1y * m3z - m3y * m1z)%sc in
    let k11 := (m1y * m2z - m2y * m1z)%sc in
    let k12 := (m2x * m3w - m3x * m2w)%sc in
    let k14 := (m1x * m3w - m3x * m1w)%sc in
    let k15 := (m1x * m2w - m2x * m1w)%sc in
    let k16 := (m2x * m3z - m3x * m2z)%sc in
    let k18 := (m1x * m3z - m3x * m1z)%sc in
    let k19 := (m1x * m2z - m2x * m1z)%sc in
    let k20 := (m2x * m3y - m3x * m2y)%sc in
    let k22 := (m1x * m3y - m3x * m1y)%sc in
    let k23 := (m1x * m2y - m2x * m1y)%sc in
    let g0 := V4 k00 k00 k02 k03 in
    let g1 := V4 k04 k04 k06 k07 in
    let g2 := V4 k08 k08 k10 k11 in
    let g3 := V4 k12 k12 k14 k15 in
    let g4 := V4 k16 k16 k18 k19 in
    let g5 := V4 k20 k20 k22 k23 in
    let v0 := V4 m1x m0x m0x m0x in
    let v1 := V4 m1y m0y m0y m0y in
    let v2 := V4 m1z m0z m0z m0z in
    let v3 := V4 m1w m0w m0w m0w in
    let mul := map2_4 smul in let add := map2_4 sadd in let sub := map2_4 ssub in
    let i0 := add (sub (mul v1 g0) (mul v2 g1)) (mul v3 g2) in
    let i1 := add (sub (mul v0 g0) (mul v2 g3)) (mul v3 g4) in
    let i2 := add (sub (mul v0 g1) (mul v1 g3)) (mul v3 g5) in
    let i3 := add (sub (mul v0 g2) (mul v1 g4)) (mul v2 g5) in
    let sA := V4 f1 (- f1)%sc f1 (- f1)%sc in
    let sB := V4 (- f1)%sc f1 (- f1)%sc f1 in
    let q0 := mul i0 sA in let q1 := mul i1 sB in let q2 := mul i2 sA in let q3 := mul i3 sB in
    M4 q0 q1 q2 q3.
  (** matrix/float.hpp:678-723 *)
  Definition inverse4 (m : mat4 F) : mat4 F :=
    let '(M4 q0 q1 q2 q3) := cofactors4 m in
    let r0 := V4 (vx q0) (vx q1) (vx q2) (vx q3) in
    let d0 := map2_4 smul (c0 m) r0 in
    let d1 := ((vx d0 + vy d0) + (vz d0 + vw d0))%sc in
    let k := (f1 / d1)%sc in
    M4 (scalep4 q0 k) (scalep4 q1 k) (scalep4 q2 k) (scalep4 q3 k).

  (** *** SIMD matrices *)
  (** simd/matrix/float.hpp:186-211: one column of the product on the SIMD paths *)
  Definition simdCol (m : f32x4x4) (v : f32x4) : f32x4 :=
    let r := vmul (c0 m) (splatX v) in
    let r := vfma p (c1 m) (splatY v) r in
    let r := vfma p (c2 m) (splatZ v) r in
    vfma p (c3 m) (splatW v) r.
  (** simd/matrix/float.hpp:186-213; the generic path is the float4x4 product *)
  Definition mulM (a m : f32x4x4) : f32x4x4 :=
    match p with
    | GEN => mulm4 a m
    | _ => M4 (simdCol a (c0 m)) (simdCol a (c1 m)) (simdCol a (c2 m)) (simdCol a (c3 m))
    end.
  (** simd/matrix/float.hpp:218-235 *)
  Definition mulV (m : f32x4x4) (v : f32x4) : f32x4 :=
    match p with GEN => mulv4 m v | _ => simdCol m v end.
  (** simd/matrix/float.hpp:290-311: columns of the 3x3 product on the SIMD paths *)
  Definition simdCol3 (m : f32x4x4) (v : f32x4) : f32x4 :=
    let r := vmul (c0 m) (splatX v) in
    let r := vfma p (c1 m) (splatY v) r in
    vfma p (c2 m) (splatZ v) r.
  (** simd/matrix/float.hpp:290-315 *)
  Definition multiply3x3 (a b : f32x4x4) : f32x4x4 :=
    match p with
    | GEN => of3x3 (mulm3 (to3x3 a) (to3x3 b)) (c3 a) (dup4 f0)
    | _ => M4 (simdCol3 a (c0 b)) (simdCol3 a (c1 b)) (simdCol3 a (c2 b)) (simdCol3 a (c3 b))
    end.
  (** simd/matrix/float.hpp:321-339; the final swizzle<X,Y,Z,U> puts the Z lane last *)
  Definition multiply3x3v (m : f32x4x4) (v : f32x4) : f32x4 :=
    let r := match p with GEN => ofFloat3 (mulv3 (to3x3 m) (xyz v)) | _ => simdCol3 m v end in
    V4 (vx r) (vy r) (vz r) (vz r).
  (** simd/matrix/float.hpp:345-366 *)
  Definition transpose4x4 (m : f32x4x4) : f32x4x4 :=
    match p with
    | SSE2 | SSE41 | AVX2 =>
        let t1 := shuf (c0 m) (c1 m) 1 0 1 0 in let t3 := shuf (c0 m) (c1 m) 3 2 3 2 in
        let t2 := shuf (c2 m) (c3 m) 1 0 1 0 in let t4 := shuf (c2 m) (c3 m) 3 2 3 2 in
        M4 (shuf t1 t2 2 0 2 0) (shuf t1 t2 3 1 3 1) (shuf t3 t4 2 0 2 0) (shuf t3 t4 3 1 3 1)
    | NEON =>
        let t1l := zipLo (c0 m) (c2 m) in let t1h := zipHi (c0 m) (c2 m) in
        let t2l := zipLo (c1 m) (c3 m) in let t2h := zipHi (c1 m) (c3 m) in
        M4 (zipLo t1l t2l) (zipHi t1l t2l) (zipLo t1h t2h) (zipHi t1h t2h)
    | GEN => transposep4 m
    end.
  (** simd/matrix/float.hpp:371-396 *)
  Definition transpose3x3 (m : f32x4x4) : f32x4x4 :=
    match p with
    | SSE2 | SSE41 | AVX2 =>
        let zero := dup4 f0 in
        let t1 := shuf (c0 m) (c1 m) 1 0 1 0 in let t3 := shuf (c0 m) (c1 m) 3 2 3 2 in
        let t2 := shuf (c2 m) zero 1 0 1 0 in let t4 := shuf (c2 m) zero 3 2 3 2 in
        M4 (shuf t1 t2 2 0 2 0) (shuf t1 t2 3 1 3 1) (shuf t3 t4 2 0 2 0) (c3 m)
    | NEON =>
        let t1l := zipLo (c0 m) (c2 m) in let t1h := zipHi (c0 m) (c2 m) in
        let t2l := zipLo (c1 m) (dup4 f0) in let t2h := zipHi (c1 m) (dup4 f0) in
        M4 (zipLo t1l t2l) (zipHi t1l t2l) (zipLo t1h t2h) (c3 m)
    | GEN =>
        let r := transposep3 (to3x3 m) in
        M4 (V4 (x3 (b0 r)) (y3 (b0 r)) (z3 (b0 r)) (vx (c3 m)))
           (V4 (x3 (b1 r)) (y3 (b1 r)) (z3 (b1 r)) (vy (c3 m)))
           (V4 (x3 (b2 r)) (y3 (b2 r)) (z3 (b2 r)) (vz (c3 m))) (c3 m)
    end.

  (** simd/matrix/float.hpp:405-467, the cofactor columns of the SSE code and r0; the NEON
      code, 476-538, is the same sequence with the same permutations. *)
  Definition cofactorsSSE (m : f32x4x4) : f32x4 * f32x4x4 :=
    let t1 := shuf (c0 m) (c1 m) 1 0 1 0 in
    let r1 := shuf (c2 m) (c3 m) 1 0 1 0 in
    let r0 := shuf t1 r1 2 0 2 0 in
    let r1 := shuf r1 t1 3 1 3 1 in
    let t1 := shuf (c0 m) (c1 m) 3 2 3 2 in
    let r3 := shuf (c2 m) (c3 m) 3 2 3 2 in
    let r2 := shuf t1 r3 2 0 2 0 in
    let r3 := shuf r3 t1 3 1 3 1 in
    let t1 := vmul r2 r3 in
    let t1 := shuf t1 t1 2 3 0 1 in
    let m0 := vmul r1 t1 in
    let m1 := vmul r0 t1 in
    let t1 := shuf t1 t1 1 0 3 2 in
    let m0 := vsub (vmul r1 t1) m0 in
    let m1 := vsub (vmul r0 t1) m1 in
    let m1 := shuf m1 m1 1 0 3 2 in
    let t1 := vmul r1 r2 in
    let t1 := shuf t1 t1 2 3 0 1 in
    let m0 := vfma p r3 t1 m0 in
    let m3 := vmul r0 t1 in
    let t1 := shuf t1 t1 1 0 3 2 in
    let m0 := vsub m0 (vmul r3 t1) in
    let m3 := vsub (vmul r0 t1) m3 in
    let m3 := shuf m3 m3 1 0 3 2 in
    let t1 := vmul (shuf r1 r1 1 0 3 2) r3 in
    let t1 := shuf t1 t1 2 3 0 1 in
    let r2 := shuf r2 r2 1 0 3 2 in
    let m0 := vfma p r2 t1 m0 in
    let m2 := vmul r0 t1 in
    let t1 := shuf t1 t1 1 0 3 2 in
    let m0 := vsub m0 (vmul r2 t1) in
    let m2 := vsub (vmul r0 t1) m2 in
    let m2 := shuf m2 m2 1 0 3 2 in
    let t1 := vmul r0 r1 in
    let t1 := shuf t1 t1 2 3 0 1 in
    let m2 := vfma p r3 t1 m2 in
    let m3 := vsub (vmul r2 t1) m3 in
    let t1 := shuf t1 t1 1 0 3 2 in
    let m2 := vsub (vmul r3 t1) m2 in
    let m3 := vsub m3 (vmul r2 t1) in
    let t1 := vmul r0 r3 in
    let t1 := shuf t1 t1 2 3 0 1 in
    let m1 := vsub m1 (vmul r2 t1) in
    let m2 := vfma p r1 t1 m2 in
    let t1 := shuf t1 t1 1 0 3 2 in
    let m1 := vfma p r2 t1 m1 in
    let m2 := vsub m2 (vmul r1 t1) in
    let t1 := vmul r0 r2 in
    let t1 := shuf t1 t1 2 3 0 1 in
    let m1 := vfma p r3 t1 m1 in
    let m3 := vsub m3 (vmul r1 t1) in
    let t1 := shuf t1 t1 1 0 3 2 in
    let m1 := vsub m1 (vmul r3 t1) in
    let m3 := vfma p r1 t1 m3 in
    (r0, M4 m0 m1 m2 m3).
  (** simd/matrix/float.hpp:476-538 *)
  Definition cofactorsNEON (m : f32x4x4) : f32x4 * f32x4x4 :=
    let t1 := shuf8 (c0 m) (c1 m) 0 1 4 5 in
    let r1 := shuf8 (c2 m) (c3 m) 0 1 4 5 in
    let r0 := shuf8 t1 r1 0 2 4 6 in
    let r1 := shuf8 r1 t1 1 3 5 7 in
    let t1 := shuf8 (c0 m) (c1 m) 2 3 6 7 in
    let r3 := shuf8 (c2 m) (c3 m) 2 3 6 7 in
    let r2 := shuf8 t1 r3 0 2 4 6 in
    let r3 := shuf8 r3 t1 1 3 5 7 in
    let t1 := vmul r2 r3 in
    let t1 := shuf8 t1 t1 1 0 3 2 in
    let m0 := vmul r1 t1 in
    let m1 := vmul r0 t1 in
    let t1 := shuf8 t1 t1 2 3 0 1 in
    let m0 := vsub (vmul r1 t1) m0 in
    let m1 := vsub (vmul r0 t1) m1 in
    let m1 := shuf8 m1 m1 2 3 0 1 in
    let t1 := vmul r1 r2 in
    let t1 := shuf8 t1 t1 1 0 3 2 in
    let m0 := vfma p r3 t1 m0 in
    let m3 := vmul r0 t1 in
    let t1 := shuf8 t1 t1 2 3 0 1 in
    let m0 := vsub m0 (vmul r3 t1) in
    let m3 := vsub (vmul r0 t1) m3 in
    let m3 := shuf8 m3 m3 2 3 0 1 in
    let t1 := shuf8 r1 r1 2 3 0 1 in
    let t1 := vmul t1 r3 in
    let t1 := shuf8 t1 t1 1 0 3 2 in
    let r2 := shuf8 r2 r2 2 3 0 1 in
    let m0 := vfma p r2 t1 m0 in
    let m2 := vmul r0 t1 in
    let t1 := shuf8 t1 t1 2 3 0 1 in
    let m0 := vsub m0 (vmul r2 t1) in
    let m2 := vsub (vmul r0 t1) m2 in
    let m2 := shuf8 m2 m2 2 3 0 1 in
    let t1 := vmul r0 r1 in
    let t1 := shuf8 t1 t1 1 0 3 2 in
    let m2 := vfma p r3 t1 m2 in
    let m3 := vsub (vmul r2 t1) m3 in
    let t1 := shuf8 t1 t1 2 3 0 1 in
    let m2 := vsub (vmul r3 t1) m2 in
    let m3 := vsub m3 (vmul r2 t1) in
    let t1 := vmul r0 r3 in
    let t1 := shuf8 t1 t1 1 0 3 2 in
    let m1 := vsub m1 (vmul r2 t1) in
    let m2 := vfma p r1 t1 m2 in
    let t1 := shuf8 t1 t1 2 3 0 1 in
    let m1 := vfma p r2 t1 m1 in
    let m2 := vsub m2 (vmul r1 t1) in
    let t1 := vmul r0 r2 in
    let t1 := shuf8 t1 t1 1 0 3 2 in
    let m1 := vfma p r3 t1 m1 in
    let m3 := vsub m3 (vmul r1 t1) in
    let t1 := shuf8 t1 t1 2 3 0 1 in
    let m1 := vsub m1 (vmul r3 t1) in
    let m3 := vfma p r1 t1 m3 in
    (r0, M4 m0 m1 m2 m3).
  (** simd/matrix/float.hpp:402-547 *)
  Definition inverse4x4 (m : f32x4x4) : f32x4x4 :=
    match p with
    | SSE2 | SSE41 | AVX2 =>
        let '(r0, M4 m0 m1 m2 m3) := cofactorsSSE m in
        let d := vmul r0 m0 in
        let d := vadd (shuf d d 2 3 0 1) d in
        let s := shuf d d 1 0 3 2 in
        let d := V4 (vx s + vx d)%sc (vy s) (vz s) (vw s) in
        let d := V4 (f1 / vx d)%sc f0 f0 f0 in
        let d := shuf d d 0 0 0 0 in
        M4 (vmul d m0) (vmul d m1) (vmul d m2) (vmul d m3)
    | NEON =>
        let '(r0, M4 m0 m1 m2 m3) := cofactorsNEON m in
        let d := vmul r0 m0 in
        let d := dup4 ((vx d + vy d) + (vz d + vw d))%sc in
        let d := vdiv (dup4 f1) d in
        M4 (vmul d m0) (vmul d m1) (vmul d m2) (vmul d m3)
    | GEN => inverse4 m
    end.
End Matrix.
