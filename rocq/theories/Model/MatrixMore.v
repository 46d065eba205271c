(** Model of float4x3, the conversions between matrices and the operators with a number:
    /repo/include/math/matrix/float.hpp and /repo/include/math/simd/matrix/float.hpp. *)
From Coq Require Import ZArith Bool.
From Verif.Model Require Import Outcome Scalar Vec Simd Matrix.
Local Open Scope Z_scope.

(** matrix/float.hpp:260-265: four columns of three rows *)
Record mat43 (A : Type) := M43 { e0 : vec3 A; e1 : vec3 A; e2 : vec3 A; e3 : vec3 A }.
Arguments M43 {A} _ _ _ _. Arguments e0 {A} _. Arguments e1 {A} _. Arguments e2 {A} _. Arguments e3 {A} _.

(** float4(float3, w): vector/float.hpp:393 *)
Definition withRow {A} (v : vec3 A) (w : A) : vec4 A := V4 (x3 v) (y3 v) (z3 v) w.
(** (float2)float3: vector/float.hpp:259 *)
Definition xy {A} (v : vec3 A) : vec2 A := V2 (x3 v) (y3 v).

(** matrix/float.hpp:275-282: the constructor that lists the entries row by row *)
Definition rows43 {A} (c0r0 c1r0 c2r0 c3r0 c0r1 c1r1 c2r1 c3r1 c0r2 c1r2 c2r2 c3r2 : A) : mat43 A :=
  M43 (V3 c0r0 c0r1 c0r2) (V3 c1r0 c1r1 c1r2) (V3 c2r0 c2r1 c2r2) (V3 c3r0 c3r1 c3r2).
(** float4x4(float4x3, r3) and f32x4x4(float4x3, r3): matrix/float.hpp:410-411,
    simd/matrix/float.hpp:87-89 *)
Definition of4x3 {A} (m : mat43 A) (r3 : vec4 A) : mat4 A :=
  M4 (withRow (e0 m) (vx r3)) (withRow (e1 m) (vy r3)) (withRow (e2 m) (vz r3)) (withRow (e3 m) (vw r3)).
(** (float4x3)float4x4, (float4x3)f32x4x4: matrix/float.hpp:425-428, simd/matrix/float.hpp:129-132 *)
Definition to4x3 {A} (m : mat4 A) : mat43 A := M43 (xyz (c0 m)) (xyz (c1 m)) (xyz (c2 m)) (xyz (c3 m)).
(** (float2x2)float4x3, (float3x3)float4x3: matrix/float.hpp:296, 301 *)
Definition m43to2 {A} (m : mat43 A) : mat2 A := M2 (xy (e0 m)) (xy (e1 m)).
Definition m43to3 {A} (m : mat43 A) : mat3 A := M3 (e0 m) (e1 m) (e2 m).
(** (float2x2)float4x4, (float2x2)f32x4x4: matrix/float.hpp:436, simd/matrix/float.hpp:143 *)
Definition m4to2 {A} (m : mat4 A) : mat2 A := M2 (V2 (vx (c0 m)) (vy (c0 m))) (V2 (vx (c1 m)) (vy (c1 m))).
(** f32x4x4(c0, c1, c2): simd/matrix/float.hpp:75 *)
Definition threeColumns {A} (a b c : vec4 A) : mat4 A := M4 a b c c.

(** operator[]: assert(i <= last), then the column in memory; [count] columns exist.
    matrix/float.hpp:67-80 (1 of 2), 182-195 (2 of 3), 307-320 (2 of 4), 442-455 (3 of 4);
    simd/matrix/float.hpp:104-117 (3 of 4) *)
Definition column {A} (debug : bool) (last : Z) (cols : list A) (i : Z) : outcome A :=
  if debug && negb (i <=? last) then Abort
  else match List.nth_error cols (Z.to_nat i) with Some c => Ok c | None => UB end.
Definition column2 {A} (debug : bool) (m : mat2 A) : Z -> outcome (vec2 A) := column debug 1 (cons (a0 m) (cons (a1 m) nil)).
Definition column3 {A} (debug : bool) (m : mat3 A) : Z -> outcome (vec3 A) :=
  column debug 2 (cons (b0 m) (cons (b1 m) (cons (b2 m) nil))).
Definition column43 {A} (debug : bool) (m : mat43 A) : Z -> outcome (vec3 A) :=
  column debug 2 (cons (e0 m) (cons (e1 m) (cons (e2 m) (cons (e3 m) nil)))).
Definition column4 {A} (debug : bool) (m : mat4 A) : Z -> outcome (vec4 A) :=
  column debug 3 (cons (c0 m) (cons (c1 m) (cons (c2 m) (cons (c3 m) nil)))).

Section MatrixMore.
  Context {F : Type} {S : Scalar F}.

  (** matrix/float.hpp:335-341 *)
  Definition mulv43 (a : mat43 F) (v : vec4 F) : vec3 F :=
    V3 (x3 (e0 a) * vx v + x3 (e1 a) * vy v + x3 (e2 a) * vz v + x3 (e3 a) * vw v)%sc
       (y3 (e0 a) * vx v + y3 (e1 a) * vy v + y3 (e2 a) * vz v + y3 (e3 a) * vw v)%sc
       (z3 (e0 a) * vx v + z3 (e1 a) * vy v + z3 (e2 a) * vz v + z3 (e3 a) * vw v)%sc.
  (** matrix/float.hpp:356-359 *)
  Definition identity43 : mat43 F := rows43 f1 f0 f0 f0 f0 f1 f0 f0 f0 f0 f1 f0.

  (** matrix op number: matrix/float.hpp:82-89, 197-204, 322-329, 457-464;
      simd/matrix/float.hpp:149-180, 254-258 *)
  Inductive arith := AAdd | ASub | AMul | ADiv.
  Definition arithOp (o : arith) (a b : F) : F :=
    match o with AAdd => (a + b)%sc | ASub => (a - b)%sc | AMul => (a * b)%sc | ADiv => (a / b)%sc end.
  Definition numR2 (o : arith) (m : mat2 F) (n : F) : mat2 F :=
    M2 (map_2 (fun a => arithOp o a n) (a0 m)) (map_2 (fun a => arithOp o a n) (a1 m)).
  Definition numR3 (o : arith) (m : mat3 F) (n : F) : mat3 F :=
    M3 (map_3 (fun a => arithOp o a n) (b0 m)) (map_3 (fun a => arithOp o a n) (b1 m)) (map_3 (fun a => arithOp o a n) (b2 m)).
  Definition numR43 (o : arith) (m : mat43 F) (n : F) : mat43 F :=
    M43 (map_3 (fun a => arithOp o a n) (e0 m)) (map_3 (fun a => arithOp o a n) (e1 m))
        (map_3 (fun a => arithOp o a n) (e2 m)) (map_3 (fun a => arithOp o a n) (e3 m)).
  Definition numR4 (o : arith) (m : mat4 F) (n : F) : mat4 F :=
    M4 (map_4 (fun a => arithOp o a n) (c0 m)) (map_4 (fun a => arithOp o a n) (c1 m))
       (map_4 (fun a => arithOp o a n) (c2 m)) (map_4 (fun a => arithOp o a n) (c3 m)).
  (** number op matrix: matrix/float.hpp:525-569 *)
  Definition numL2 (o : arith) (n : F) (m : mat2 F) : mat2 F :=
    M2 (map_2 (fun a => arithOp o n a) (a0 m)) (map_2 (fun a => arithOp o n a) (a1 m)).
  Definition numL3 (o : arith) (n : F) (m : mat3 F) : mat3 F :=
    M3 (map_3 (fun a => arithOp o n a) (b0 m)) (map_3 (fun a => arithOp o n a) (b1 m)) (map_3 (fun a => arithOp o n a) (b2 m)).
  Definition numL43 (o : arith) (n : F) (m : mat43 F) : mat43 F :=
    M43 (map_3 (fun a => arithOp o n a) (e0 m)) (map_3 (fun a => arithOp o n a) (e1 m))
        (map_3 (fun a => arithOp o n a) (e2 m)) (map_3 (fun a => arithOp o n a) (e3 m)).
  Definition numL4 (o : arith) (n : F) (m : mat4 F) : mat4 F :=
    M4 (map_4 (fun a => arithOp o n a) (c0 m)) (map_4 (fun a => arithOp o n a) (c1 m))
       (map_4 (fun a => arithOp o n a) (c2 m)) (map_4 (fun a => arithOp o n a) (c3 m)).
End MatrixMore.
