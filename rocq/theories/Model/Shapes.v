(** Model of the operators of /repo/include/math/ray.hpp, line.hpp, triangle.hpp, plane.hpp,
    sphere.hpp, aabb.hpp and the equality operators of the float vectors and matrices.  The
    assignment operators of lines and triangles do what the binary ones do. *)
From Coq Require Import ZArith Bool List.
From Flocq Require Import IEEE754.Binary IEEE754.Bits.
From Verif.Model Require Import Outcome Scalar Vec Simd Aabb Matrix Geometry IntVec.
Import ListNotations.

Section Shapes.
  Context {F : Type} {S : Scalar F} (p : path).
  Notation f32x4 := (vec4 F).

  (** *** Lines: line.hpp:31-73 *)
  Record line := mkLine { lstart : f32x4; lend : f32x4 }.
  (** line.hpp:58-61 *)
  Definition lineDirection (l : line) (normalize : bool) : f32x4 :=
    if normalize then normalize3 p (vsub (lend l) (lstart l)) else vsub (lend l) (lstart l).
  (** line.hpp:63-70 *)
  Definition lineMul (l : line) (v : f32x4) : line := mkLine (vmul (lstart l) v) (vmul (lend l) v).
  Definition lineDiv (l : line) (v : f32x4) : line := mkLine (vdiv (lstart l) v) (vdiv (lend l) v).
  Definition lineAdd (l : line) (v : f32x4) : line := mkLine (vadd (lstart l) v) (vadd (lend l) v).
  Definition lineSub (l : line) (v : f32x4) : line := mkLine (vsub (lstart l) v) (vsub (lend l) v).

  (** *** Triangles: triangle.hpp:55-62 *)
  Definition triMul (t : triangle F) (v : f32x4) : triangle F := mkTriangle (vmul (t0 t) v) (vmul (t1 t) v) (vmul (t2 t) v).
  Definition triDiv (t : triangle F) (v : f32x4) : triangle F := mkTriangle (vdiv (t0 t) v) (vdiv (t1 t) v) (vdiv (t2 t) v).
  Definition triAdd (t : triangle F) (v : f32x4) : triangle F := mkTriangle (vadd (t0 t) v) (vadd (t1 t) v) (vadd (t2 t) v).
  Definition triSub (t : triangle F) (v : f32x4) : triangle F := mkTriangle (vsub (t0 t) v) (vsub (t1 t) v) (vsub (t2 t) v).

  (** *** Rays *)
  (** ray.hpp:80 *)
  Definition rayNormalize (r : ray F) : ray F :=
    mkRay (vdivn (rdir r) (length3 p (rdir r))) (rparallel r) (rorigin r).
  (** ray.hpp:82-85: the constructor normalizes and clears the flags *)
  Definition rayMul (r : ray F) (v : f32x4) : ray F := newRay p (vmul (rorigin r) v) (vmul (rdir r) v) true.
  Definition rayDiv (r : ray F) (v : f32x4) : ray F := newRay p (vdiv (rorigin r) v) (vdiv (rdir r) v) true.
  Definition rayAdd (r : ray F) (v : f32x4) : ray F := newRay p (vadd (rorigin r) v) (vadd (rdir r) v) true.
  Definition raySub (r : ray F) (v : f32x4) : ray F := newRay p (vsub (rorigin r) v) (vsub (rdir r) v) true.
  (** ray.hpp:86-89: neither normalized nor are the flags updated *)
  Definition rayMulAssign (r : ray F) (v : f32x4) : ray F := mkRay (vmul (rdir r) v) (rparallel r) (vmul (rorigin r) v).
  Definition rayDivAssign (r : ray F) (v : f32x4) : ray F := mkRay (vdiv (rdir r) v) (rparallel r) (vdiv (rorigin r) v).
  Definition rayAddAssign (r : ray F) (v : f32x4) : ray F := mkRay (vadd (rdir r) v) (rparallel r) (vadd (rorigin r) v).
  Definition raySubAssign (r : ray F) (v : f32x4) : ray F := mkRay (vsub (rdir r) v) (rparallel r) (vsub (rorigin r) v).

  (** *** Planes: plane.hpp:74, 89-94 *)
  Definition getDistance (pl : f32x4) : F := vw pl.
  Definition setDistance (pl : f32x4) (distance : F) : f32x4 := withW pl distance.
  (** *** Spheres: sphere.hpp:51-63 *)
  Definition setRadius (s : f32x4) (radius : F) : f32x4 := withW s radius.
  Definition setSpherePosition (s position : f32x4) : f32x4 := withW position (vw s).

  (** *** Equality of SIMD values *)
  (** simd/vector/float.hpp:508-527; the SSE code compares the four sign bits of the mask with
      0b1111, the NEON code the least lane with all ones or zero, the generic code is
      vector/float.hpp:497-498 *)
  Definition f32x4Eq (a b : f32x4) : bool :=
    match p with
    | SSE2 | SSE41 | AVX2 => Z.eqb (getTrues4 (veq a b)) 15
    | NEON => Z.eqb (zmin4 (veq a b)) allOnes
    | GEN => seq (vx a) (vx b) && seq (vy a) (vy b) && seq (vz a) (vz b) && seq (vw a) (vw b)
    end.
  Definition f32x4Ne (a b : f32x4) : bool :=
    match p with
    | SSE2 | SSE41 | AVX2 => negb (Z.eqb (getTrues4 (veq a b)) 15)
    | NEON => Z.eqb (zmin4 (veq a b)) 0
    | GEN => negb (seq (vx a) (vx b)) || negb (seq (vy a) (vy b)) || negb (seq (vz a) (vz b)) || negb (seq (vw a) (vw b))
    end.
  (** simd/matrix/float.hpp:243-250 *)
  Definition f32x4x4Eq (a b : mat4 F) : bool :=
    areAllTrue4 p (uand (uand (uand (veq (c0 a) (c0 b)) (veq (c1 a) (c1 b))) (veq (c2 a) (c2 b))) (veq (c3 a) (c3 b))).
  Definition f32x4x4Ne (a b : mat4 F) : bool :=
    areAnyTrue4 p (uor (uor (uor (vne (c0 a) (c0 b)) (vne (c1 a) (c1 b))) (vne (c2 a) (c2 b))) (vne (c3 a) (c3 b))).
End Shapes.
Arguments line F : clear implicits.

(** *** Equality by memcmp *)
(** memcmp(a, b, n) == 0 *)
Definition memcmpEq (a b : list Z) : bool := forallb (fun '(x, y) => Z.eqb x y) (combine a b) && Nat.eqb (length a) (length b).
Definition bytes4 (v : vec4 f32) : list Z := mem4 (map_4 bits_of_b32 v).
(** plane.hpp:101, sphere.hpp:65 *)
Definition planeEq (a b : vec4 f32) : bool := memcmpEq (bytes4 a) (bytes4 b).
(** line.hpp:71, aabb.hpp:258, triangle.hpp:63 *)
Definition lineEq (a b : line f32) : bool :=
  memcmpEq (bytes4 (lstart a) ++ bytes4 (lend a)) (bytes4 (lstart b) ++ bytes4 (lend b)).
Definition aabbEq (a b : aabb f32) : bool :=
  memcmpEq (bytes4 (bmin a) ++ bytes4 (bmax a)) (bytes4 (bmin b) ++ bytes4 (bmax b)).
Definition triEq (a b : triangle f32) : bool :=
  memcmpEq (bytes4 (t0 a) ++ bytes4 (t1 a) ++ bytes4 (t2 a)) (bytes4 (t0 b) ++ bytes4 (t1 b) ++ bytes4 (t2 b)).
(** ray.hpp:90: the direction, the parallel flags and the origin in memory order (33-40) *)
Definition rayEq (a b : ray f32) : bool :=
  memcmpEq (bytes4 (rdir a) ++ mem4 (rparallel a) ++ bytes4 (rorigin a))
           (bytes4 (rdir b) ++ mem4 (rparallel b) ++ bytes4 (rorigin b)).
(** matrix/float.hpp:500 *)
Definition float4x4Eq (a b : mat4 f32) : bool :=
  memcmpEq (bytes4 (c0 a) ++ bytes4 (c1 a) ++ bytes4 (c2 a) ++ bytes4 (c3 a))
           (bytes4 (c0 b) ++ bytes4 (c1 b) ++ bytes4 (c2 b) ++ bytes4 (c3 b)).
