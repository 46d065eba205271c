(** Model of the named directions of /repo/include/math: f32x4::left, ..., Plane::left, ..., Ray::left, ... *)
From Coq Require Import ZArith.
From Verif.Model Require Import Scalar Vec Simd Aabb Geometry.

(** the six names of simd/vector/float.hpp:592-597, plane.hpp:107-112 and ray.hpp:96-101 *)
Inductive direction := Left | Right | Bottom | Top | Back | Front.

Section Directions.
  Context {F : Type} {S : Scalar F} (p : path).
  (** simd/vector/float.hpp:592-597; -1.0f is [slit (-1) 0] *)
  Definition dirVec (d : direction) : vec4 F :=
    match d with
    | Left => V4 (slit (-1) 0) f0 f0 f0
    | Right => V4 f1 f0 f0 f0
    | Bottom => V4 f0 (slit (-1) 0) f0 f0
    | Top => V4 f0 f1 f0 f0
    | Back => V4 f0 f0 (slit (-1) 0) f0
    | Front => V4 f0 f0 f1 f0
    end.
  (** plane.hpp:107-112: the normals are written out once more there *)
  Definition dirPlane (d : direction) : vec4 F :=
    match d with
    | Left => newPlane p (V4 (slit (-1) 0) f0 f0 f0) f0 false
    | Right => newPlane p (V4 f1 f0 f0 f0) f0 false
    | Bottom => newPlane p (V4 f0 (slit (-1) 0) f0 f0) f0 false
    | Top => newPlane p (V4 f0 f1 f0 f0) f0 false
    | Back => newPlane p (V4 f0 f0 (slit (-1) 0) f0) f0 false
    | Front => newPlane p (V4 f0 f0 f1 f0) f0 false
    end.
  (** ray.hpp:96-101: and once more there *)
  Definition dirRay (d : direction) : ray F :=
    match d with
    | Left => newRay p (dup4 f0) (V4 (slit (-1) 0) f0 f0 f0) false
    | Right => newRay p (dup4 f0) (V4 f1 f0 f0 f0) false
    | Bottom => newRay p (dup4 f0) (V4 f0 (slit (-1) 0) f0 f0) false
    | Top => newRay p (dup4 f0) (V4 f0 f1 f0 f0) false
    | Back => newRay p (dup4 f0) (V4 f0 f0 (slit (-1) 0) f0) false
    | Front => newRay p (dup4 f0) (V4 f0 f0 f1 f0) false
    end.
End Directions.
