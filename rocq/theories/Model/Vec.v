(** Vectors of two, three and four lanes, and the plain float vectors of
    /repo/include/math/vector/float.hpp. *)
From Coq Require Import ZArith Bool.
From Verif.Model Require Import Scalar.

(** The storage of float2/int2/uint2 (/repo/include/math/vector/float.hpp:38-42,
    int.hpp, uint.hpp:39-43), float3/int3/uint3 and float4/int4/uint4.  The latter is also
    the storage of f32x4/i32x4/u32x4 (/repo/include/math/simd/vector/float.hpp:40-48). *)
Record vec2 (A : Type) := V2 { x2 : A; y2 : A }.
Record vec3 (A : Type) := V3 { x3 : A; y3 : A; z3 : A }.
Record vec4 (A : Type) := V4 { vx : A; vy : A; vz : A; vw : A }.
Arguments V2 {A} _ _. Arguments x2 {A} _. Arguments y2 {A} _.
Arguments V3 {A} _ _ _. Arguments x3 {A} _. Arguments y3 {A} _. Arguments z3 {A} _.
Arguments V4 {A} _ _ _ _. Arguments vx {A} _. Arguments vy {A} _. Arguments vz {A} _. Arguments vw {A} _.

(** Lane-wise application, the shape of every component-wise operator of the headers. *)
Definition map2_2 {A B C} (f : A -> B -> C) (a : vec2 A) (b : vec2 B) : vec2 C :=
  V2 (f (x2 a) (x2 b)) (f (y2 a) (y2 b)).
Definition map2_3 {A B C} (f : A -> B -> C) (a : vec3 A) (b : vec3 B) : vec3 C :=
  V3 (f (x3 a) (x3 b)) (f (y3 a) (y3 b)) (f (z3 a) (z3 b)).
Definition map2_4 {A B C} (f : A -> B -> C) (a : vec4 A) (b : vec4 B) : vec4 C :=
  V4 (f (vx a) (vx b)) (f (vy a) (vy b)) (f (vz a) (vz b)) (f (vw a) (vw b)).
Definition map_2 {A B} (f : A -> B) (a : vec2 A) : vec2 B := V2 (f (x2 a)) (f (y2 a)).
Definition map_3 {A B} (f : A -> B) (a : vec3 A) : vec3 B := V3 (f (x3 a)) (f (y3 a)) (f (z3 a)).
Definition map_4 {A B} (f : A -> B) (a : vec4 A) : vec4 B :=
  V4 (f (vx a)) (f (vy a)) (f (vz a)) (f (vw a)).
(** The constructors taking one scalar, e.g. simd/vector/float.hpp:70-79. *)
Definition dup2 {A} (a : A) : vec2 A := V2 a a.
Definition dup3 {A} (a : A) : vec3 A := V3 a a a.
Definition dup4 {A} (a : A) : vec4 A := V4 a a a a.
(** operator[] of the four-lane vectors, simd/vector/float.hpp:383-388 (index 0..3; any
    other index, undefined in the code, is excluded by the callers of the model). *)
Definition lane {A} (v : vec4 A) (i : Z) : A :=
  match i with 0%Z => vx v | 1%Z => vy v | 2%Z => vz v | _ => vw v end.
(** (float3)float4, vector/float.hpp; drops w *)
Definition xyz {A} (v : vec4 A) : vec3 A := V3 (vx v) (vy v) (vz v).

Section Plain.
  Context {F : Type} {S : Scalar F}.

  (** vector/float.hpp: operators + - * / on float3 and scalar multiples (component-wise). *)
  Definition add3 : vec3 F -> vec3 F -> vec3 F := map2_3 sadd.
  Definition sub3 : vec3 F -> vec3 F -> vec3 F := map2_3 ssub.
  Definition mul3 : vec3 F -> vec3 F -> vec3 F := map2_3 smul.
  Definition div3 : vec3 F -> vec3 F -> vec3 F := map2_3 sdiv.
  Definition neg3 : vec3 F -> vec3 F := map_3 sneg.
  Definition scale3 (v : vec3 F) (n : F) : vec3 F := map_3 (fun a => (a * n)%sc) v.
  Definition add2 : vec2 F -> vec2 F -> vec2 F := map2_2 sadd.
  Definition sub2 : vec2 F -> vec2 F -> vec2 F := map2_2 ssub.
  Definition scale2 (v : vec2 F) (n : F) : vec2 F := map_2 (fun a => (a * n)%sc) v.
  Definition addp4 : vec4 F -> vec4 F -> vec4 F := map2_4 sadd.
  Definition subp4 : vec4 F -> vec4 F -> vec4 F := map2_4 ssub.
  Definition scalep4 (v : vec4 F) (n : F) : vec4 F := map_4 (fun a => (a * n)%sc) v.

  (** vector/float.hpp:702 *)
  Definition dotp2 (a b : vec2 F) : F := (x2 a * x2 b + y2 a * y2 b)%sc.
  (** vector/float.hpp:976 *)
  Definition dotp3 (a b : vec3 F) : F := (x3 a * x3 b + y3 a * y3 b + z3 a * z3 b)%sc.
  (** vector/float.hpp:1287 *)
  Definition dotp4 (a b : vec4 F) : F :=
    (vx a * vx b + vy a * vy b + vz a * vz b + vw a * vw b)%sc.
  (** vector/float.hpp:983-986 *)
  Definition crossp (a b : vec3 F) : vec3 F :=
    V3 (y3 a * z3 b - z3 a * y3 b)%sc (z3 a * x3 b - x3 a * z3 b)%sc
       (x3 a * y3 b - y3 a * x3 b)%sc.
  (** vector/float.hpp:714, 998, 1299 *)
  Definition lengthp2 (v : vec2 F) : F := ssqrt (dotp2 v v).
  Definition lengthp3 (v : vec3 F) : F := ssqrt (dotp3 v v).
  Definition lengthp4 (v : vec4 F) : F := ssqrt (dotp4 v v).
  (** vector/float.hpp:746, 1030, 1331: multiplication by the reciprocal *)
  Definition normalizep2 (v : vec2 F) : vec2 F := scale2 v (f1 / lengthp2 v)%sc.
  Definition normalizep3 (v : vec3 F) : vec3 F := scale3 v (f1 / lengthp3 v)%sc.
  Definition normalizep4 (v : vec4 F) : vec4 F := scalep4 v (f1 / lengthp4 v)%sc.
End Plain.
