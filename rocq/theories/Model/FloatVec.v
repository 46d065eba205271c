(** float2, float3, float4 and f32x4: comparison, equality and arithmetic operators, conversions to
    and from integer vectors, and the named constants (vector/float.hpp, simd/vector/float.hpp). *)
From Coq Require Import ZArith Bool.
From Flocq Require Import Core.Core IEEE754.BinarySingleNaN IEEE754.Binary IEEE754.Bits.
From Verif.Model Require Import Outcome Scalar Vec Simd IntVec.
Local Open Scope Z_scope.
Local Open Scope outcome_scope.

(** The arithmetic operators of vector/float.hpp:102-105, 266-269, 478-481 *)
Inductive aop := AAdd | ASub | AMul | ADiv.

Section FloatVec.
  Context {F : Type} {S : Scalar F}.

  (** One lane of a comparison: [x < v.x ? UINT32_MAX : 0] (vector/float.hpp:122-137, 286-301,
      499-518), equal and notEqual (830-845, 1120-1135).  != is true on NaN. *)
  Definition fcmpLane (c : cmp) (a b : F) : bool :=
    match c with
    | CLt => slt a b
    | CGt => sgt a b
    | CLe => sle a b
    | CGe => sge a b
    | CEq => seq a b
    | CNe => negb (seq a b)
    end.
  Definition fcompare2 (c : cmp) : vec2 F -> vec2 F -> vec2 Z :=
    map2_2 (fun a b => maskOf (fcmpLane c a b)).
  Definition fcompare3 (c : cmp) : vec3 F -> vec3 F -> vec3 Z :=
    map2_3 (fun a b => maskOf (fcmpLane c a b)).
  Definition fcompare4 (c : cmp) : vec4 F -> vec4 F -> vec4 Z :=
    map2_4 (fun a b => maskOf (fcmpLane c a b)).
  (** vector/float.hpp:565-578: equal and notEqual of a float2 take a float4 as second operand *)
  Definition equalF2 (a : vec2 F) (b : vec4 F) : vec2 Z :=
    V2 (maskOf (seq (x2 a) (vx b))) (maskOf (seq (y2 a) (vy b))).
  Definition notEqualF2 (a : vec2 F) (b : vec4 F) : vec2 Z :=
    V2 (maskOf (negb (seq (x2 a) (vx b)))) (maskOf (negb (seq (y2 a) (vy b)))).
  (** simd/vector/float.hpp:528-567 and 686-711: the instruction each operator uses.  cmpneq is
      the unordered comparison, vmvn(vceq) its complement, so != is true on NaN as well. *)
  Definition fcompareS (c : cmp) : vec4 F -> vec4 F -> vec4 Z :=
    match c with
    | CLt => vlt
    | CGt => vgt
    | CLe => vle
    | CGe => vge
    | CEq => veq
    | CNe => vne
    end.
  (** With a number on the right: vector/float.hpp:140-143, 304-307, 521-524,
      simd/vector/float.hpp:571-574; on the left: vector/float.hpp:548-551, 812-815, 1100-1103,
      simd/vector/float.hpp:612-615 *)
  Definition fcompareN2 (c : cmp) (v : vec2 F) (n : F) : vec2 Z := fcompare2 c v (dup2 n).
  Definition fcompareN3 (c : cmp) (v : vec3 F) (n : F) : vec3 Z := fcompare3 c v (dup3 n).
  Definition fcompareN4 (c : cmp) (v : vec4 F) (n : F) : vec4 Z := fcompare4 c v (dup4 n).
  Definition fcompareSN (c : cmp) (v : vec4 F) (n : F) : vec4 Z := fcompareS c v (dup4 n).
  Definition nfcompare2 (c : cmp) (n : F) (v : vec2 F) : vec2 Z := fcompare2 c (dup2 n) v.
  Definition nfcompare3 (c : cmp) (n : F) (v : vec3 F) : vec3 Z := fcompare3 c (dup3 n) v.
  Definition nfcompare4 (c : cmp) (n : F) (v : vec4 F) : vec4 Z := fcompare4 c (dup4 n) v.
  Definition nfcompareS (c : cmp) (n : F) (v : vec4 F) : vec4 Z := fcompareS c (dup4 n) v.

  (** operator== and operator!=: vector/float.hpp:120-121, 284-285, 497-498 *)
  Definition feq2 (a b : vec2 F) : bool := seq (x2 a) (x2 b) && seq (y2 a) (y2 b).
  Definition fne2 (a b : vec2 F) : bool := negb (seq (x2 a) (x2 b)) || negb (seq (y2 a) (y2 b)).
  Definition feq3 (a b : vec3 F) : bool :=
    seq (x3 a) (x3 b) && seq (y3 a) (y3 b) && seq (z3 a) (z3 b).
  Definition fne3 (a b : vec3 F) : bool :=
    negb (seq (x3 a) (x3 b)) || negb (seq (y3 a) (y3 b)) || negb (seq (z3 a) (z3 b)).
  Definition feq4 (a b : vec4 F) : bool :=
    seq (vx a) (vx b) && seq (vy a) (vy b) && seq (vz a) (vz b) && seq (vw a) (vw b).
  Definition fne4 (a b : vec4 F) : bool :=
    negb (seq (vx a) (vx b)) || negb (seq (vy a) (vy b)) || negb (seq (vz a) (vz b))
    || negb (seq (vw a) (vw b)).
  (** == and != with a number, vector/float.hpp:138-139, 302-303, 519-520 and 546-547, 810-811,
      1098-1099, convert the number with dup first. *)
  Definition feqN2 (v : vec2 F) (n : F) : bool := feq2 v (dup2 n).
  Definition feqN3 (v : vec3 F) (n : F) : bool := feq3 v (dup3 n).
  Definition feqN4 (v : vec4 F) (n : F) : bool := feq4 v (dup4 n).
  (** simd/vector/float.hpp:508-527: movemask_ps against 0b1111; vminvq against all ones, and
      against zero for != *)
  Definition feqS (p : path) (a b : vec4 F) : bool :=
    match p with
    | SSE2 | SSE41 | AVX2 => getTrues4 (veq a b) =? 15
    | NEON => zmin4 (veq a b) =? allOnes
    | GEN => feq4 a b
    end.
  Definition fneS (p : path) (a b : vec4 F) : bool :=
    match p with
    | SSE2 | SSE41 | AVX2 => negb (getTrues4 (veq a b) =? 15)
    | NEON => zmin4 (veq a b) =? 0
    | GEN => fne4 a b
    end.

  (** vector/float.hpp:102-105, 266-269, 478-481: vector with vector; a compound assignment
      (111-114, 275-278, 487-490) stores the same result *)
  Definition flane (o : aop) : F -> F -> F :=
    match o with AAdd => sadd | ASub => ssub | AMul => smul | ADiv => sdiv end.
  Definition fop2 (o : aop) : vec2 F -> vec2 F -> vec2 F := map2_2 (flane o).
  Definition fop3 (o : aop) : vec3 F -> vec3 F -> vec3 F := map2_3 (flane o).
  Definition fop4 (o : aop) : vec4 F -> vec4 F -> vec4 F := map2_4 (flane o).
  (** vector/float.hpp:106-109, 270-273, 482-485: vector with number *)
  Definition fopN2 (o : aop) (v : vec2 F) (n : F) : vec2 F := map_2 (fun a => flane o a n) v.
  Definition fopN3 (o : aop) (v : vec3 F) (n : F) : vec3 F := map_3 (fun a => flane o a n) v.
  Definition fopN4 (o : aop) (v : vec4 F) (n : F) : vec4 F := map_4 (fun a => flane o a n) v.
  (** vector/float.hpp:542-545, 806-809, 1094-1097: number with vector *)
  Definition nfop2 (o : aop) (n : F) (v : vec2 F) : vec2 F := fop2 o (dup2 n) v.
  Definition nfop3 (o : aop) (n : F) (v : vec3 F) : vec3 F := fop3 o (dup3 n) v.
  Definition nfop4 (o : aop) (n : F) (v : vec4 F) : vec4 F := fop4 o (dup4 n) v.
  (** simd/vector/float.hpp:435-474, 485-495, 599-609.  On NEON both products with a number are
      vmulq_n_f32 of the vector and the number, so n * v multiplies in the order v.x * n. *)
  Definition fopS (o : aop) : vec4 F -> vec4 F -> vec4 F :=
    match o with AAdd => vadd | ASub => vsub | AMul => vmul | ADiv => vdiv end.
  Definition fopSN (o : aop) (v : vec4 F) (n : F) : vec4 F := fopS o v (dup4 n).
  Definition nfopS (p : path) (o : aop) (n : F) (v : vec4 F) : vec4 F :=
    match p, o with
    | NEON, AMul => fopSN AMul v n
    | _, _ => fopS o (dup4 n) v
    end.

  (** Directions: vector/float.hpp:160-163, 324-329, simd/vector/float.hpp:592-597 *)
  Definition fm1 : F := sneg f1.
  Definition left2 : vec2 F := V2 fm1 f0.
  Definition right2 : vec2 F := V2 f1 f0.
  Definition bottom2 : vec2 F := V2 f0 fm1.
  Definition top2 : vec2 F := V2 f0 f1.
  Definition left3 : vec3 F := V3 fm1 f0 f0.
  Definition right3 : vec3 F := V3 f1 f0 f0.
  Definition bottom3 : vec3 F := V3 f0 fm1 f0.
  Definition top3 : vec3 F := V3 f0 f1 f0.
  Definition back3 : vec3 F := V3 f0 f0 fm1.
  Definition front3 : vec3 F := V3 f0 f0 f1.
  Definition leftS : vec4 F := V4 fm1 f0 f0 f0.
  Definition rightS : vec4 F := V4 f1 f0 f0 f0.
  Definition bottomS : vec4 F := V4 f0 fm1 f0 f0.
  Definition topS : vec4 F := V4 f0 f1 f0 f0.
  Definition backS : vec4 F := V4 f0 f0 fm1 f0.
  Definition frontS : vec4 F := V4 f0 f0 f1 f0.
End FloatVec.

(** The lanes of the other constants: vector/float.hpp:149-159, 313-323, 529-539,
    simd/vector/float.hpp:581-591 (all components equal) *)
Inductive fconst := KZero | KOne | KMinusOne | KMin | KMinusMin | KMax | KMinusMax | KEpsilon
                  | KInf | KMinusInf | KNan.
Definition constLane (k : fconst) : f32 :=
  match k with
  | KZero => f0
  | KOne => f1
  | KMinusOne => sneg f1
  | KMin => fltMin
  | KMinusMin => sneg fltMin
  | KMax => fltMax
  | KMinusMax => sneg fltMax
  | KEpsilon => fltEps
  | KInf => B754_infinity 24 128 false
  | KMinusInf => sneg (B754_infinity 24 128 false : f32)
  | KNan => b32_of_bits 2143289344
  end.
Definition const2 (k : fconst) : vec2 f32 := dup2 (constLane k).
Definition const3 (k : fconst) : vec3 f32 := dup3 (constLane k).
Definition const4 (k : fconst) : vec4 f32 := dup4 (constLane k).

(** (int32)x and (uint32)x of a float: truncation; undefined when the truncated value does not
    fit (C++17 [conv.fpint]): vector/float.hpp:83-95, 235-255, 436-464 *)
Definition toI32F (x : f32) : outcome Z :=
  match strunc x with Some z => if inI32 z then Ok z else UB | None => UB end.
Definition toU32F (x : f32) : outcome Z :=
  match strunc x with Some z => if (0 <=? z) && (z <? 2 ^ 32) then Ok z else UB | None => UB end.
(** vector/float.hpp:83-87 *)
Definition uint2OfF (v : vec2 f32) : outcome (vec2 Z) := seqO2 (map_2 toU32F v).
Definition int2OfF (v : vec2 f32) : outcome (vec2 Z) := seqO2 (map_2 toI32F v).
(** vector/float.hpp:235-239 *)
Definition int3OfF (v : vec3 f32) : outcome (vec3 Z) := seqO3 (map_3 toI32F v).
Definition uint3OfF (v : vec3 f32) : outcome (vec3 Z) := seqO3 (map_3 toU32F v).
(** vector/float.hpp:436-440 *)
Definition int4OfF (v : vec4 f32) : outcome (vec4 Z) := seqO4 (map_4 toI32F v).
Definition uint4OfF (v : vec4 f32) : outcome (vec4 Z) := seqO4 (map_4 toU32F v).
(** Narrowing: vector/float.hpp:243-247 (float3 to int2, uint2), 444-456 (float4 to int3, uint3,
    int2, uint2) convert only the lanes they keep; 91-95, 251-255, 460-464 only the first. *)
Definition int2OfF3 (v : vec3 f32) : outcome (vec2 Z) :=
  x <- toI32F (x3 v);; y <- toI32F (y3 v);; Ok (V2 x y).
Definition uint2OfF3 (v : vec3 f32) : outcome (vec2 Z) :=
  x <- toU32F (x3 v);; y <- toU32F (y3 v);; Ok (V2 x y).
Definition int2OfF4 (v : vec4 f32) : outcome (vec2 Z) :=
  x <- toI32F (vx v);; y <- toI32F (vy v);; Ok (V2 x y).
Definition uint2OfF4 (v : vec4 f32) : outcome (vec2 Z) :=
  x <- toU32F (vx v);; y <- toU32F (vy v);; Ok (V2 x y).
Definition int3OfF4 (v : vec4 f32) : outcome (vec3 Z) :=
  x <- toI32F (vx v);; y <- toI32F (vy v);; z <- toI32F (vz v);; Ok (V3 x y z).
Definition uint3OfF4 (v : vec4 f32) : outcome (vec3 Z) :=
  x <- toU32F (vx v);; y <- toU32F (vy v);; z <- toU32F (vz v);; Ok (V3 x y z).
(** vector/float.hpp:54-59, 206-211, 405-414: (float)n, rounded to nearest *)
Definition ofIntF (n : Z) : f32 := b32_lit n 0.
Definition float2OfInt : vec2 Z -> vec2 f32 := map_2 ofIntF.
Definition float3OfInt : vec3 Z -> vec3 f32 := map_3 ofIntF.
Definition float4OfInt : vec4 Z -> vec4 f32 := map_4 ofIntF.
