(** Model of the integer vectors: /repo/include/math/vector/uint.hpp (uint2, uint3, uint4)
    and /repo/include/math/vector/int.hpp (int2, int3, int4).

    A uint32 is an integer in [0, 2^32), an int32 an integer in [-2^31, 2^31).  The
    operators are component-wise; the model gives the meaning of one lane in C++17
    (CMakeLists.txt:29) and applies it to the lanes.  An operator with a scalar operand
    (uint.hpp:92-101, 480-489, ...) is the same operator with that scalar in every lane
    (dup), and a compound assignment (uint.hpp:105-124, ...) stores the operator's result. *)
From Coq Require Import ZArith Bool List Reals.
From Flocq Require Import Core.Core.
From Verif.Model Require Import Outcome Scalar Vec Simd.
Import ListNotations.
Local Open Scope Z_scope.
Local Open Scope outcome_scope.

(** conversions to uint32 and int32 (modulo 2^32), int.hpp:52, 76 *)
Definition toU32 (x : Z) : Z := x mod 2 ^ 32.
Definition toI32 (x : Z) : Z := let u := x mod 2 ^ 32 in if u <? 2 ^ 31 then u else u - 2 ^ 32.
Definition inI32 (x : Z) : bool := (- 2 ^ 31 <=? x) && (x <? 2 ^ 31).

(** The binary operators of uint.hpp:82-91, 224-233, 403-412 *)
Inductive iop := OAdd | OSub | OMul | ODiv | OMod | OAnd | OOr | OXor | OShr | OShl.

(** One lane on uint32: arithmetic wraps; division and remainder by zero and shifts by 32 or
    more are undefined. *)
Definition ulane (o : iop) (a b : Z) : outcome Z :=
  match o with
  | OAdd => Ok (toU32 (a + b))
  | OSub => Ok (toU32 (a - b))
  | OMul => Ok (toU32 (a * b))
  | ODiv => if b =? 0 then UB else Ok (a / b)
  | OMod => if b =? 0 then UB else Ok (a mod b)
  | OAnd => Ok (Z.land a b)
  | OOr => Ok (Z.lor a b)
  | OXor => Ok (Z.lxor a b)
  | OShr => if b <? 32 then Ok (Z.shiftr a b) else UB
  | OShl => if b <? 32 then Ok (toU32 (Z.shiftl a b)) else UB
  end.

Definition checkI32 (x : Z) : outcome Z := if inI32 x then Ok x else UB.

(** One lane on int32: a result outside the type is undefined; division truncates; INT_MIN
    / -1 and INT_MIN % -1 are undefined; shift counts outside [0, 32) are undefined; a left
    shift of a negative value is undefined, and one of a non-negative value needs the result
    to fit the unsigned type (C++17 [expr.shift]), the conversion back being modulo 2^32. *)
Definition ilane (o : iop) (a b : Z) : outcome Z :=
  match o with
  | OAdd => checkI32 (a + b)
  | OSub => checkI32 (a - b)
  | OMul => checkI32 (a * b)
  | ODiv => if b =? 0 then UB else checkI32 (Z.quot a b)
  | OMod => if (b =? 0) || negb (inI32 (Z.quot a b)) then UB else Ok (Z.rem a b)
  | OAnd => Ok (Z.land a b)
  | OOr => Ok (Z.lor a b)
  | OXor => Ok (Z.lxor a b)
  | OShr => if (0 <=? b) && (b <? 32) then Ok (Z.shiftr a b) else UB
  | OShl => if (0 <=? b) && (b <? 32) && (0 <=? a) && (Z.shiftl a b <? 2 ^ 32)
            then Ok (toI32 (Z.shiftl a b)) else UB
  end.

(** The unary operators - ! ~ of uint.hpp:102-104, 244-246, 423-425 and int.hpp *)
Definition uneg (a : Z) : Z := toU32 (- a).
Definition unot (a : Z) : Z := if a =? 0 then 1 else 0.
Definition ucompl (a : Z) : Z := 2 ^ 32 - 1 - a.
Definition ineg (a : Z) : outcome Z := checkI32 (- a).
Definition icompl (a : Z) : Z := Z.lnot a.

(** A vector of lane outcomes: undefined as soon as one lane is. *)
Definition seqO2 {A} (v : vec2 (outcome A)) : outcome (vec2 A) :=
  x <- x2 v;; y <- y2 v;; Ok (V2 x y).
Definition seqO3 {A} (v : vec3 (outcome A)) : outcome (vec3 A) :=
  x <- x3 v;; y <- y3 v;; z <- z3 v;; Ok (V3 x y z).
Definition seqO4 {A} (v : vec4 (outcome A)) : outcome (vec4 A) :=
  x <- vx v;; y <- vy v;; z <- vz v;; w <- vw v;; Ok (V4 x y z w).

(** uint.hpp:82-91, 224-233, 403-412 *)
Definition uintOp2 (o : iop) (a b : vec2 Z) : outcome (vec2 Z) := seqO2 (map2_2 (ulane o) a b).
Definition uintOp3 (o : iop) (a b : vec3 Z) : outcome (vec3 Z) := seqO3 (map2_3 (ulane o) a b).
Definition uintOp4 (o : iop) (a b : vec4 Z) : outcome (vec4 Z) := seqO4 (map2_4 (ulane o) a b).
(** int.hpp:87-96, 251-260, 459-468 *)
Definition intOp2 (o : iop) (a b : vec2 Z) : outcome (vec2 Z) := seqO2 (map2_2 (ilane o) a b).
Definition intOp3 (o : iop) (a b : vec3 Z) : outcome (vec3 Z) := seqO3 (map2_3 (ilane o) a b).
Definition intOp4 (o : iop) (a b : vec4 Z) : outcome (vec4 Z) := seqO4 (map2_4 (ilane o) a b).

(** The component-wise comparisons, each lane all ones or zero: uint.hpp:128-143 and equal,
    notEqual 537-550; 270-285, 674-687; 449-468, 815-830; int.hpp:133-148, 570-583; 297-312,
    678-691; 505-524, 794-809. *)
Inductive cmp := CLt | CGt | CLe | CGe | CEq | CNe.
Definition cmpLane (c : cmp) (a b : Z) : bool :=
  match c with
  | CLt => a <? b
  | CGt => b <? a
  | CLe => a <=? b
  | CGe => b <=? a
  | CEq => a =? b
  | CNe => negb (a =? b)
  end.
Definition compare2 (c : cmp) : vec2 Z -> vec2 Z -> vec2 Z := map2_2 (fun a b => maskOf (cmpLane c a b)).
Definition compare3 (c : cmp) : vec3 Z -> vec3 Z -> vec3 Z := map2_3 (fun a b => maskOf (cmpLane c a b)).
Definition compare4 (c : cmp) : vec4 Z -> vec4 Z -> vec4 Z := map2_4 (fun a b => maskOf (cmpLane c a b)).

(** operator== and operator!= (one bool): uint.hpp:126-127, 268-269, 447-448; int.hpp *)
Definition eqv2 (a b : vec2 Z) : bool := (x2 a =? x2 b) && (y2 a =? y2 b).
Definition eqv3 (a b : vec3 Z) : bool := (x3 a =? x3 b) && (y3 a =? y3 b) && (z3 a =? z3 b).
Definition eqv4 (a b : vec4 Z) : bool :=
  (vx a =? vx b) && (vy a =? vy b) && (vz a =? vz b) && (vw a =? vw b).
Definition nev2 (a b : vec2 Z) : bool := negb (x2 a =? x2 b) || negb (y2 a =? y2 b).
Definition nev3 (a b : vec3 Z) : bool :=
  negb (x3 a =? x3 b) || negb (y3 a =? y3 b) || negb (z3 a =? z3 b).
Definition nev4 (a b : vec4 Z) : bool :=
  negb (vx a =? vx b) || negb (vy a =? vy b) || negb (vz a =? vz b) || negb (vw a =? vw b).

(** Mask reductions: uint.hpp:509-528 (two lanes), 647-666 (three); the four-lane versions
    (788-807) are the GEN path of Simd.v. *)
Definition getTrues2 (v : vec2 Z) : Z := Z.lor (Z.shiftr (x2 v) 31) (Z.shiftl (Z.shiftr (y2 v) 31) 1).
Definition areAllTrue2 (v : vec2 Z) : bool := Z.land (x2 v) (y2 v) =? allOnes.
Definition areAllFalse2 (v : vec2 Z) : bool := Z.lor (x2 v) (y2 v) =? 0.
Definition areAnyTrue2 (v : vec2 Z) : bool := negb (Z.lor (x2 v) (y2 v) =? 0).
Definition areAnyFalse2 (v : vec2 Z) : bool := negb (Z.land (x2 v) (y2 v) =? allOnes).
Definition getTrues3 (v : vec3 Z) : Z :=
  Z.lor (Z.lor (Z.shiftr (x3 v) 31) (Z.shiftl (Z.shiftr (y3 v) 31) 1)) (Z.shiftl (Z.shiftr (z3 v) 31) 2).
Definition areAllTrue3 (v : vec3 Z) : bool := Z.land (Z.land (x3 v) (y3 v)) (z3 v) =? allOnes.
Definition areAllFalse3 (v : vec3 Z) : bool := Z.lor (Z.lor (x3 v) (y3 v)) (z3 v) =? 0.
Definition areAnyTrue3 (v : vec3 Z) : bool := negb (Z.lor (Z.lor (x3 v) (y3 v)) (z3 v) =? 0).
Definition areAnyFalse3 (v : vec3 Z) : bool := negb (Z.land (Z.land (x3 v) (y3 v)) (z3 v) =? allOnes).

(** select: uint.hpp:567-570, 706-709 and int.hpp:599-602, 707-710 (four lanes: Simd.select4) *)
Definition select2 {A} (c : vec2 Z) (t f : vec2 A) : vec2 A :=
  V2 (sel (x2 c) (x2 t) (x2 f)) (sel (y2 c) (y2 t) (y2 f)).
Definition select3 {A} (c : vec3 Z) (t f : vec3 A) : vec3 A :=
  V3 (sel (x3 c) (x3 t) (x3 f)) (sel (y3 c) (y3 t) (y3 f)) (sel (z3 c) (z3 t) (z3 f)).

(** min, max and clamp: uint.hpp:578-618, 717-757, 859-901; int.hpp:611-645, 718-755,
    838-878.  std::clamp with max < min is undefined. *)
Definition imin2 : vec2 Z -> vec2 Z -> vec2 Z := map2_2 Z.min.
Definition imax2 : vec2 Z -> vec2 Z -> vec2 Z := map2_2 Z.max.
Definition imin3 : vec3 Z -> vec3 Z -> vec3 Z := map2_3 Z.min.
Definition imax3 : vec3 Z -> vec3 Z -> vec3 Z := map2_3 Z.max.
Definition imin4 : vec4 Z -> vec4 Z -> vec4 Z := map2_4 Z.min.
Definition imax4 : vec4 Z -> vec4 Z -> vec4 Z := map2_4 Z.max.
Definition clampLane (v lo hi : Z) : outcome Z :=
  if hi <? lo then UB else Ok (if v <? lo then lo else if hi <? v then hi else v).
Definition clamp2 (v lo hi : vec2 Z) : outcome (vec2 Z) :=
  seqO2 (V2 (clampLane (x2 v) (x2 lo) (x2 hi)) (clampLane (y2 v) (y2 lo) (y2 hi))).
Definition clamp3 (v lo hi : vec3 Z) : outcome (vec3 Z) :=
  seqO3 (V3 (clampLane (x3 v) (x3 lo) (x3 hi)) (clampLane (y3 v) (y3 lo) (y3 hi))
            (clampLane (z3 v) (z3 lo) (z3 hi))).
Definition clamp4 (v lo hi : vec4 Z) : outcome (vec4 Z) :=
  seqO4 (V4 (clampLane (vx v) (vx lo) (vx hi)) (clampLane (vy v) (vy lo) (vy hi))
            (clampLane (vz v) (vz lo) (vz hi)) (clampLane (vw v) (vw lo) (vw hi))).

(** ** Memory representation (little-endian) and binary comparison *)
(** The four bytes of a 32-bit lane. *)
Definition bytes32 (x : Z) : list Z :=
  let u := toU32 x in [u mod 256; (u / 256) mod 256; (u / 65536) mod 256; u / 16777216].
(** memcmp(a, b, n) < 0 on byte lists of the same length *)
Fixpoint memcmpLess (a b : list Z) : bool :=
  match a, b with
  | x :: a', y :: b' => if x =? y then memcmpLess a' b' else x <? y
  | _, _ => false
  end.
Definition mem2 (v : vec2 Z) : list Z := bytes32 (x2 v) ++ bytes32 (y2 v).
Definition mem3 (v : vec3 Z) : list Z := bytes32 (x3 v) ++ bytes32 (y3 v) ++ bytes32 (z3 v).
Definition mem4 (v : vec4 Z) : list Z :=
  bytes32 (vx v) ++ bytes32 (vy v) ++ bytes32 (vz v) ++ bytes32 (vw v).
(** uint.hpp:557: both vectors read as one uint64 *)
Definition asU64 (v : vec2 Z) : Z := toU32 (x2 v) + 2 ^ 32 * toU32 (y2 v).
Definition uintLess2 (a b : vec2 Z) : bool := asU64 a <? asU64 b.
(** int.hpp:590: both vectors read as one int64 *)
Definition asI64 (v : vec2 Z) : Z := let u := asU64 v in if u <? 2 ^ 63 then u else u - 2 ^ 64.
Definition intLess2 (a b : vec2 Z) : bool := asI64 a <? asI64 b.
(** uint.hpp:695, 838; int.hpp:698, 817 *)
Definition binLess3 (a b : vec3 Z) : bool := memcmpLess (mem3 a) (mem3 b).
Definition binLess4 (a b : vec4 Z) : bool := memcmpLess (mem4 a) (mem4 b).

(** ** Constructors: uint.hpp:48-55, 171-193, 314-368; int.hpp:40-52, 181-208, 348-408;
    float.hpp:42-49, 179-201, 346-400.  The families share their shapes, except
    int3(int2, int32), which has its own definition. *)
Definition ctor3_xy_z {A} (xy : vec2 A) (z : A) : vec3 A := V3 (x2 xy) (y2 xy) z.
Definition ctor3_x_yz {A} (x : A) (yz : vec2 A) : vec3 A := V3 x (x2 yz) (y2 yz).
Definition ctor4_xy_z_w {A} (xy : vec2 A) (z w : A) : vec4 A := V4 (x2 xy) (y2 xy) z w.
Definition ctor4_x_yz_w {A} (x : A) (yz : vec2 A) (w : A) : vec4 A := V4 x (x2 yz) (y2 yz) w.
Definition ctor4_x_y_zw {A} (x y : A) (zw : vec2 A) : vec4 A := V4 x y (x2 zw) (y2 zw).
Definition ctor4_xy_zw {A} (xy zw : vec2 A) : vec4 A := V4 (x2 xy) (y2 xy) (x2 zw) (y2 zw).
Definition ctor4_xyz_w {A} (xyz : vec3 A) (w : A) : vec4 A := V4 (x3 xyz) (y3 xyz) (z3 xyz) w.
Definition ctor4_x_yzw {A} (x : A) (yzw : vec3 A) : vec4 A := V4 x (x3 yzw) (y3 yzw) (z3 yzw).
(** int.hpp:196: [z(x)], the third lane is initialised from the first *)
Definition int3_xy_z (xy : vec2 Z) (z : Z) : vec3 Z := V3 (x2 xy) (y2 xy) (x2 xy).
(** uint.hpp:217, 392-396 and int.hpp, float.hpp: dropping lanes *)
Definition xy_of3 {A} (v : vec3 A) : vec2 A := V2 (x3 v) (y3 v).
Definition xy_of4 {A} (v : vec4 A) : vec2 A := V2 (vx v) (vy v).
(** int.hpp:52, 208, 407-408 and 76, 232, 432: between the signed and unsigned vectors *)
Definition intOfUint4 : vec4 Z -> vec4 Z := map_4 toI32.
Definition uintOfInt4 : vec4 Z -> vec4 Z := map_4 toU32.

(** ** Mip levels: uint.hpp:904-928 *)
(** std::log2 on float, taken to be correctly rounded; the argument is (float)size, the
    nearest binary32 number. *)
Definition rnd32 (x : R) : R := round radix2 (FLT_exp (-149) 24) ZnearestE x.
Definition log2f (x : R) : R := rnd32 (ln x / ln 2).
(** size 0 gives -infinity, whose conversion to uint8 is undefined *)
Definition calcMipCount (size : Z) : outcome Z :=
  if size =? 0 then UB else Ok ((Zfloor (log2f (rnd32 (IZR size))) + 1) mod 256).
Definition calcMipCount2 (size : vec2 Z) : outcome Z := calcMipCount (Z.max (x2 size) (y2 size)).
Definition calcMipCount3 (size : vec3 Z) : outcome Z :=
  calcMipCount (Z.max (Z.max (x3 size) (y3 size)) (z3 size)).
(** exp2 of an integer below 128 is exact; the conversion to uint32 is undefined from 2^32 *)
Definition mipDivisor (mip : Z) : outcome Z := if mip <? 32 then Ok (2 ^ mip) else UB.
Definition calcSizeAtMip (size mip : Z) : outcome Z :=
  d <- mipDivisor mip;; Ok (Z.max (size / d) 1).
Definition calcSizeAtMip2 (size : vec2 Z) (mip : Z) : outcome (vec2 Z) :=
  d <- mipDivisor mip;; q <- uintOp2 ODiv size (dup2 d);; Ok (imax2 q (dup2 1)).
Definition calcSizeAtMip3 (size : vec3 Z) (mip : Z) : outcome (vec3 Z) :=
  d <- mipDivisor mip;; q <- uintOp3 ODiv size (dup3 d);; Ok (imax3 q (dup3 1)).
