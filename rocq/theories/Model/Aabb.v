(** Model of /repo/include/math/aabb.hpp and the parts of ray.hpp and plane.hpp it uses. *)
From Coq Require Import ZArith Bool List.
From Verif.Model Require Import Scalar Vec Simd.
Import ListNotations.

Section Aabb.
  Context {F : Type} {S : Scalar F} (p : path).
  Notation f32x4 := (vec4 F).

  (** aabb.hpp:39-52: two corner vectors (all four lanes stored). *)
  Record aabb := mkAabb { bmin : f32x4; bmax : f32x4 }.

  (** aabb.hpp:108-114: trySet, returning the flag and the new box. *)
  Definition trySet (b : aabb) (mn mx : f32x4) : bool * aabb :=
    if areAllTrue4 p (vgt (withW mn f0) (withW mx f1)) then (false, b) else (true, mkAabb mn mx).
  (** aabb.hpp:120-125 *)
  Definition setSize1 (size : f32x4) : aabb :=
    let extent := vscale size fhalf in mkAabb (vneg extent) extent.
  (** aabb.hpp:132-137 *)
  Definition setSize (size position : f32x4) : aabb :=
    let extent := vscale size fhalf in mkAabb (vsub position extent) (vadd position extent).
  (** aabb.hpp:142, 146 *)
  Definition getSize (b : aabb) : f32x4 := vsub (bmax b) (bmin b).
  Definition getPosition (b : aabb) : f32x4 := vscale (vadd (bmin b) (bmax b)) fhalf.
  (** aabb.hpp:152-156 *)
  Definition setExtent1 (extent : f32x4) : aabb := mkAabb (vneg extent) extent.
  (** aabb.hpp:163-167 *)
  Definition setExtent (extent position : f32x4) : aabb :=
    mkAabb (vsub position extent) (vadd position extent).
  (** aabb.hpp:172 *)
  Definition getExtent (b : aabb) : f32x4 := vscale (vsub (bmax b) (bmin b)) fhalf.
  (** aabb.hpp:179-182: extent and position through references *)
  Definition getExtentPos (b : aabb) : f32x4 * f32x4 :=
    let extent := vscale (vsub (bmax b) (bmin b)) fhalf in (extent, vadd (bmin b) extent).
  (** aabb.hpp:188-199 *)
  Definition extendPoint (b : aabb) (point : f32x4) : aabb :=
    mkAabb (vmin p (bmin b) point) (vmax p (bmax b) point).
  Definition extendBox (b o : aabb) : aabb :=
    mkAabb (vmin p (bmin b) (bmin o)) (vmax p (bmax b) (bmax o)).
  (** aabb.hpp:205-216 *)
  Definition shrinkPoint (b : aabb) (point : f32x4) : aabb :=
    mkAabb (vmax p (bmin b) point) (vmin p (bmax b) point).
  Definition shrinkBox (b o : aabb) : aabb :=
    mkAabb (vmax p (bmin b) (bmin o)) (vmin p (bmax b) (bmax o)).
  (** aabb.hpp:222, 227, 250-257 *)
  Definition translateBox (b : aabb) (t : f32x4) : aabb := mkAabb (vadd (bmin b) t) (vadd (bmax b) t).
  Definition scaleBox (b : aabb) (s : f32x4) : aabb := mkAabb (vmul (bmin b) s) (vmul (bmax b) s).
  Definition divBox (b : aabb) (s : f32x4) : aabb := mkAabb (vdiv (bmin b) s) (vdiv (bmax b) s).
  Definition subBox (b : aabb) (t : f32x4) : aabb := mkAabb (vsub (bmin b) t) (vsub (bmax b) t).
  (** aabb.hpp:234-240; swizzle<X,X,Y> and <Y,Z,Z> have the Z lane as fourth lane *)
  Definition calcArea (b : aabb) : F :=
    let e := vsub (bmax b) (bmin b) in
    (dot3 p (V4 (vx e) (vx e) (vy e) (vz e)) (V4 (vy e) (vz e) (vz e) (vz e)) * f2)%sc.
  (** aabb.hpp:244-248 *)
  Definition calcVolume (b : aabb) : F :=
    let e := vsub (bmax b) (bmin b) in (vx e * vy e * vz e)%sc.
  (** aabb.hpp:264-268 *)
  Definition aabbZero : aabb := mkAabb (dup4 f0) (dup4 f0).
  Definition aabbOne : aabb := mkAabb (dup4 (- fhalf)%sc) (dup4 fhalf).
  Definition aabbTwo : aabb := mkAabb (dup4 (- f1)%sc) (dup4 f1).
  Definition aabbFull : aabb := mkAabb (dup4 fltMin) (dup4 fltMax).

  (** aabb.hpp:285-288 *)
  Definition isInsidePoint (b : aabb) (point : f32x4) : bool :=
    areAllTrue4 p (uand (vle (bmin b) point) (vge (bmax b) point)).
  (** aabb.hpp:295-298 *)
  Definition isInsideBox (b o : aabb) : bool :=
    areAllTrue4 p (uand (vle (bmin b) (bmin o)) (vge (bmax b) (bmax o))).
  (** aabb.hpp:306-309 *)
  Definition closestPointBox (b : aabb) (point : f32x4) : f32x4 := vclamp p point (bmin b) (bmax b).
  (** aabb.hpp:425-428 *)
  Definition isIntersectedBox (a b : aabb) : bool :=
    areAllTrue4 p (uand (vle (bmin a) (bmax b)) (vge (bmin a) (bmax b))).

  (** ** Rays: /repo/include/math/ray.hpp:31-70 *)
  Record ray := mkRay { rdir : f32x4; rparallel : u32x4; rorigin : f32x4 }.
  (** ray.hpp:49-50: the constructor leaves isParallel at zero *)
  Definition newRay (origin direction : f32x4) (normalize : bool) : ray :=
    mkRay (if normalize then normalize3 p direction else direction) (dup4 0%Z) origin.
  (** ray.hpp:66-70; the literal 1.0e-20f is the binary32 value nearest to 1e-20 *)
  Definition parallelOf (direction : f32x4) : u32x4 :=
    vle (vabs direction) (dup4 (slit 1547425 (-87))).
  Definition setDirection (r : ray) (direction : f32x4) (normalize : bool) : ray :=
    mkRay (if normalize then normalize3 p direction else direction) (parallelOf direction) (rorigin r).

  (** swizzle<Y,Z,X> and <Z,X,Y>; fourth lane is the default Z *)
  Definition swYZX {A} (v : vec4 A) : vec4 A := V4 (vy v) (vz v) (vx v) (vz v).
  Definition swZXY {A} (v : vec4 A) : vec4 A := V4 (vz v) (vx v) (vy v) (vz v).

  (** aabb.hpp:318-337 *)
  Definition raycast2I (b : aabb) (r : ray) : vec2 F :=
    let t1 := vmul (vsub (bmin b) (rorigin r)) (rdir r) in
    let t2 := vmul (vsub (bmax b) (rorigin r)) (rdir r) in
    let tMin := select4 (rparallel r) (dup4 (- fltMax)%sc) (vmin p t1 t2) in
    let tMax := select4 (rparallel r) (dup4 fltMax) (vmax p t1 t2) in
    let tMin := vmax p tMin (swYZX tMin) in
    let tMin := vmax p tMin (swZXY tMin) in
    let tMax := vmin p tMax (swYZX tMax) in
    let tMax := vmin p tMax (swZXY tMax) in
    let noOverlap := uor (vlt (rorigin r) (bmin b)) (vgt (rorigin r) (bmax b)) in
    let noHit := uor (uor (vgt tMin tMax) (vlt tMax (dup4 f0))) (uand (rparallel r) noOverlap) in
    let noHit := uor noHit (splatY noHit) in
    let noHit := uor noHit (splatZ noHit) in
    V2 (vx (select4 noHit (dup4 fltMax) tMin)) (vx (select4 noHit (dup4 (- fltMax)%sc) tMax)).
  (** aabb.hpp:358-374 *)
  Definition raycast1I (b : aabb) (r : ray) : F :=
    let t1 := vmul (vsub (bmin b) (rorigin r)) (rdir r) in
    let t2 := vmul (vsub (bmax b) (rorigin r)) (rdir r) in
    let tMin := select4 (rparallel r) (dup4 (- fltMax)%sc) (vmin p t1 t2) in
    let tMax := select4 (rparallel r) (dup4 fltMax) (vmax p t1 t2) in
    let tMin := vmax p tMin (swYZX tMin) in
    let tMin := vmax p tMin (swZXY tMin) in
    let tMax := vmin p tMax (swYZX tMax) in
    let tMax := vmin p tMax (swZXY tMax) in
    let noOverlap := uor (vlt (rorigin r) (bmin b)) (vgt (rorigin r) (bmax b)) in
    let noHit := uor (uor (vgt tMin tMax) (vlt tMax (dup4 f0))) (uand (rparallel r) noOverlap) in
    let noHit := uor noHit (splatY noHit) in
    let noHit := uor noHit (splatZ noHit) in
    vx (select4 noHit (dup4 fltMax) tMin).
  (** aabb.hpp:345-349, 382-386 *)
  Definition raycast2 (b : aabb) (r : ray) : vec2 F :=
    raycast2I b (setDirection r (vdiv (dup4 f1) (rdir r)) true).
  Definition raycast1 (b : aabb) (r : ray) : F :=
    raycast1I b (setDirection r (vdiv (dup4 f1) (rdir r)) true).
  (** aabb.hpp:392-396 *)
  Definition isHit (d : vec2 F) : bool := sle (x2 d) (y2 d) && sge (y2 d) f0.
  (** aabb.hpp:404-417 *)
  Definition raycast (b : aabb) (r : ray) : bool := isHit (raycast2 b r).
  Definition raycastI (b : aabb) (r : ray) : bool := isHit (raycast2I b r).
  (** ray.hpp:109-114 *)
  Definition closestPointRay (r : ray) (point : f32x4) : f32x4 :=
    let a := rorigin r in let b := vadd a (rdir r) in
    let v := vsub b a in
    let t := (dot3 p (vsub point a) v / dot3 p v v)%sc in
    vfma p (rdir r) (dup4 (stdmax t f0)) a.

  (** ** Frustum test *)
  (** /repo/include/math/plane.hpp:33-52, 120-123: normal in xyz, distance in w *)
  Notation plane := (vec4 F) (only parsing).
  Definition planeDistance (pl : plane) (point : f32x4) : F := (dot3 p pl point + vw pl)%sc.

  (** aabb.hpp:496-503 (and, before the model matrix, 460-467): the eight corners *)
  Definition corners (b : aabb) : list f32x4 :=
    let mn := bmin b in let mx := bmax b in
    [ withW mn f1; V4 (vx mn) (vy mn) (vz mx) f1; V4 (vx mn) (vy mx) (vz mn) f1;
      V4 (vx mn) (vy mx) (vz mx) f1; V4 (vx mx) (vy mn) (vz mn) f1; V4 (vx mx) (vy mn) (vz mx) f1;
      V4 (vx mx) (vy mx) (vz mn) f1; withW mx f1 ].

  (** aabb.hpp:469-479, 505-515: some plane has all eight points strictly outside.  [vs]
      has eight elements; the masks are those of d0 and d1. *)
  Definition allBehind (pl : plane) (v0 v1 v2 v3 v4 v5 v6 v7 : f32x4) : bool :=
    let d := planeDistance pl in
    areAllTrue4 p (uand (vlt (V4 (d v0) (d v1) (d v2) (d v3)) (dup4 f0))
                        (vlt (V4 (d v4) (d v5) (d v6) (d v7)) (dup4 f0))).
  Fixpoint anyPlane (planes : list plane) (test : plane -> bool) : bool :=
    match planes with
    | nil => false
    | pl :: rest => if test pl then true else anyPlane rest test
    end.
  Definition behind8 (planes : list plane) (vs : list f32x4) : bool :=
    match vs with
    | [v0; v1; v2; v3; v4; v5; v6; v7] =>
        anyPlane planes (fun pl => allBehind pl v0 v1 v2 v3 v4 v5 v6 v7)
    | _ => false
    end.
  (** aabb.hpp:490-516 *)
  Definition isBehindFrustum (planes : list plane) (b : aabb) : bool := behind8 planes (corners b).
End Aabb.
Arguments aabb F : clear implicits.
Arguments ray F : clear implicits.
