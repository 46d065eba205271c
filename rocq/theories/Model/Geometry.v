(** Model of /repo/include/math/plane.hpp, triangle.hpp, line.hpp, sphere.hpp, the model-matrix
    overload of isBehindFrustum in aabb.hpp, and /repo/source/aabb.cpp. *)
From Coq Require Import ZArith Bool List.
From Verif.Model Require Import Scalar Vec Simd Aabb Matrix.
Import ListNotations.

Section Geometry.
  Context {F : Type} {S : Scalar F} (p : path).
  Notation f32x4 := (vec4 F).
  Notation f32x4x4 := (mat4 F).

  (** *** Planes: plane.hpp:33-43, normal in xyz and distance in w *)
  Notation plane := (vec4 F) (only parsing).
  (** plane.hpp:50-51 *)
  Definition newPlane (normal : f32x4) (distance : F) (normalize : bool) : plane :=
    withW (if normalize then normalize3 p normal else normal) distance.
  (** plane.hpp:81-84 *)
  Definition setNormal (pl : plane) (normal : f32x4) (normalize : bool) : plane :=
    withW (if normalize then normalize3 p normal else normal) (vw pl).
  (** plane.hpp:99: all four lanes are divided *)
  Definition normalizePlane (pl : plane) : plane := vdivn pl (length3 p pl).
  (** plane.hpp:130-133; distance3 (120-123) is planeDistance in Aabb.v *)
  Definition closestPointPlane (pl : plane) (point : f32x4) : f32x4 :=
    vsub point (vmul pl (dup4 (planeDistance p pl point))).

  (** *** Triangles: triangle.hpp:31-66 *)
  Record triangle := mkTriangle { t0 : f32x4; t1 : f32x4; t2 : f32x4 }.
  (** triangle.hpp:73-80 *)
  Definition isInsideTriangle (t : triangle) (point : f32x4) : bool :=
    let p0 := vsub (t0 t) point in let p1 := vsub (t1 t) point in let p2 := vsub (t2 t) point in
    let u := cross3 p p1 p2 in let v := cross3 p p2 p0 in let w := cross3 p p0 p1 in
    if slt (dot3 p u v) f0 || slt (dot3 p u w) f0 then false else true.
  (** triangle.hpp:89-100 *)
  Definition calcBarycentric (t : triangle) (point : f32x4) : f32x4 :=
    let v0 := vsub (t1 t) (t0 t) in let v1 := vsub (t2 t) (t0 t) in let v2 := vsub point (t0 t) in
    let d00 := dot3 p v0 v0 in let d01 := dot3 p v0 v1 in let d11 := dot3 p v1 v1 in
    let d20 := dot3 p v2 v0 in let d21 := dot3 p v2 v1 in
    let inv := (f1 / (d00 * d11 - d01 * d01))%sc in
    let v := ((d11 * d20 - d01 * d21) * inv)%sc in
    let w := ((d00 * d21 - d01 * d20) * inv)%sc in
    V4 (f1 - v - w)%sc v w f0.
  (** plane.hpp:62-69 *)
  Definition planeOfTriangle (t : triangle) : plane :=
    let normal := cross3 p (vsub (t1 t) (t0 t)) (vsub (t2 t) (t0 t)) in
    let normal := if sgt (length3 p normal) f0 then normalize3 p normal else normal in
    withW normal (dot3 p normal (t0 t)).

  (** *** Lines: line.hpp:31-73 *)
  (** line.hpp:81-86; the overload 94-99 also stores the unclamped t *)
  Definition segmentParam (start stop point : f32x4) : F :=
    let d := vsub stop start in (dot3 p (vsub point start) d / dot3 p d d)%sc.
  Definition closestPointSegment (start stop point : f32x4) : f32x4 :=
    let d := vsub stop start in
    vfma p d (dup4 (stdclamp (segmentParam start stop point) f0 f1)) start.

  (** plane.hpp:141-157 *)
  Definition closestPointTriangle (t : triangle) (point : f32x4) : f32x4 :=
    let q := closestPointPlane (planeOfTriangle t) point in
    if isInsideTriangle t q then q else
    let c0 := closestPointSegment (t0 t) (t1 t) q in
    let c1 := closestPointSegment (t1 t) (t2 t) q in
    let c2 := closestPointSegment (t2 t) (t0 t) q in
    let v := of3 (lengthSq3 p (vsub q c0)) (lengthSq3 p (vsub q c1)) (lengthSq3 p (vsub q c2)) in
    let m := vmin3 p v in
    if seq m (vx v) then c0 else if seq m (vy v) then c1 else c2.

  (** plane.hpp:166-178 *)
  Definition extractFrustumPlanes (frustum : f32x4x4) : list plane :=
    let t := transpose4x4 p frustum in
    let w0 := vw (c0 t) in let w1 := vw (c1 t) in let w2 := vw (c2 t) in let w3 := vw (c3 t) in
    [ newPlane (withW (vadd (c3 t) (c0 t)) f0) (w3 + w0)%sc false;
      newPlane (withW (vsub (c3 t) (c0 t)) f0) (w3 - w0)%sc false;
      newPlane (withW (vsub (c3 t) (c1 t)) f0) (w3 - w1)%sc false;
      newPlane (withW (vadd (c3 t) (c1 t)) f0) (w3 + w1)%sc false;
      newPlane (withW (c2 t) f0) w2 false;
      newPlane (withW (vsub (c3 t) (c2 t)) f0) (w3 - w2)%sc false ].
  (** plane.hpp:185-189 *)
  Definition normalizePlanes (planes : list plane) : list plane := map normalizePlane planes.

  (** aabb.hpp:454-483 *)
  Definition isBehindFrustumModel (planes : list plane) (b : aabb F) (model : f32x4x4) : bool :=
    behind8 p planes (map (mulV p model) (corners b)).

  (** *** Spheres: sphere.hpp:31-73, position in xyz and radius in w *)
  Notation sphere := (vec4 F) (only parsing).
  (** sphere.hpp:42-43 *)
  Definition newSphere (radius : F) (position : f32x4) : sphere := withW position radius.
  (** sphere.hpp:81-86 *)
  Definition isInsideSphere (s : sphere) (point : f32x4) : bool :=
    slt (lengthSq3 p (vsub s point)) (vw s * vw s)%sc.
  (** sphere.hpp:94-98 *)
  Definition closestPointSphere (s : sphere) (point : f32x4) : f32x4 :=
    vadd s (vscale (normalize3 p (vsub point s)) (vw s)).
  (** sphere.hpp:106-111 *)
  Definition isIntersectedSpheres (a b : sphere) : bool :=
    let s := (vw a + vw b)%sc in sle (lengthSq3 p (vsub a b)) (s * s)%sc.
  (** sphere.hpp:118-123 *)
  Definition isIntersectedSphereBox (a : sphere) (b : aabb F) : bool :=
    let c := closestPointBox p b a in slt (lengthSq3 p (vsub a c)) (vw a * vw a)%sc.

  (** *** Triangle against box: source/aabb.cpp:18-93 *)
  (** aabb.cpp:29-33 and the eight repetitions of it *)
  Definition satAxis (v0 v1 v2 a : f32x4) (r : F) : bool :=
    let q := of3 (dot3 p v0 a) (dot3 p v1 a) (dot3 p v2 a) in
    sgt (stdmax (- vmax3 p q)%sc (vmin3 p q)) r.
  (** aabb.cpp:18-93 *)
  Definition isAabbIntersected (position extent : f32x4) (t : triangle) : bool :=
    let v0 := vsub (t0 t) position in let v1 := vsub (t1 t) position in let v2 := vsub (t2 t) position in
    let v := M4 v0 v1 v2 (dup4 f0) in
    let g0 := vsub v1 v0 in let g1 := vsub v2 v1 in let g2 := vsub v0 v2 in
    let ex := vx extent in let ey := vy extent in let ez := vz extent in
    let ax g := satAxis v0 v1 v2 (of3 f0 (- vz g)%sc (vy g)) (ey * sabs (vz g) + ez * sabs (vy g))%sc in
    let ay g := satAxis v0 v1 v2 (of3 (vz g) f0 (- vx g)%sc) (ex * sabs (vz g) + ez * sabs (vx g))%sc in
    let az g := satAxis v0 v1 v2 (of3 (- vy g)%sc (vx g) f0) (ex * sabs (vy g) + ey * sabs (vx g))%sc in
    if ax g0 then false else if ax g1 then false else if ax g2 then false else
    if ay g0 then false else if ay g1 then false else if ay g2 then false else
    if az g0 then false else if az g1 then false else if az g2 then false else
    let t := transpose3x3 p v in
    if slt (vmax3 p (c0 t)) (- ex)%sc || sgt (vmin3 p (c0 t)) ex ||
       slt (vmax3 p (c1 t)) (- ey)%sc || sgt (vmin3 p (c1 t)) ey ||
       slt (vmax3 p (c2 t)) (- ez)%sc || sgt (vmin3 p (c2 t)) ez
    then false else
    let normal := cross3 p g0 g1 in
    let distance := sabs (dot3 p normal v0) in
    let r := (ex * sabs (vx normal) + ey * sabs (vy normal) + ez * sabs (vz normal))%sc in
    sle distance r.
End Geometry.
Arguments triangle F : clear implicits.
