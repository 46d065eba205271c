(** Model of the split-plane search and of the two Bvh::recreate overloads in
    /repo/source/bvh.cpp, in binary32, completing the build loop of Model/Bvh.v.

    Floating-point contraction (a compiler fusing a*b+c) is not modelled: each operation
    rounds. *)
From Coq Require Import ZArith List Bool.
From Flocq Require Import IEEE754.Binary IEEE754.Bits.
From Verif.Model Require Import Outcome Scalar Vec Simd Aabb Packed Bvh.
Import ListNotations.
Local Open Scope Z_scope.
Local Open Scope outcome_scope.

(** The int32 stored in a float lane, and the float lane storing an int32. *)
Definition signed32 (z : Z) : Z := if z <? 2 ^ 31 then z else z - 2 ^ 32.
Definition intView (x : f32) : Z := signed32 (bits_of_b32 x).
Definition ofIntView (z : Z) : f32 := b32_of_bits (z mod 2 ^ 32).
(** int32 arithmetic: overflow is undefined *)
Definition int32Ok (z : Z) : outcome Z := if (- 2 ^ 31 <=? z) && (z <? 2 ^ 31) then Ok z else UB.
(** (int32)x: undefined when the truncated value does not fit *)
Definition toInt32 (x : f32) : outcome Z :=
  match strunc x with Some z => int32Ok z | None => UB end.
(** (float)i *)
Definition ofInt (z : Z) : f32 := slit z 0.

Section Split.
  Variable p : path.
  Notation f32x4 := (vec4 f32).

  (** bvh.cpp:30, 50, 68-69: f32x4::max, f32x4::minusMax *)
  Definition emptyBox : aabb f32 := mkAabb (dup4 fltMax) (dup4 (- fltMax)%sc).

  (** bvh.cpp:75-81: half of the surface area *)
  Definition calcAreaHalf (b : aabb f32) : f32 :=
    let e := vsub (bmax b) (bmin b) in
    dot3 p (V4 (vx e) (vx e) (vy e) (vz e)) (V4 (vy e) (vz e) (vz e) (vz e)).

  (** bvh.cpp:313, 448: float * uint32 *)
  Definition nodeCostF (b : aabb f32) (count : Z) : f32 := (calcAreaHalf b * ofInt count)%sc.

  (** The box of a primitive is included in another: bvh.cpp:54-56 (boxes). *)
  Definition addBox (boxes : list (aabb f32)) (b : aabb f32) (q : Z) : outcome (aabb f32) :=
    o <- readAt boxes q ;;
    Ok (mkAabb (vmin p (bmin b) (bmin o)) (vmax p (bmax b) (bmax o))).

  (** bvh.cpp:34-42 (triangles).  [indexMem o] is the index stored at byte offset [o] of
      the index buffer and [vertexMem o] the float3 at byte offset [o] of the vertex
      buffer; UB where the buffers do not extend.  Offsets are uint32. *)
  Section Triangles.
    Variables (indexMem : Z -> outcome Z) (vertexMem : Z -> outcome (vec3 f32)).
    Variables (vertexSize indexSize : Z).
    Definition vertexOf (q k : Z) : outcome f32x4 :=
      let offset := wrap (q * 3) in
      i <- indexMem (wrap (wrap (offset + k) * indexSize)) ;;
      v <- vertexMem (wrap (i * vertexSize)) ;;
      Ok (ofFloat3 v).
    Definition addTriangle (b : aabb f32) (q : Z) : outcome (aabb f32) :=
      v0 <- vertexOf q 0 ;;
      v1 <- vertexOf q 1 ;;
      v2 <- vertexOf q 2 ;;
      Ok (mkAabb (vmin p (vmin p (vmin p (bmin b) v0) v1) v2)
                 (vmax p (vmax p (vmax p (bmax b) v0) v1) v2)).
    (** bvh.cpp:283-290; the literal 1.0f / 3.0f *)
    Definition triangleCentroid (q : Z) : outcome f32x4 :=
      v0 <- vertexOf q 0 ;;
      v1 <- vertexOf q 1 ;;
      v2 <- vertexOf q 2 ;;
      Ok (vscale (vadd (vadd v0 v1) v2) (f1 / slit 3 0)%sc).
  End Triangles.

  Section Search.
    (** centroids[q] and the inclusion of primitive q in a box *)
    Variable centroids : Z -> outcome f32x4.
    Variable addPrim : aabb f32 -> Z -> outcome (aabb f32).

    (** bvh.cpp:332, 465: centroidData[q][axis] *)
    Definition centroidAt (q axis : Z) : outcome f32 := omap (fun v => lane v axis) (centroids q).

    (** bvh.cpp:93-98, 174-179 *)
    Fixpoint boundsLoop (prims : list Z) (a i : Z) (k : nat) (mn mx : f32) : outcome (f32 * f32) :=
      match k with
      | O => Ok (mn, mx)
      | Datatypes.S k' =>
          q <- readAt prims i ;;
          value <- centroidAt q a ;;
          boundsLoop prims a (wrap (i + 1)) k' (stdmin mn value) (stdmax mx value)
      end.

    (** bvh.cpp:66-73: a bin is a box whose counter is max.w read as an int32 *)
    Definition binCount (b : aabb f32) : Z := intView (vw (bmax b)).
    Definition binIncrement (b : aabb f32) : outcome (aabb f32) :=
      c <- int32Ok (binCount b + 1) ;;
      Ok (mkAabb (bmin b) (withW (bmax b) (ofIntView c))).

    (** bvh.cpp:117-118, 191-192 *)
    Definition binIndex (value mn scale : f32) : outcome Z :=
      t <- toInt32 ((value - mn) * scale)%sc ;;
      Ok (Z.min 7 t).
    (** bvh.cpp:106-123, 187-197 *)
    Fixpoint binLoop (prims : list Z) (a i : Z) (k : nat) (mn scale : f32) (bins : list (aabb f32))
      : outcome (list (aabb f32)) :=
      match k with
      | O => Ok bins
      | Datatypes.S k' =>
          q <- readAt prims i ;;
          value <- centroidAt q a ;;
          j <- binIndex value mn scale ;;
          b <- readAt bins j ;;
          b <- addPrim b q ;;
          b <- binIncrement b ;;
          bins <- writeAt bins j b ;;
          binLoop prims a (wrap (i + 1)) k' mn scale bins
      end.

    Definition joinBox (a b : aabb f32) : aabb f32 :=
      mkAabb (vmin p (bmin a) (bmin b)) (vmax p (bmax a) (bmax b)).
    (** bvh.cpp:131-143, 206-218: running counts and areas over the bins in order; the
        right-hand arrays are those of the reversed bins. *)
    Fixpoint sweep (bins : list (aabb f32)) (sum : Z) (acc : aabb f32) : outcome (list (Z * f32)) :=
      match bins with
      | [] => Ok []
      | b :: rest =>
          sum <- int32Ok (sum + binCount b) ;;
          let acc := joinBox acc b in
          l <- sweep rest sum acc ;;
          Ok ((sum, calcAreaHalf acc) :: l)
      end.
    Definition leftSweep (bins : list (aabb f32)) : outcome (list (Z * f32)) :=
      sweep (firstn 7 bins) 0 emptyBox.
    Definition rightSweep (bins : list (aabb f32)) : outcome (list (Z * f32)) :=
      omap (@rev _) (sweep (firstn 7 (rev bins)) 0 emptyBox).

    (** bvh.cpp:145-156, 220-231 *)
    Fixpoint bestPlane (a : Z) (mn scale : f32) (i : Z) (ls rs : list (Z * f32)) (best : Z * f32 * f32)
      : Z * f32 * f32 :=
      match ls, rs with
      | (lc, la) :: ls', (rc, ra) :: rs' =>
          let cost := (ofInt lc * la + ofInt rc * ra)%sc in
          let '(_, _, bestCost) := best in
          let best' := if slt cost bestCost then (a, (mn + scale * ofInt (i + 1))%sc, cost) else best in
          bestPlane a mn scale (i + 1) ls' rs' best'
      | _, _ => best
      end.

    (** bvh.cpp:90-157, 171-232: one axis *)
    Definition splitAxis (first last : Z) (prims : list Z) (a : Z) (best : Z * f32 * f32)
      : outcome (Z * f32 * f32) :=
      let k := Z.to_nat (last - first) in
      mm <- boundsLoop prims a first k fltMax (- fltMax)%sc ;;
      let '(mn, mx) := mm in
      if seq mn mx then Ok best
      else
        let scale := (ofInt 8 / (mx - mn))%sc in
        bins <- binLoop prims a first k mn scale (repeat emptyBox 8) ;;
        ls <- leftSweep bins ;;
        rs <- rightSweep bins ;;
        Ok (bestPlane a mn ((mx - mn) / ofInt 8)%sc 0 ls rs best).

    (** bvh.cpp:83-162, 165-237 *)
    Definition findBestSplitPlane (first last : Z) (prims : list Z) : outcome (Z * f32 * f32) :=
      b0 <- splitAxis first last prims 0 (0, f0, fltMax) ;;
      b1 <- splitAxis first last prims 1 b0 ;;
      splitAxis first last prims 2 b1.

    (** bvh.cpp:304-398, 439-529 with the search above *)
    Definition buildWith (root : aabb f32) (n : Z) : outcome (list (node (aabb f32)) * list Z) :=
      recreate centroidAt findBestSplitPlane nodeCostF emptyBox addPrim root n.
  End Search.

  (** bvh.cpp:402-530.  [given] is the caller's centroid array, if any. *)
  Definition recreateBoxes (boxes : list (aabb f32)) (root : aabb f32) (given : option (list f32x4))
    : outcome (list (node (aabb f32)) * list Z) :=
    let centroids q :=
      match given with
      | Some c => readAt c q
      | None => omap (fun b => getPosition b) (readAt boxes q)
      end in
    buildWith centroids (addBox boxes) root (Z.of_nat (length boxes)).

  (** bvh.cpp:250-399; other index sizes abort *)
  Definition recreateTriangles (indexMem : Z -> outcome Z) (vertexMem : Z -> outcome (vec3 f32))
    (root : aabb f32) (indexCount vertexSize indexSize : Z) (given : option (list f32x4))
    : outcome (list (node (aabb f32)) * list Z) :=
    if negb ((indexSize =? 2) || (indexSize =? 4)) then Abort
    else
      let centroids q :=
        match given with
        | Some c => readAt c q
        | None => triangleCentroid indexMem vertexMem vertexSize indexSize q
        end in
      buildWith centroids (addTriangle indexMem vertexMem vertexSize indexSize) root (indexCount / 3).
End Split.
