(** What the split-plane search of the BVH build has to compute: the cheapest of the planes
    separating neighbouring bins, over the three axes. *)
From Coq Require Import ZArith List Bool Permutation Reals.
From Flocq Require Import Core.Core IEEE754.Binary IEEE754.Bits.
From Verif.Model Require Import Outcome Scalar Vec Aabb Packed Bvh BvhSplit.
From Verif.Spec Require Import BvhSpec BvhGeomSpec.
Import ListNotations.
Local Open Scope Z_scope.
Local Open Scope outcome_scope.

(** the entries [f, f+c) of an array *)
Definition entries {A} (l : list A) (f c : Z) : list A := firstn (Z.to_nat c) (skipn (Z.to_nat f) l).

Section Search.
  Variable p : path.
  Variable cen : Z -> outcome (vec4 f32).
  Variable add : aabb f32 -> Z -> outcome (aabb f32).

  (** the coordinates of the centroids along an axis *)
  Definition coords (qs : list Z) (a : Z) (vs : list f32) : Prop :=
    Forall2 (fun q v => exists w, cen q = Ok w /\ lane w a = v) qs vs.

  (** smallest and largest coordinate (of a list of coordinates between -FLT_MAX and FLT_MAX) *)
  Definition least (vs : list f32) : f32 := fold_left stdmin vs fltMax.
  Definition greatest (vs : list f32) : f32 := fold_left stdmax vs (- fltMax)%sc.

  (** eight bins of equal width between the bounds *)
  Definition binNumber (mn mx v : f32) : outcome Z :=
    t <- toInt32 ((v - mn) * (slit 8 0 / (mx - mn)))%sc ;; Ok (if t <? 7 then t else 7).
  Definition inBin (mn mx : f32) (a j : Z) (q : Z) : bool :=
    match cen q with
    | Ok w => match binNumber mn mx (lane w a) with Ok t => t =? j | _ => false end
    | _ => false
    end.
  (** the box of some primitives, with the counter of the Bin structure *)
  Fixpoint boxOf (qs : list Z) (b : aabb f32) : outcome (aabb f32) :=
    match qs with
    | [] => Ok b
    | q :: rest => b1 <- add b q ;; b2 <- binIncrement b1 ;; boxOf rest b2
    end.
  Definition binsOf (qs : list Z) (a : Z) (mn mx : f32) (bins : list (aabb f32)) : Prop :=
    length bins = 8%nat /\
    (forall q, In q qs -> exists w t, cen q = Ok w /\ binNumber mn mx (lane w a) = Ok t /\ 0 <= t) /\
    (forall j, 0 <= j < 8 -> exists b, at_ bins j b /\ boxOf (filter (inBin mn mx a j) qs) emptyBox = Ok b).

  (** primitives in the bins 0 .. i *)
  Definition upToBin (mn mx : f32) (a i : Z) (q : Z) : bool :=
    match cen q with
    | Ok w => match binNumber mn mx (lane w a) with Ok t => t <=? i | _ => false end
    | _ => false
    end.

  (** half the surface area of the union of some boxes *)
  Definition unionArea (bs : list (aabb f32)) : f32 := calcAreaHalf p (fold_left (joinBox p) bs emptyBox).
  Definition counters (bs : list (aabb f32)) : Z := fold_right (fun b s => binCount b + s) 0 bs.

  (** the plane between bins [i] and [i+1], and its cost: on either side, the area of the
      bins times their counters *)
  Definition planeAt (mn mx : f32) (i : Z) : f32 := (mn + (mx - mn) / slit 8 0 * slit (i + 1) 0)%sc.
  Definition planeCost (bins : list (aabb f32)) (i : Z) : f32 :=
    let l := firstn (Z.to_nat (i + 1)) bins in
    let r := skipn (Z.to_nat (i + 1)) bins in
    (slit (counters l) 0 * unionArea l + slit (counters r) 0 * unionArea (rev r))%sc.

  Definition candidate (qs : list Z) (a : Z) (pos cost : f32) : Prop :=
    0 <= a < 3 /\ exists vs bins i,
      coords qs a vs /\ seq (least vs) (greatest vs) = false /\
      binsOf qs a (least vs) (greatest vs) bins /\ 0 <= i < 7 /\
      pos = planeAt (least vs) (greatest vs) i /\ cost = planeCost bins i.

  (** the result of a search over the primitives [qs] *)
  Definition bestOf (qs : list Z) (r : Z * f32 * f32) : Prop :=
    let '(a, pos, cost) := r in
    (candidate qs a pos cost \/ r = (0, f0, fltMax)) /\
    (forall a' pos' cost', candidate qs a' pos' cost' -> slt cost' cost = false).
End Search.

(** C113: the splits of a finished tree. *)
Section Decisions.
  Context {F : Type} {S : Scalar F} {B : Type}.
  Variable centroid : Z -> Z -> outcome F.
  Variable findSplit : Z -> Z -> list Z -> outcome (Z * F * F).
  Variable nodeCost : B -> Z -> F.

  (** primitive [q] is on the lower (upper) side of the plane [axis = split] *)
  Definition lowerSide (axis : Z) (split : F) (q : Z) : Prop :=
    exists c, centroid q axis = Ok c /\ slt c split = true.
  Definition upperSide (axis : Z) (split : F) (q : Z) : Prop :=
    exists c, centroid q axis = Ok c /\ slt c split = false.

  (** [order] lists the primitives in the slots [f, f+c), perhaps in another order *)
  Definition reordered (prims order : list Z) (f c : Z) : Prop :=
    length order = length prims /\ Permutation (entries order f c) (entries prims f c).

  Definition splitDecisions (nodes : list (node B)) (prims : list Z) : Prop :=
    (* an inner node is divided by the plane found for its primitives, which costs less than
       the node, and its children hold the two sides *)
    (forall id left, innerAt nodes id left ->
       exists b f c order axis split cost,
         at_ nodes id (mkNode b left 0) /\ 0 <= f /\ 0 < c /\ f + c <= Z.of_nat (length prims) /\
         (forall k, under nodes id k <-> f <= k < f + c) /\
         reordered prims order f c /\ findSplit f (f + c) order = Ok (axis, split, cost) /\
         sge cost (nodeCost b c) = false /\
         (forall k q, under nodes left k -> at_ prims k q -> lowerSide axis split q) /\
         (forall k q, under nodes (left + 1) k -> at_ prims k q -> upperSide axis split q)) /\
    (* a leaf of more than two primitives was kept because no plane costs less or because
       all its primitives are on one side *)
    (forall id f c, leafAt nodes id f c -> 2 < c ->
       exists b order axis split cost,
         at_ nodes id (mkNode b f c) /\ 0 <= f /\ f + c <= Z.of_nat (length prims) /\
         reordered prims order f c /\ findSplit f (f + c) order = Ok (axis, split, cost) /\
         (sge cost (nodeCost b c) = true \/
          (forall k q, f <= k < f + c -> at_ prims k q -> lowerSide axis split q) \/
          (forall k q, f <= k < f + c -> at_ prims k q -> upperSide axis split q))).
End Decisions.

(** C113 for the trees of the two overloads: every inner node is divided by a cheapest plane
    of its primitives, cheaper than the node itself; a leaf of more than two primitives has
    no cheaper plane, or has all its primitives on one side of the plane. *)
Section SahTree.
  Variable p : path.
  Variable cen : Z -> outcome (vec4 f32).
  Variable add : aabb f32 -> Z -> outcome (aabb f32).

  Definition beneath (axis : Z) (split : f32) (q : Z) : Prop :=
    exists w, cen q = Ok w /\ slt (lane w axis) split = true.
  Definition above (axis : Z) (split : f32) (q : Z) : Prop :=
    exists w, cen q = Ok w /\ slt (lane w axis) split = false.

  Definition sahTree (nodes : list (node (aabb f32))) (prims : list Z) : Prop :=
    (forall id left, innerAt nodes id left ->
       exists b f c qs axis split cost,
         at_ nodes id (mkNode b left 0) /\ 0 <= f /\ 0 < c /\ f + c <= Z.of_nat (length prims) /\
         (forall k, under nodes id k <-> f <= k < f + c) /\
         Permutation qs (entries prims f c) /\ bestOf p cen add qs (axis, split, cost) /\
         sge cost (calcAreaHalf p b * slit c 0)%sc = false /\
         (forall k q, under nodes left k -> at_ prims k q -> beneath axis split q) /\
         (forall k q, under nodes (left + 1) k -> at_ prims k q -> above axis split q)) /\
    (forall id f c, leafAt nodes id f c -> 2 < c ->
       exists b qs axis split cost,
         at_ nodes id (mkNode b f c) /\ 0 <= f /\ f + c <= Z.of_nat (length prims) /\
         Permutation qs (entries prims f c) /\ bestOf p cen add qs (axis, split, cost) /\
         (sge cost (calcAreaHalf p b * slit c 0)%sc = true \/
          (forall k q, f <= k < f + c -> at_ prims k q -> beneath axis split q) \/
          (forall k q, f <= k < f + c -> at_ prims k q -> above axis split q))).
End SahTree.

(** the centroids the two overloads use: the caller's, or the middle of the box / the mean of
    the three vertices *)
Definition boxCentroids (boxes : list (aabb f32)) (given : option (list (vec4 f32))) (q : Z) : outcome (vec4 f32) :=
  match given with Some c => readAt c q | None => omap (fun b => getPosition b) (readAt boxes q) end.
Definition triCentroids (im : Z -> outcome Z) (vm : Z -> outcome (vec3 f32)) (vs is : Z)
  (given : option (list (vec4 f32))) (q : Z) : outcome (vec4 f32) :=
  match given with Some c => readAt c q | None => triangleCentroid im vm vs is q end.

(** Accuracy of the costs.  The edges of a box: *)
Local Open Scope R_scope.
Definition extents (b : aabb f32) : R * R * R :=
  (B2R 24 128 (vx (bmax b)) - B2R 24 128 (vx (bmin b)), B2R 24 128 (vy (bmax b)) - B2R 24 128 (vy (bmin b)),
   B2R 24 128 (vz (bmax b)) - B2R 24 128 (vz (bmin b))).
(** the box: finite, ordered, not larger than 2^60 *)
Definition boundedBox (b : aabb f32) : Prop :=
  finiteBox3 b /\
  B2R 24 128 (vx (bmin b)) <= B2R 24 128 (vx (bmax b)) /\ B2R 24 128 (vy (bmin b)) <= B2R 24 128 (vy (bmax b)) /\ B2R 24 128 (vz (bmin b)) <= B2R 24 128 (vz (bmax b)) /\
  (forall x, x = vx (bmin b) \/ x = vy (bmin b) \/ x = vz (bmin b) \/ x = vx (bmax b) \/ x = vy (bmax b) \/ x = vz (bmax b) ->
     Rabs (B2R 24 128 x) <= bpow radix2 60).
(** [m] is the mean of three numbers up to rounding *)
Definition meanOf (a b c : f32) (m : f32) : Prop :=
  is_finite 24 128 m = true /\ Rabs (B2R 24 128 m - (B2R 24 128 a + B2R 24 128 b + B2R 24 128 c) / 3) <=
    bpow radix2 (-23) * (Rabs (B2R 24 128 a) + Rabs (B2R 24 128 b) + Rabs (B2R 24 128 c)) + bpow radix2 (-150).
