(** Model of /repo/source/bvh.cpp and /repo/include/math/bvh.hpp.

    The two overloads of Bvh::recreate (triangles, bvh.cpp:250-399, and boxes, 402-530)
    have the same build loop and differ only in how a primitive's box and the split plane
    are computed; the loop is modelled once, over those two operations.  Nodes are
    addressed by index: the node array is not resized while pointers into it are alive
    (bvh.cpp:261 and 398, 408 and 529), so a Node* is an index.  uint32 arithmetic wraps
    explicitly.  Any access outside an array is UB. *)
From Coq Require Import ZArith List Bool.
From Verif.Model Require Import Outcome Scalar Packed.
Import ListNotations.
Local Open Scope Z_scope.
Local Open Scope outcome_scope.

(** uint32 wrap-around. *)
Definition wrap (x : Z) : Z := x mod 2 ^ 32.

(** array[i] for reading and writing *)
Definition inRange {A} (l : list A) (i : Z) : bool := (0 <=? i) && (i <? Z.of_nat (length l)).
Definition readAt {A} (l : list A) (i : Z) : outcome A :=
  if inRange l i then match nth_error l (Z.to_nat i) with Some x => Ok x | None => UB end else UB.
Definition writeAt {A} (l : list A) (i : Z) (x : A) : outcome (list A) :=
  if inRange l i then Ok (updNth (Z.to_nat i) x l) else UB.

(** 0, 1, ..., n-1: bvh.cpp:264-265, 412-413 *)
Definition iota (n : Z) : list Z := map Z.of_nat (List.seq 0 (Z.to_nat n)).

Section Node.
  Context {B : Type}.
  (** bvh.hpp:53-101: a node is a box whose unused w lanes hold two integers: min.w is the
      primitive count (non-zero iff leaf), max.w is the left child (inner node) or the first
      primitive (leaf). *)
  Record node := mkNode { nbox : B; nlink : Z; ncount : Z }.
  (** bvh.hpp:100 *)
  Definition isLeaf (nd : node) : bool := negb (ncount nd =? 0).
End Node.
Arguments node B : clear implicits.

Section Build.
  Context {F : Type} {S : Scalar F} {B : Type}.
  (** centroidData[primitive][axis] *)
  Variable centroid : Z -> Z -> outcome F.
  (** findBestSplitPlane (bvh.cpp:83-162, 165-237): axis, split and cost for
      firstPrimitive, lastPrimitive and the current primitive order *)
  Variable findSplit : Z -> Z -> list Z -> outcome (Z * F * F).
  (** calcArea(node box) * primitiveCount (bvh.cpp:313, 448) *)
  Variable nodeCost : B -> Z -> F.
  (** initial box and the inclusion of one primitive (bvh.cpp:30-43, 50-57) *)
  Variable boxInit : B.
  Variable boxAdd : B -> Z -> outcome B.

  (** bvh.cpp:32-43, 52-57: the loop over primitives[first .. first+k-1] *)
  Fixpoint boxLoop (prims : list Z) (i : Z) (k : nat) (b : B) : outcome B :=
    match k with
    | O => Ok b
    | Datatypes.S k' =>
        q <- readAt prims i ;;
        b' <- boxAdd b q ;;
        boxLoop prims (wrap (i + 1)) k' b'
    end.
  (** bvh.cpp:26-45, 47-60 *)
  Definition calculateNodeAabb (first count : Z) (prims : list Z) : outcome B :=
    let last := wrap (first + count) in
    boxLoop prims first (Z.to_nat (last - first)) boxInit.

  (** bvh.cpp:329-336, 463-470: partition of primitives[i..j] by centroid < split *)
  Fixpoint partition (fuel : nat) (axis : Z) (split : F) (i j : Z) (prims : list Z)
    : outcome (Z * list Z) :=
    match fuel with
    | O => OutOfFuel
    | Datatypes.S fuel' =>
        if i <=? j then
          q <- readAt prims i ;;
          c <- centroid q axis ;;
          if slt c split then partition fuel' axis split (wrap (i + 1)) j prims
          else
            r <- readAt prims j ;;
            prims1 <- writeAt prims i r ;;
            prims2 <- writeAt prims1 j q ;;
            partition fuel' axis split i (wrap (j - 1)) prims2
        else Ok (i, prims)
    end.

  Record bstate := mkState {
    sprims : list Z; snodes : list (node B); snodeCount : Z; sstack : list Z; scur : Z }.

  Inductive stepResult := Continue (st : bstate) | Done (st : bstate).

  (** The repeated block "if the stack is empty break else pop and continue", e.g.
      bvh.cpp:317-326 *)
  Definition popNode (prims : list Z) (nodes : list (node B)) (nodeCount : Z) (stack : list Z)
    (cur : Z) : stepResult :=
    match stack with
    | nil => Done (mkState prims nodes nodeCount nil cur)
    | id :: rest => Continue (mkState prims nodes nodeCount rest id)
    end.

  (** One iteration of the loop bvh.cpp:304-396, 439-527 *)
  Definition buildStep (st : bstate) : outcome stepResult :=
    let prims := sprims st in let nodes := snodes st in
    let nc := snodeCount st in let cur := scur st in let stack := sstack st in
    nd <- readAt nodes cur ;;
    let first := nlink nd in let count := ncount nd in
    let last := wrap (first + count) in
    r <- findSplit first last prims ;;
    let '(axis, split, cost) := r in
    if sge cost (nodeCost (nbox nd) count) then Ok (popNode prims nodes nc stack cur)
    else
      pr <- partition (Z.to_nat count + 2) axis split first (wrap (wrap (first + count) - 1)) prims ;;
      let '(i, prims) := pr in
      let count1 := wrap (i - first) in
      if (count1 =? 0) || (count1 =? count) then Ok (popNode prims nodes nc stack cur)
      else
        let count2 := wrap (count - count1) in
        let left := nc in let right := wrap (nc + 1) in
        let nc' := wrap (nc + 2) in
        nodes <- writeAt nodes cur (mkNode (nbox nd) left 0) ;;
        b1 <- calculateNodeAabb first count1 prims ;;
        nodes <- writeAt nodes left (mkNode b1 first count1) ;;
        b2 <- calculateNodeAabb i count2 prims ;;
        nodes <- writeAt nodes right (mkNode b2 i count2) ;;
        let '(cb, cs, big, small) :=
          if count1 <? count2 then (count2, count1, right, left) else (count1, count2, left, right) in
        if 2 <? cb then
          Ok (Continue (mkState prims nodes nc' (if 2 <? cs then small :: stack else stack) big))
        else Ok (popNode prims nodes nc' stack cur).

  Fixpoint buildLoop (fuel : nat) (st : bstate) : outcome bstate :=
    match fuel with
    | O => OutOfFuel
    | Datatypes.S fuel' =>
        r <- buildStep st ;;
        match r with
        | Continue st' => buildLoop fuel' st'
        | Done st' => Ok st'
        end
    end.

  (** bvh.cpp:261, 408: nodes.resize(primitiveCount * 2 - 1) in uint32 *)
  Definition nodeArraySize (n : Z) : Z := wrap (wrap (n * 2) - 1).

  (** bvh.cpp:298-302, 433-437: the root; other nodes hold whatever the array held
      ([filler]), they are overwritten before being read. *)
  Definition initState (root : B) (n : Z) : outcome bstate :=
    let filler := mkNode root 0 0 in
    nodes <- writeAt (repeat filler (Z.to_nat (nodeArraySize n))) 0 (mkNode root 0 n) ;;
    Ok (mkState (iota n) nodes 1 nil 0).

  (** bvh.cpp:250-399, 402-530: the finished node array (resized to nodeCount) and the
      primitive order.  The fuel bounds the number of node visits. *)
  Definition recreate (root : B) (n : Z) : outcome (list (node B) * list Z) :=
    st0 <- initState root n ;;
    st <- buildLoop (Z.to_nat (2 * n - 1)) st0 ;;
    Ok (firstn (Z.to_nat (snodeCount st)) (snodes st), sprims st).
End Build.

Section Traverse.
  Context {B : Type}.

  (** bvh.hpp:192-231: the calls of onLeaf, in order. *)
  Fixpoint traverseLoop (fuel : nat) (nodes : list (node B)) (hit : node B -> bool)
    (cur : Z) (stack : list Z) : outcome (list (Z * Z)) :=
    match fuel with
    | O => OutOfFuel
    | S fuel' =>
        nd <- readAt nodes cur ;;
        let next :=
          match stack with
          | nil => Ok nil
          | id :: rest => traverseLoop fuel' nodes hit id rest
          end in
        if negb (hit nd) then next
        else if isLeaf nd then omap (fun l => (nlink nd, ncount nd) :: l) next
        else traverseLoop fuel' nodes hit (nlink nd) (wrap (nlink nd + 1) :: stack)
    end.
  Definition traverse (nodes : list (node B)) (hit : node B -> bool) : outcome (list (Z * Z)) :=
    match nodes with
    | nil => Ok nil
    | _ => traverseLoop (length nodes + 1) nodes hit 0 nil
    end.

  (** bvh.cpp:564-566: copying of a leaf's primitives to the caller's buffer of [cap]
      entries, [out] being what was written so far (in order). *)
  Fixpoint copyLeaf (prims : list Z) (cap i : Z) (k : nat) (out : list Z) : outcome (list Z) :=
    match k with
    | O => Ok out
    | S k' =>
        q <- readAt prims i ;;
        if Z.of_nat (length out) <? cap then copyLeaf prims cap (wrap (i + 1)) k' (out ++ [q])
        else UB
    end.
  (** bvh.cpp:549-578 *)
  Fixpoint collectLoop (fuel : nat) (nodes : list (node B)) (prims : list Z) (cap : Z)
    (behind : B -> bool) (cur : Z) (stack : list Z) (out : list Z) : outcome (list Z) :=
    match fuel with
    | O => OutOfFuel
    | S fuel' =>
        nd <- readAt nodes cur ;;
        let next out :=
          match stack with
          | nil => Ok out
          | id :: rest => collectLoop fuel' nodes prims cap behind id rest out
          end in
        if behind (nbox nd) then next out
        else if isLeaf nd then
          let last := wrap (nlink nd + ncount nd) in
          out' <- copyLeaf prims cap (nlink nd) (Z.to_nat (last - nlink nd)) out ;;
          next out'
        else collectLoop fuel' nodes prims cap behind (nlink nd) (wrap (nlink nd + 1) :: stack) out
    end.
  (** bvh.cpp:533-580; the returned count is the length of the list. *)
  Definition collectInFrustum (nodes : list (node B)) (prims : list Z) (cap : Z)
    (behind : B -> bool) : outcome (list Z) :=
    match nodes with
    | nil => Ok nil
    | _ => collectLoop (length nodes + 1) nodes prims cap behind 0 nil nil
    end.
End Traverse.
