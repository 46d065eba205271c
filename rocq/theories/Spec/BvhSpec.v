(** What a finished BVH has to look like, stated on the raw node and primitive arrays. *)
From Coq Require Import ZArith List Sorted Permutation.
From Verif.Model Require Import Bvh.
Import ListNotations.
Local Open Scope Z_scope.

Section Spec.
  Context {B : Type}.

  (** entry [i] of an array is [x] *)
  Definition at_ {A} (l : list A) (i : Z) (x : A) : Prop :=
    0 <= i /\ nth_error l (Z.to_nat i) = Some x.

  Definition leafAt (nodes : list (node B)) (id first count : Z) : Prop :=
    exists nd, at_ nodes id nd /\ ncount nd <> 0 /\ nlink nd = first /\ ncount nd = count.
  Definition innerAt (nodes : list (node B)) (id left : Z) : Prop :=
    exists nd, at_ nodes id nd /\ ncount nd = 0 /\ nlink nd = left.

  (** C01 *)
  Definition isPermutationOfFirst (prims : list Z) (n : Z) : Prop :=
    Z.of_nat (length prims) = n /\ NoDup prims /\ (forall q, In q prims <-> 0 <= q < n).
  Definition leavesPartition (nodes : list (node B)) (n : Z) : Prop :=
    (forall id first count, leafAt nodes id first count ->
       0 <= first /\ 0 < count /\ first + count <= n) /\
    (forall k, 0 <= k < n -> exists! id, exists first count,
       leafAt nodes id first count /\ first <= k < first + count).

  (** C02 *)
  Definition fullBinaryTree (nodes : list (node B)) (n : Z) : Prop :=
    let N := Z.of_nat (length nodes) in
    1 <= N <= 2 * n - 1 /\ Z.Odd N /\
    (forall id left, innerAt nodes id left -> id < left /\ left + 1 < N) /\
    (forall id, 1 <= id < N ->
       exists! parent, exists left, innerAt nodes parent left /\ (id = left \/ id = left + 1)).

  (** slot [k] of the primitive array belongs to the subtree of node [id] *)
  Inductive under (nodes : list (node B)) : Z -> Z -> Prop :=
  | under_leaf : forall id first count k,
      leafAt nodes id first count -> first <= k < first + count -> under nodes id k
  | under_left : forall id left k,
      innerAt nodes id left -> under nodes left k -> under nodes id k
  | under_right : forall id left k,
      innerAt nodes id left -> under nodes (left + 1) k -> under nodes id k.

  (** nodes reached by a traversal that descends into accepted nodes only *)
  Inductive visited (nodes : list (node B)) (accept : node B -> bool) : Z -> Prop :=
  | visited_root : forall nd, at_ nodes 0 nd -> accept nd = true -> visited nodes accept 0
  | visited_left : forall id left nd,
      visited nodes accept id -> innerAt nodes id left ->
      at_ nodes left nd -> accept nd = true -> visited nodes accept left
  | visited_right : forall id left nd,
      visited nodes accept id -> innerAt nodes id left ->
      at_ nodes (left + 1) nd -> accept nd = true -> visited nodes accept (left + 1).

  (** C07: the calls of onLeaf are the accepted leaves, each once, in slot order *)
  Definition callsAreAcceptedLeaves (nodes : list (node B)) (accept : node B -> bool)
    (calls : list (Z * Z)) : Prop :=
    (forall first count, In (first, count) calls <->
       exists id, visited nodes accept id /\ leafAt nodes id first count) /\
    StronglySorted (fun a b => fst a + snd a <= fst b) calls.

  (** C08 *)
  Definition collectedExactly (nodes : list (node B)) (prims : list Z) (accept : node B -> bool)
    (out : list Z) : Prop :=
    NoDup out /\
    (forall q, In q out <-> exists id first count k,
       visited nodes accept id /\ leafAt nodes id first count /\
       first <= k < first + count /\ at_ prims k q).
End Spec.
