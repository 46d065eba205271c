(** Vocabulary for statements about the boxes of a BVH and frustum planes. *)
From Coq Require Import ZArith List Reals.
From Flocq Require Import IEEE754.Binary IEEE754.Bits.
From Verif.Model Require Import Outcome Scalar Vec Aabb Bvh BvhSplit.
From Verif.Spec Require Import GeomSpec.
From Verif.Proofs Require Import OrdScalar.
Local Open Scope Z_scope.

Definition finite3 (v : vec4 f32) : Prop :=
  is_finite 24 128 (vx v) = true /\ is_finite 24 128 (vy v) = true /\ is_finite 24 128 (vz v) = true.
Definition finite4 (v : vec4 f32) : Prop := finite3 v /\ is_finite 24 128 (vw v) = true.
Definition finiteBox3 (b : aabb f32) : Prop := finite3 (bmin b) /\ finite3 (bmax b).

(** vertex [j] of triangle [q]: the index at its byte offset, and the vertex at the byte
    offset of that index *)
Definition triVertex (im : Z -> outcome Z) (vm : Z -> outcome (vec3 f32)) (vs is q j : Z) (v : vec3 f32) : Prop :=
  exists i, im ((3 * q + j) * is) = Ok i /\ vm (i * vs) = Ok v.
(** the buffers' byte offsets do not exceed 32 bits *)
Definition offsetsFit (im : Z -> outcome Z) (n vs is : Z) : Prop :=
  3 * n * is <= 2 ^ 32 /\ forall o i, im o = Ok i -> 0 <= i * vs < 2 ^ 32.

(** signed value of the plane equation at a point; negative is the outer side *)
Definition planeSide (pl q : vec4 R) : R :=
  (vx pl * vx q + vy pl * vy q + vz pl * vz q + vw pl)%R.

(** [pt] is in the bounding box of the vertices [a], [b], [c]; in particular when it is on
    the triangle *)
Definition inHull (a b c : vec3 f32) (pt : vec4 f32) : Prop :=
  forall bx : aabb f32,
    (forall v, v = a \/ v = b \/ v = c -> inBox bx (V4 (x3 v) (y3 v) (z3 v) f0)) -> inBox bx pt.

(** [nodes] and [prims] are the result of one of the two overloads of recreate over [n]
    primitives *)
Definition built (p : path) (n : Z) (nodes : list (node (aabb f32))) (prims : list Z) : Prop :=
  (exists boxes root given, n = Z.of_nat (length boxes) /\
     recreateBoxes p boxes root given = Ok (nodes, prims)) \/
  (exists im vm root ic vs is given, n = ic / 3 /\
     recreateTriangles p im vm root ic vs is given = Ok (nodes, prims)).
