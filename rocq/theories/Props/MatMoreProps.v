(** C117: 4x3 matrices, conversions between matrices, operators with a number and column access.  [ent2],
    [ent3], [ent4] and [ent43] are the entries by row and column; [affine m] is the map x -> L x + t of the 4x3
    matrix [L | t]. *)
From Coq Require Import ZArith Reals Bool List Lia Lra.
From Verif.Model Require Import Outcome Scalar Vec Simd Matrix MatrixMore.
From Verif.Spec Require Import MatSpec MatMoreSpec.
From Verif.Proofs Require Import MatMoreProofs.
Import ListNotations.
Local Open Scope R_scope.

Theorem C117_action : forall (m : mat43 R) v i, (i < 3)%nat -> comp3 (mulv43 m v) i = sum 4 (fun k => ent43 m i k * comp4 v k).
Proof. exact action43. Qed.
Print Assumptions C117_action.

(** The same rounding as the 4x4 product, whatever the bottom row. *)
Theorem C117_action_as_4x4 : forall F (S : Scalar F) (m : mat43 F) r v, mulv43 m v = xyz (mulv4 (of4x3 m r) v).
Proof. exact action43_4. Qed.
Print Assumptions C117_action_as_4x4.

(** Points are mapped by the affine map, directions by its linear part. *)
Theorem C117_points : forall (m : mat43 R) (x : vec3 R) i, (i < 3)%nat ->
  comp3 (mulv43 m (withRow x 1)) i = affine m (comp3 x) i /\
  comp3 (mulv43 m (withRow x 0)) i = affine m (comp3 x) i - affine m (fun _ => 0) i.
Proof. exact action43_point. Qed.
Print Assumptions C117_points.

Theorem C117_identity : forall (x : vec3 R) w, mulv43 identity43 (withRow x w) = x.
Proof. exact identity43_point. Qed.
Print Assumptions C117_identity.

Theorem C117_conversions : forall A (m : mat43 A) (n : mat4 A) r,
  (forall i j, (j < 4)%nat -> (i < 3)%nat -> ent4 (of4x3 m r) i j = ent43 m i j) /\
  (forall j, (j < 4)%nat -> ent4 (of4x3 m r) 3 j = comp4 r j) /\
  (forall i j, (j < 4)%nat -> (i < 3)%nat -> ent43 (to4x3 n) i j = ent4 n i j) /\
  to4x3 (of4x3 m r) = m /\
  (of4x3 (to4x3 n) r = n <-> r = V4 (vw (c0 n)) (vw (c1 n)) (vw (c2 n)) (vw (c3 n))).
Proof. exact convert43. Qed.
Print Assumptions C117_conversions.

Theorem C117_parts : forall A (m : mat43 A) (n : mat4 A) (q : mat3 A) cc r,
  (forall i j, (j < 2)%nat -> (i < 2)%nat -> ent2 (m43to2 m) i j = ent43 m i j /\ ent2 (m4to2 n) i j = ent4 n i j) /\
  (forall i j, (j < 3)%nat -> (i < 3)%nat -> ent3 (m43to3 m) i j = ent43 m i j /\ ent3 (to3x3 n) i j = ent4 n i j /\
     ent4 (of3x3 q cc r) i j = ent3 q i j) /\
  (forall i, (i < 4)%nat -> ent4 (of3x3 q cc r) i 3 = comp4 cc i) /\ (forall j, (j < 3)%nat -> ent4 (of3x3 q cc r) 3 j = comp4 r j) /\
  to3x3 (of3x3 q cc r) = q.
Proof. exact parts. Qed.
Print Assumptions C117_parts.

Theorem C117_three_columns : forall A (a b c : vec4 A) i j, (j < 3)%nat ->
  ent4 (threeColumns a b c) i j = comp4 (nth j [a; b; c] a) i /\ ent4 (threeColumns a b c) i 3 = ent4 (threeColumns a b c) i 2.
Proof. exact three_columns. Qed.
Print Assumptions C117_three_columns.

(** With the bottom row (0, 0, 0, 1) matrices compose as maps. *)
Theorem C117_compose : forall (m n : mat43 R), let last := V4 0 0 0 1 in
  let mn := to4x3 (mulm4 (of4x3 m last) (of4x3 n last)) in
  (forall x i, (i < 3)%nat -> affine mn x i = affine m (affine n x) i) /\
  of4x3 mn last = mulm4 (of4x3 m last) (of4x3 n last).
Proof. exact compose43. Qed.
Print Assumptions C117_compose.

(** With the default bottom row they do not. *)
Theorem C117_compose_default_refuted : exists m n : mat43 R, exists x i, (i < 3)%nat /\
  affine (to4x3 (mulm4 (of4x3 m (dup4 f0)) (of4x3 n (dup4 f0)))) x i <> affine m (affine n x) i.
Proof. exact compose43_default_refuted. Qed.
Print Assumptions C117_compose_default_refuted.

Theorem C117_default_row_actual : forall (m : mat43 R) v, vw (mulv4 (of4x3 m (dup4 f0)) v) = 0 /\ xyz (mulv4 (of4x3 m (dup4 f0)) v) = mulv43 m v.
Proof. exact default_row_actual. Qed.
Print Assumptions C117_default_row_actual.

Theorem C117_number_ops : forall o (n : R) (m2 : mat2 R) (m3 : mat3 R) (m43 : mat43 R) (m4 : mat4 R) i j,
  ((i < 2)%nat -> (j < 2)%nat -> ent2 (numR2 o m2 n) i j = arithR o (ent2 m2 i j) n /\ ent2 (numL2 o n m2) i j = arithR o n (ent2 m2 i j)) /\
  ((i < 3)%nat -> (j < 3)%nat -> ent3 (numR3 o m3 n) i j = arithR o (ent3 m3 i j) n /\ ent3 (numL3 o n m3) i j = arithR o n (ent3 m3 i j)) /\
  ((i < 3)%nat -> (j < 4)%nat -> ent43 (numR43 o m43 n) i j = arithR o (ent43 m43 i j) n /\ ent43 (numL43 o n m43) i j = arithR o n (ent43 m43 i j)) /\
  ((i < 4)%nat -> (j < 4)%nat -> ent4 (numR4 o m4 n) i j = arithR o (ent4 m4 i j) n /\ ent4 (numL4 o n m4) i j = arithR o n (ent4 m4 i j)).
Proof. exact number_ops. Qed.
Print Assumptions C117_number_ops.

Theorem C117_number_action : forall (n : R) (m : mat4 R) v i, (i < 4)%nat ->
  comp4 (mulv4 (numR4 AMul m n) v) i = n * comp4 (mulv4 m v) i.
Proof. exact number_action. Qed.
Print Assumptions C117_number_action.

Theorem C117_columns : forall A debug (m2 : mat2 A) (m3 : mat3 A) (m4 : mat4 A) i, (0 <= i)%Z ->
  column2 debug m2 i = accessSpec debug 2 (fun k => nth k [a0 m2; a1 m2] (a0 m2)) i /\
  column3 debug m3 i = accessSpec debug 3 (fun k => nth k [b0 m3; b1 m3; b2 m3] (b0 m3)) i /\
  column4 debug m4 i = accessSpec debug 4 (fun k => nth k [c0 m4; c1 m4; c2 m4; c3 m4] (c0 m4)) i.
Proof. exact columns_ok. Qed.
Print Assumptions C117_columns.

(** The fourth column of a 4x3 matrix cannot be accessed in debug builds. *)
Theorem C117_column_refuted : forall A (m : mat43 A), column43 true m 3 = Abort /\ column43 false m 3 = Ok (e3 m).
Proof. exact column43_refuted. Qed.
Print Assumptions C117_column_refuted.

Theorem C117_column_actual : forall A debug (m : mat43 A) i, (0 <= i)%Z ->
  column43 debug m i = (if debug && (i =? 3)%Z then Abort else accessSpec debug 4 (fun k => nth k [e0 m; e1 m; e2 m; e3 m] (e0 m)) i).
Proof. exact column43_actual. Qed.
Print Assumptions C117_column_actual.

(** A quarter turn about z followed by a move takes (1, 0, 0) to (5, 7, 6). *)
Example C117_ex : let m := rows43 0 (-1) 0 5 1 0 0 6 0 0 1 6 : mat43 R in
  comp3 (mulv43 m (withRow (V3 1 0 0) 1)) 1 = 7 /\ (1 < 3)%nat /\
  column43 true m 2 = Ok (V3 0 0 1) /\ column43 true m 4 = Abort /\ column43 false m 4 = UB.
Proof. cbn. repeat split; try lra; try lia. Qed.
