(** float4x3, conversions between matrices, operators with a number, column access. *)
From Coq Require Import ZArith Bool List Reals Lra Lia.
From Verif.Model Require Import Outcome Scalar Vec Simd Matrix MatrixMore.
From Verif.Spec Require Import MatSpec MatMoreSpec.
From Verif.Proofs Require Import RealLits Frustum.
Import ListNotations.
Local Open Scope R_scope.

Ltac idx i := destruct i as [|[|[|[|i]]]]; try lia.

Lemma action43 : forall (m : mat43 R) v i, (i < 3)%nat -> comp3 (mulv43 m v) i = sum 4 (fun k => ent43 m i k * comp4 v k).
Proof. intros m v i I. unfold mulv43. cbn [sadd smul ScalarR sum]. idx i; cbn; ring. Qed.
Lemma action43_4 : forall F (S : Scalar F) (m : mat43 F) r v, mulv43 m v = xyz (mulv4 (of4x3 m r) v).
Proof. reflexivity. Qed.
Lemma action43_point : forall (m : mat43 R) (x : vec3 R) i, (i < 3)%nat ->
  comp3 (mulv43 m (withRow x 1)) i = affine m (comp3 x) i /\
  comp3 (mulv43 m (withRow x 0)) i = affine m (comp3 x) i - affine m (fun _ => 0) i.
Proof. intros m x i I. unfold affine, mulv43. cbn [sadd smul ScalarR sum withRow]. idx i; cbn; split; ring. Qed.
Lemma identity43_point : forall (x : vec3 R) w, mulv43 identity43 (withRow x w) = x.
Proof.
  intros [a b c] w. unfold mulv43, identity43, rows43, withRow. cbn [x3 y3 z3 vx vy vz vw e0 e1 e2 e3]. rewrite f1R, f0R.
  cbn [sadd smul ScalarR]. f_equal; ring.
Qed.
Lemma convert43 : forall A (m : mat43 A) (n : mat4 A) r,
  (forall i j, (j < 4)%nat -> (i < 3)%nat -> ent4 (of4x3 m r) i j = ent43 m i j) /\
  (forall j, (j < 4)%nat -> ent4 (of4x3 m r) 3 j = comp4 r j) /\
  (forall i j, (j < 4)%nat -> (i < 3)%nat -> ent43 (to4x3 n) i j = ent4 n i j) /\
  to4x3 (of4x3 m r) = m /\
  (of4x3 (to4x3 n) r = n <-> r = V4 (vw (c0 n)) (vw (c1 n)) (vw (c2 n)) (vw (c3 n))).
Proof.
  intros A [[m00 m10 m20] [m01 m11 m21] [m02 m12 m22] [m03 m13 m23]] [[n00 n10 n20 n30] [n01 n11 n21 n31] [n02 n12 n22 n32] [n03 n13 n23 n33]] [r0 r1 r2 r3].
  split; [intros i j J I; idx j; idx i; reflexivity|]. split; [intros j J; idx j; reflexivity|].
  split; [intros i j J I; idx j; idx i; reflexivity|]. split; [reflexivity|].
  unfold of4x3, to4x3, withRow, xyz. cbn. split; [intros E; injection E; congruence|intros E; injection E; intros; subst; reflexivity].
Qed.
Lemma parts : forall A (m : mat43 A) (n : mat4 A) (q : mat3 A) cc r,
  (forall i j, (j < 2)%nat -> (i < 2)%nat -> ent2 (m43to2 m) i j = ent43 m i j /\ ent2 (m4to2 n) i j = ent4 n i j) /\
  (forall i j, (j < 3)%nat -> (i < 3)%nat -> ent3 (m43to3 m) i j = ent43 m i j /\ ent3 (to3x3 n) i j = ent4 n i j /\
     ent4 (of3x3 q cc r) i j = ent3 q i j) /\
  (forall i, (i < 4)%nat -> ent4 (of3x3 q cc r) i 3 = comp4 cc i) /\ (forall j, (j < 3)%nat -> ent4 (of3x3 q cc r) 3 j = comp4 r j) /\
  to3x3 (of3x3 q cc r) = q.
Proof.
  intros A m n [[q00 q10 q20] [q01 q11 q21] [q02 q12 q22]] cc r.
  split; [intros i j J I; idx j; idx i; split; reflexivity|].
  split; [intros i j J I; idx j; idx i; repeat split; reflexivity|].
  split; [intros i I; idx i; reflexivity|]. split; [intros j J; idx j; reflexivity|]. reflexivity.
Qed.
Lemma three_columns : forall A (a b c : vec4 A) i j, (j < 3)%nat ->
  ent4 (threeColumns a b c) i j = comp4 (nth j [a; b; c] a) i /\ ent4 (threeColumns a b c) i 3 = ent4 (threeColumns a b c) i 2.
Proof. intros A a b c i j J. idx j; split; reflexivity. Qed.

(** composition of affine maps through 4x4 matrices *)
Lemma compose43 : forall (m n : mat43 R), let last := V4 0 0 0 1 in
  let mn := to4x3 (mulm4 (of4x3 m last) (of4x3 n last)) in
  (forall x i, (i < 3)%nat -> affine mn x i = affine m (affine n x) i) /\
  of4x3 mn last = mulm4 (of4x3 m last) (of4x3 n last).
Proof.
  intros [[m00 m10 m20] [m01 m11 m21] [m02 m12 m22] [m03 m13 m23]] [[n00 n10 n20] [n01 n11 n21] [n02 n12 n22] [n03 n13 n23]] last mn.
  split.
  - intros x i I. subst mn last.
    idx i; cbv [affine to4x3 mulm4 col4 of4x3 withRow xyz addp4 scalep4 map2_4 map_4 ent43 comp3 sum e0 e1 e2 e3 c0 c1 c2 c3 x3 y3 z3 vx vy vz vw sadd smul ScalarR]; ring.
  - subst mn last. cbv [to4x3 mulm4 col4 of4x3 withRow xyz addp4 scalep4 map2_4 map_4 e0 e1 e2 e3 c0 c1 c2 c3 x3 y3 z3 vx vy vz vw sadd smul ScalarR].
    f_equal; f_equal; ring.
Qed.
(** the default bottom row is zero: the translation of the inner map is lost *)
Lemma compose43_default_refuted : exists m n : mat43 R, exists x i, (i < 3)%nat /\
  affine (to4x3 (mulm4 (of4x3 m (dup4 f0)) (of4x3 n (dup4 f0)))) x i <> affine m (affine n x) i.
Proof.
  exists (rows43 1 0 0 5 0 1 0 0 0 0 1 0), (rows43 1 0 0 7 0 1 0 0 0 0 1 0), (fun _ => 0), 0%nat. split; [lia|].
  rewrite f0R.
  cbv [affine to4x3 mulm4 col4 of4x3 withRow xyz addp4 scalep4 map2_4 map_4 rows43 dup4 ent43 comp3 sum e0 e1 e2 e3 c0 c1 c2 c3 x3 y3 z3 vx vy vz vw sadd smul ScalarR].
  lra.
Qed.
Lemma default_row_actual : forall (m : mat43 R) v, vw (mulv4 (of4x3 m (dup4 f0)) v) = 0 /\ xyz (mulv4 (of4x3 m (dup4 f0)) v) = mulv43 m v.
Proof.
  intros m v. split; [|reflexivity]. unfold mulv4, of4x3, withRow, dup4. rewrite f0R. cbn. ring.
Qed.

Lemma number_ops : forall o (n : R) (m2 : mat2 R) (m3 : mat3 R) (m43 : mat43 R) (m4 : mat4 R) i j,
  ((i < 2)%nat -> (j < 2)%nat -> ent2 (numR2 o m2 n) i j = arithR o (ent2 m2 i j) n /\ ent2 (numL2 o n m2) i j = arithR o n (ent2 m2 i j)) /\
  ((i < 3)%nat -> (j < 3)%nat -> ent3 (numR3 o m3 n) i j = arithR o (ent3 m3 i j) n /\ ent3 (numL3 o n m3) i j = arithR o n (ent3 m3 i j)) /\
  ((i < 3)%nat -> (j < 4)%nat -> ent43 (numR43 o m43 n) i j = arithR o (ent43 m43 i j) n /\ ent43 (numL43 o n m43) i j = arithR o n (ent43 m43 i j)) /\
  ((i < 4)%nat -> (j < 4)%nat -> ent4 (numR4 o m4 n) i j = arithR o (ent4 m4 i j) n /\ ent4 (numL4 o n m4) i j = arithR o n (ent4 m4 i j)).
Proof.
  intros o n m2 m3 m43 m4 i j.
  repeat split; intros; idx j; idx i; destruct o; reflexivity.
Qed.
(** multiplying the matrix by a number multiplies its action *)
Lemma number_action : forall (n : R) (m : mat4 R) v i, (i < 4)%nat ->
  comp4 (mulv4 (numR4 AMul m n) v) i = n * comp4 (mulv4 m v) i.
Proof. intros n m v i I. unfold mulv4, numR4, map_4, arithOp. cbn [sadd smul ScalarR]. idx i; cbn; ring. Qed.

Lemma columns_ok : forall A debug (m2 : mat2 A) (m3 : mat3 A) (m4 : mat4 A) i, (0 <= i)%Z ->
  column2 debug m2 i = accessSpec debug 2 (fun k => nth k [a0 m2; a1 m2] (a0 m2)) i /\
  column3 debug m3 i = accessSpec debug 3 (fun k => nth k [b0 m3; b1 m3; b2 m3] (b0 m3)) i /\
  column4 debug m4 i = accessSpec debug 4 (fun k => nth k [c0 m4; c1 m4; c2 m4; c3 m4] (c0 m4)) i.
Proof.
  intros A debug m2 m3 m4 i I. unfold column2, column3, column4, column, accessSpec.
  destruct (Z_lt_le_dec i 4) as [L|L].
  - assert (C : (i = 0 \/ i = 1 \/ i = 2 \/ i = 3)%Z) by lia. destruct C as [->|[->|[->| ->]]], debug; repeat split; reflexivity.
  - assert (N : forall (B : Type) (l : list B), (length l <= 4)%nat -> nth_error l (Z.to_nat i) = None) by (intros B l H; apply nth_error_None; lia).
    rewrite !N by (cbn; lia).
    replace (i <=? 1)%Z with false by (symmetry; apply Z.leb_gt; lia). replace (i <=? 2)%Z with false by (symmetry; apply Z.leb_gt; lia).
    replace (i <=? 3)%Z with false by (symmetry; apply Z.leb_gt; lia). replace (i <? 2)%Z with false by (symmetry; apply Z.ltb_ge; lia).
    replace (i <? 3)%Z with false by (symmetry; apply Z.ltb_ge; lia). replace (i <? 4)%Z with false by (symmetry; apply Z.ltb_ge; lia).
    destruct debug; repeat split; reflexivity.
Qed.
Lemma column43_refuted : forall A (m : mat43 A), column43 true m 3 = Abort /\ column43 false m 3 = Ok (e3 m).
Proof. intros A m. split; reflexivity. Qed.
Lemma column43_actual : forall A debug (m : mat43 A) i, (0 <= i)%Z ->
  column43 debug m i = (if debug && (i =? 3)%Z then Abort else accessSpec debug 4 (fun k => nth k [e0 m; e1 m; e2 m; e3 m] (e0 m)) i).
Proof.
  intros A debug m i I. unfold column43, column, accessSpec.
  destruct (Z_lt_le_dec i 4) as [L|L].
  - assert (C : (i = 0 \/ i = 1 \/ i = 2 \/ i = 3)%Z) by lia. destruct C as [->|[->|[->| ->]]], debug; reflexivity.
  - replace (nth_error _ _) with (@None (vec3 A)) by (symmetry; apply nth_error_None; cbn; lia).
    replace (i <=? 2)%Z with false by (symmetry; apply Z.leb_gt; lia). replace (i =? 3)%Z with false by (symmetry; apply Z.eqb_neq; lia).
    replace (i <? 4)%Z with false by (symmetry; apply Z.ltb_ge; lia). destruct debug; reflexivity.
Qed.
