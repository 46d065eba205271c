(** C33 - C38: matrices.  [R] statements are in exact arithmetic; statements over an
    arbitrary [Scalar F] are bit-exact for every float, NaN included. *)
From Coq Require Import ZArith List Bool Lia Reals Lra.
From Verif.Model Require Import Scalar Vec Simd Matrix.
From Verif.Spec Require Import MatSpec.
From Verif.Proofs Require Import OrdScalar MatrixProofs MatrixInverse AabbWitness MoreFacts.
Import ListNotations.
Local Open Scope R_scope.

(** the specification's determinant on a matrix without symmetries *)
Example C35_det_ex : det 4 (ent4 (M4 (V4 1 2 0 1) (V4 0 1 3 0) (V4 2 0 1 1) (V4 1 1 0 2))) = 16.
Proof. cbv [det minor Nat.ltb Nat.leb pow sum ent4 comp4 c0 c1 c2 c3 vx vy vz vw]. ring. Qed.

(** ** C33 *)
Theorem C33_product4 : forall p (a b : mat4 R), isProduct 4 (ent4 (mulM p a b)) (ent4 a) (ent4 b).
Proof. exact mulm4_product. Qed.
Print Assumptions C33_product4.
Theorem C33_product3 : forall (a b : mat3 R), isProduct 3 (ent3 (mulm3 a b)) (ent3 a) (ent3 b).
Proof. exact mulm3_product. Qed.
Print Assumptions C33_product3.
Theorem C33_product2 : forall (a b : mat2 R), isProduct 2 (ent2 (mulm2 a b)) (ent2 a) (ent2 b).
Proof. exact mulm2_product. Qed.
Print Assumptions C33_product2.
Theorem C33_action4 : forall p (a : mat4 R) v, isAction 4 (comp4 (mulV p a v)) (ent4 a) (comp4 v).
Proof. exact mulv4_action. Qed.
Print Assumptions C33_action4.
Theorem C33_action3 : forall (a : mat3 R) v, isAction 3 (comp3 (mulv3 a v)) (ent3 a) (comp3 v).
Proof. exact mulv3_action. Qed.
Print Assumptions C33_action3.
Theorem C33_action2 : forall (a : mat2 R) v, isAction 2 (comp2 (mulv2 a v)) (ent2 a) (comp2 v).
Proof. exact mulv2_action. Qed.
Print Assumptions C33_action2.
Theorem C33_algebra4 : forall p (a b c : mat4 R) v,
  mulM p (mulM p a b) c = mulM p a (mulM p b c) /\ mulV p (mulM p a b) v = mulV p a (mulV p b v) /\
  mulM p identity4 a = a /\ mulM p a identity4 = a /\ mulV p identity4 v = v.
Proof. exact mulM_algebra. Qed.
Print Assumptions C33_algebra4.
Theorem C33_algebra4_plain : forall (a b c : mat4 R) v,
  mulm4 (mulm4 a b) c = mulm4 a (mulm4 b c) /\ mulv4 (mulm4 a b) v = mulv4 a (mulv4 b v) /\
  mulm4 identity4 a = a /\ mulm4 a identity4 = a /\ mulv4 identity4 v = v.
Proof. exact mulm4_algebra. Qed.
Print Assumptions C33_algebra4_plain.
Theorem C33_algebra3 : forall (a b c : mat3 R) v,
  mulm3 (mulm3 a b) c = mulm3 a (mulm3 b c) /\ mulv3 (mulm3 a b) v = mulv3 a (mulv3 b v) /\
  mulm3 identity3 a = a /\ mulm3 a identity3 = a /\ mulv3 identity3 v = v.
Proof. exact mulm3_algebra. Qed.
Print Assumptions C33_algebra3.
Theorem C33_algebra2 : forall (a b c : mat2 R) v,
  mulm2 (mulm2 a b) c = mulm2 a (mulm2 b c) /\ mulv2 (mulm2 a b) v = mulv2 a (mulv2 b v) /\
  mulm2 identity2 a = a /\ mulm2 a identity2 = a /\ mulv2 identity2 v = v.
Proof. exact mulm2_algebra. Qed.
Print Assumptions C33_algebra2.
Example C33_ex : mulm2 (M2 (V2 1 2) (V2 3 4)) (M2 (V2 0 1) (V2 1 1)) = (M2 (V2 3 4) (V2 4 6) : mat2 R).
Proof. mcbn. msplit; ring. Qed.

(** ** C34 *)
Theorem C34_entries4 : forall F (S : Scalar F) p (m : mat4 F) i j, (i < 4)%nat -> (j < 4)%nat ->
  ent4 (transpose4x4 p m) i j = ent4 m j i /\ ent4 (transposep4 m) i j = ent4 m j i.
Proof. exact @transpose4_entries. Qed.
Print Assumptions C34_entries4.
Theorem C34_entries3 : forall F (S : Scalar F) p (m : mat4 F) i j, (i < 3)%nat -> (j < 3)%nat ->
  ent4 (transpose3x3 p m) i j = ent4 m j i /\ ent3 (transposep3 (to3x3 m)) i j = ent4 m j i.
Proof. exact @transpose3_entries. Qed.
Print Assumptions C34_entries3.
Theorem C34_entries2 : forall A (m : mat2 A) i j, (i < 2)%nat -> (j < 2)%nat ->
  ent2 (transposep2 m) i j = ent2 m j i.
Proof. exact @transpose2_entries. Qed.
Print Assumptions C34_entries2.
Theorem C34_involution : forall F (S : Scalar F) p (m : mat4 F) (n : mat3 F) (k : mat2 F),
  transpose4x4 p (transpose4x4 p m) = m /\ transposep4 (transposep4 m) = m /\
  transposep3 (transposep3 n) = n /\ transposep2 (transposep2 k) = k /\
  to3x3 (transpose3x3 p (transpose3x3 p m)) = to3x3 m.
Proof. exact @transpose_involution. Qed.
Print Assumptions C34_involution.
Theorem C34_reverses_products : forall p (a b : mat4 R) (c d : mat3 R) (e f : mat2 R),
  transpose4x4 p (mulM p a b) = mulM p (transpose4x4 p b) (transpose4x4 p a) /\
  transposep3 (mulm3 c d) = mulm3 (transposep3 d) (transposep3 c) /\
  transposep2 (mulm2 e f) = mulm2 (transposep2 f) (transposep2 e).
Proof. exact transpose_product. Qed.
Print Assumptions C34_reverses_products.
Example C34_ex : transpose4x4 SSE41 (M4 (v4 1 2 3) (v4 4 5 6) (v4 7 8 9) (v4 10 11 12)) =
  M4 (V4 (fi 1) (fi 4) (fi 7) (fi 10)) (V4 (fi 2) (fi 5) (fi 8) (fi 11)) (V4 (fi 3) (fi 6) (fi 9) (fi 12)) (v4 0 0 0).
Proof. reflexivity. Qed.

(** ** C35 *)
Theorem C35_inverse4x4 : forall p (m : mat4 R), det 4 (ent4 m) <> 0 ->
  mulM p (inverse4x4 p m) m = identity4 /\ mulM p m (inverse4x4 p m) = identity4.
Proof. exact inverse4x4_correct. Qed.
Print Assumptions C35_inverse4x4.
Theorem C35_paths_agree : forall p q (m : mat4 R), det 4 (ent4 m) <> 0 -> inverse4x4 p m = inverse4x4 q m.
Proof. exact inverse4x4_paths. Qed.
Print Assumptions C35_paths_agree.
Example C35_ex : forall p,
  let i := inverse4x4 p (M4 (v4 0 2 0) (v4 1 0 0) (v4 0 0 1) (V4 (fi 3) (fi 4) (fi 0) (fi 1))) in
  forallb (fun '(a, b) => seq a b) (combine (lanes (c0 i) ++ lanes (c1 i) ++ lanes (c2 i) ++ lanes (c3 i))
    (map fi [0; 1; 0; 0]%Z ++ [slit 1 (-1); fi 0; fi 0; fi 0] ++ map fi [0; 0; 1; 0; -2; -3; 0; 1]%Z)) = true.
Proof. intros []; vm_compute; reflexivity. Qed.

(** ** C36: false for both sizes *)
Theorem C36_inverse2_refuted : exists m : mat2 R, det 2 (ent2 m) <> 0 /\
  mulm2 (inverse2 m) m <> identity2 /\ mulm2 m (inverse2 m) <> identity2.
Proof. exact inverse2_refuted. Qed.
Print Assumptions C36_inverse2_refuted.
Theorem C36_inverse2_actual : forall m : mat2 R, det 2 (ent2 m) <> 0 ->
  mulm2 (transposep2 (inverse2 m)) m = identity2 /\ mulm2 m (transposep2 (inverse2 m)) = identity2.
Proof. exact inverse2_transposed. Qed.
Print Assumptions C36_inverse2_actual.
(** the first two columns hold the transposed inverse, the third uses wrong entries *)
Theorem C36_inverse3_actual : forall m : mat3 R, let D := det 3 (ent3 m) in D <> 0 ->
  exists n, mulm3 n m = identity3 /\ mulm3 m n = identity3 /\
  (forall i j, (i < 3)%nat -> (j < 2)%nat -> ent3 (inverse3 m) i j = ent3 n j i) /\
  ent3 (inverse3 m) 0 2 = (ent3 m 1 0 * ent3 m 2 2 - ent3 m 1 1 * ent3 m 2 0) / D /\
  ent3 (inverse3 m) 1 2 = - (ent3 m 0 0 * ent3 m 2 2 - ent3 m 0 1 * ent3 m 2 0) / D /\
  ent3 (inverse3 m) 2 2 = (ent3 m 0 0 * ent3 m 1 2 - ent3 m 0 1 * ent3 m 1 0) / D.
Proof. exact inverse3_actual. Qed.
Print Assumptions C36_inverse3_actual.

Theorem C36_inverse3_refuted : exists m : mat3 R, det 3 (ent3 m) <> 0 /\
  mulm3 (inverse3 m) m <> identity3 /\ mulm3 m (inverse3 m) <> identity3 /\ det 3 (ent3 (inverse3 m)) = 0.
Proof. exact inverse3_refuted. Qed.
Print Assumptions C36_inverse3_refuted.
(** in binary32: the "inverse" of the identity is singular *)
Example C36_inverse3_ex : let i := inverse3 (identity3 : mat3 f32) in
  seq (z3 (b2 i)) (fi 0) = true /\ seq (y3 (b2 i)) (fi (-1)) = true /\ seq (x3 (b0 i)) (fi 1) = true.
Proof. vm_compute. auto. Qed.

(** ** C37: false; component i of v*m is v_i times the sum of row i *)
Theorem C37_row_vector_refuted : exists (v : vec2 R) (m : mat2 R) (v' : vec3 R) (m' : mat3 R) (v'' : vec4 R) (m'' : mat4 R),
  vmulm2 v m <> mulv2 (transposep2 m) v /\ vmulm3 v' m' <> mulv3 (transposep3 m') v' /\
  vmulm4 v'' m'' <> mulv4 (transposep4 m'') v''.
Proof. exact vmulm_refuted. Qed.
Print Assumptions C37_row_vector_refuted.
Theorem C37_row_vector_actual : forall (v : vec2 R) (m : mat2 R) (v' : vec3 R) (m' : mat3 R) (v'' : vec4 R) (m'' : mat4 R),
  (forall i, (i < 2)%nat -> comp2 (vmulm2 v m) i = comp2 v i * sum 2 (fun k => ent2 m i k)) /\
  (forall i, (i < 3)%nat -> comp3 (vmulm3 v' m') i = comp3 v' i * sum 3 (fun k => ent3 m' i k)) /\
  (forall i, (i < 4)%nat -> comp4 (vmulm4 v'' m'') i = comp4 v'' i * sum 4 (fun k => ent4 m'' i k)).
Proof. exact vmulm_actual. Qed.
Print Assumptions C37_row_vector_actual.

(** ** C38 *)
Theorem C38_matrix_exact : forall F (S : Scalar F) p (a b : mat4 F), p <> AVX2 -> mulM p a b = mulm4 a b.
Proof. exact @mulM_plain. Qed.
Print Assumptions C38_matrix_exact.
Theorem C38_vector_exact : forall F (S : Scalar F) p (a : mat4 F) v, p <> AVX2 -> mulV p a v = mulv4 a v.
Proof. exact @mulV_plain. Qed.
Print Assumptions C38_vector_exact.
Theorem C38_matrix : forall p (a b : mat4 R), mulM p a b = mulm4 a b.
Proof. exact mulMR. Qed.
Print Assumptions C38_matrix.
Theorem C38_vector : forall p (a : mat4 R) v, mulV p a v = mulv4 a v.
Proof. exact mulVR. Qed.
Print Assumptions C38_vector.
Theorem C38_block : forall p (a b : mat4 R), to3x3 (multiply3x3 p a b) = mulm3 (to3x3 a) (to3x3 b).
Proof. exact multiply3x3_block. Qed.
Print Assumptions C38_block.
Theorem C38_block_vector : forall p (a : mat4 R) v, xyz (multiply3x3v p a v) = mulv3 (to3x3 a) (xyz v).
Proof. exact multiply3x3v_block. Qed.
Print Assumptions C38_block_vector.
Theorem C38_block_exact : forall F (S : Scalar F) p (a b : mat4 F), p <> AVX2 ->
  to3x3 (multiply3x3 p a b) = mulm3 (to3x3 a) (to3x3 b).
Proof. exact @multiply3x3_block_exact. Qed.
Print Assumptions C38_block_exact.
(** outside the 3x3 block the paths do differ *)
Theorem C38_fourth_column_differs : exists a b : mat4 R, multiply3x3 SSE41 a b <> multiply3x3 GEN a b.
Proof. exact multiply3x3_column3. Qed.
Print Assumptions C38_fourth_column_differs.
