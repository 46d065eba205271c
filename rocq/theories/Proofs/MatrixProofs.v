(** Matrix algebra over the reals. *)
From Coq Require Import ZArith Bool Reals Lra Lia.
From Verif.Model Require Import Scalar Vec Simd Matrix.
From Verif.Spec Require Import MatSpec.
From Verif.Proofs Require Import OrdScalar Frustum RealLits.
Local Open Scope R_scope.

Ltac mlits := rewrite ?f0R, ?f1R, ?f2R, ?fhalfR.
Ltac mcbn := cbv beta iota zeta delta [simdfma multiply3x3 multiply3x3v sum ent2 ent3 ent4 comp2 comp3 comp4
  c0 c1 c2 c3 b0 b1 b2 a0 a1 vx vy vz vw x2 y2 x3 y3 z3 map2_2 map2_3 map2_4 map_2 map_3 map_4
  add2 scale2 add3 scale3 addp4 scalep4 mulm2 mulv2 col3 mulm3 mulv3 col4 mulm4 mulv4 rows2 rows3 rows4
  vmul vadd vsub vfma splatX splatY splatZ splatW dup4 dup3 dup2 simdCol simdCol3 to3x3 of3x3 xyz
  transposep2 transposep3 transposep4 identity2 identity3 identity4]; mlits;
  cbv beta iota zeta delta [sadd ssub smul sdiv sneg sfma ScalarR].

Lemma mat2_eq : forall (a b c d a' b' c' d' : R), a = a' -> b = b' -> c = c' -> d = d' ->
  M2 (V2 a b) (V2 c d) = M2 (V2 a' b') (V2 c' d').
Proof. congruence. Qed.

Ltac dm := repeat match goal with
  | m : mat2 _ |- _ => destruct m as [[? ?] [? ?]]
  | m : mat3 _ |- _ => destruct m as [[? ? ?] [? ? ?] [? ? ?]]
  | m : mat4 _ |- _ => destruct m as [[? ? ? ?] [? ? ? ?] [? ? ? ?] [? ? ? ?]]
  | v : vec2 _ |- _ => destruct v as [? ?]
  | v : vec3 _ |- _ => destruct v as [? ? ?]
  | v : vec4 _ |- _ => destruct v as [? ? ? ?]
  end.

Ltac msplit := repeat match goal with
  | |- M2 _ _ = M2 _ _ => f_equal | |- M3 _ _ _ = M3 _ _ _ => f_equal | |- M4 _ _ _ _ = M4 _ _ _ _ => f_equal
  | |- V2 _ _ = V2 _ _ => f_equal | |- V3 _ _ _ = V3 _ _ _ => f_equal | |- V4 _ _ _ _ = V4 _ _ _ _ => f_equal
  | |- _ /\ _ => split end.

(** *** C38 *)
Lemma simdCol_plain : forall {F} {S : Scalar F} p (m : mat4 F) v, p <> AVX2 -> p <> GEN -> simdCol p m v = mulv4 m v.
Proof. intros F S p m v H1 H2. destruct p; try contradiction; reflexivity. Qed.
Lemma mulv4_col4 : forall {F} {S : Scalar F} (m : mat4 F) v, mulv4 m v = col4 m v.
Proof. reflexivity. Qed.
Lemma simdColR : forall p (m : mat4 R) v, simdCol p m v = mulv4 m v.
Proof. intros p m v. dm. destruct p; mcbn; msplit; ring. Qed.
Theorem mulM_plain : forall {F} {S : Scalar F} p (a b : mat4 F), p <> AVX2 -> mulM p a b = mulm4 a b.
Proof. intros F S p a b H. destruct p; try contradiction; reflexivity. Qed.
Theorem mulV_plain : forall {F} {S : Scalar F} p (a : mat4 F) v, p <> AVX2 -> mulV p a v = mulv4 a v.
Proof. intros F S p a v H. destruct p; try contradiction; reflexivity. Qed.
Theorem mulMR : forall p (a b : mat4 R), mulM p a b = mulm4 a b.
Proof.
  intros p a b. unfold mulM, mulm4. destruct p; rewrite ?simdColR; reflexivity.
Qed.
Theorem mulVR : forall p (a : mat4 R) v, mulV p a v = mulv4 a v.
Proof. intros p a v. unfold mulV. destruct p; rewrite ?simdColR; reflexivity. Qed.
Theorem multiply3x3_block : forall p (a b : mat4 R), to3x3 (multiply3x3 p a b) = mulm3 (to3x3 a) (to3x3 b).
Proof. intros p a b. dm. destruct p; mcbn; msplit; ring. Qed.
Theorem multiply3x3v_block : forall p (a : mat4 R) v, xyz (multiply3x3v p a v) = mulv3 (to3x3 a) (xyz v).
Proof. intros p a v. dm. destruct p; mcbn; msplit; ring. Qed.
Theorem multiply3x3_block_exact : forall {F} {S : Scalar F} p (a b : mat4 F), p <> AVX2 ->
  to3x3 (multiply3x3 p a b) = mulm3 (to3x3 a) (to3x3 b).
Proof. intros F S p a b H. destruct p; try contradiction; reflexivity. Qed.

(** *** C33 *)
Lemma lt4 : forall i, (i < 4)%nat -> i = 0%nat \/ i = 1%nat \/ i = 2%nat \/ i = 3%nat. Proof. lia. Qed.
Lemma lt3 : forall i, (i < 3)%nat -> i = 0%nat \/ i = 1%nat \/ i = 2%nat. Proof. lia. Qed.
Lemma lt2 : forall i, (i < 2)%nat -> i = 0%nat \/ i = 1%nat. Proof. lia. Qed.
Ltac idx := intros; repeat match goal with
  | H : (?i < 4)%nat |- _ => apply lt4 in H; destruct H as [->|[->|[->| ->]]]
  | H : (?i < 3)%nat |- _ => apply lt3 in H; destruct H as [->|[->| ->]]
  | H : (?i < 2)%nat |- _ => apply lt2 in H; destruct H as [->| ->] end.

Theorem mulm4_product : forall p (a b : mat4 R), isProduct 4 (ent4 (mulM p a b)) (ent4 a) (ent4 b).
Proof.
  intros p a b. rewrite mulMR. intros i j Hi Hj. dm. idx; mcbn; ring.
Qed.
Theorem mulm3_product : forall (a b : mat3 R), isProduct 3 (ent3 (mulm3 a b)) (ent3 a) (ent3 b).
Proof. intros a b i j Hi Hj. dm. idx; mcbn; ring. Qed.
Theorem mulm2_product : forall (a b : mat2 R), isProduct 2 (ent2 (mulm2 a b)) (ent2 a) (ent2 b).
Proof. intros a b i j Hi Hj. dm. idx; mcbn; ring. Qed.
Theorem mulv4_action : forall p (a : mat4 R) v, isAction 4 (comp4 (mulV p a v)) (ent4 a) (comp4 v).
Proof. intros p a v. rewrite mulVR. intros i Hi. dm. idx; mcbn; ring. Qed.
Theorem mulv3_action : forall (a : mat3 R) v, isAction 3 (comp3 (mulv3 a v)) (ent3 a) (comp3 v).
Proof. intros a v i Hi. dm. idx; mcbn; ring. Qed.
Theorem mulv2_action : forall (a : mat2 R) v, isAction 2 (comp2 (mulv2 a v)) (ent2 a) (comp2 v).
Proof. intros a v i Hi. dm. idx; mcbn; ring. Qed.

Theorem mulm2_algebra : forall (a b c : mat2 R) v,
  mulm2 (mulm2 a b) c = mulm2 a (mulm2 b c) /\ mulv2 (mulm2 a b) v = mulv2 a (mulv2 b v) /\
  mulm2 identity2 a = a /\ mulm2 a identity2 = a /\ mulv2 identity2 v = v.
Proof.
  intros. dm. mcbn. mlits. msplit; ring.
Qed.
Theorem mulm3_algebra : forall (a b c : mat3 R) v,
  mulm3 (mulm3 a b) c = mulm3 a (mulm3 b c) /\ mulv3 (mulm3 a b) v = mulv3 a (mulv3 b v) /\
  mulm3 identity3 a = a /\ mulm3 a identity3 = a /\ mulv3 identity3 v = v.
Proof.
  intros. dm. mcbn. mlits. msplit; ring.
Qed.
Theorem mulm4_algebra : forall (a b c : mat4 R) v,
  mulm4 (mulm4 a b) c = mulm4 a (mulm4 b c) /\ mulv4 (mulm4 a b) v = mulv4 a (mulv4 b v) /\
  mulm4 identity4 a = a /\ mulm4 a identity4 = a /\ mulv4 identity4 v = v.
Proof.
  intros. dm. mcbn. mlits. msplit; ring.
Qed.
Theorem mulM_algebra : forall p (a b c : mat4 R) v,
  mulM p (mulM p a b) c = mulM p a (mulM p b c) /\ mulV p (mulM p a b) v = mulV p a (mulV p b v) /\
  mulM p identity4 a = a /\ mulM p a identity4 = a /\ mulV p identity4 v = v.
Proof. intros. rewrite !mulMR, !mulVR. apply mulm4_algebra. Qed.

(** *** C34 *)
Theorem transpose4_entries : forall {F} {S : Scalar F} p (m : mat4 F) i j, (i < 4)%nat -> (j < 4)%nat ->
  ent4 (transpose4x4 p m) i j = ent4 m j i /\ ent4 (transposep4 m) i j = ent4 m j i.
Proof. intros F S p m i j Hi Hj. dm. split; destruct p; idx; reflexivity. Qed.
Theorem transpose3_entries : forall {F} {S : Scalar F} p (m : mat4 F) i j, (i < 3)%nat -> (j < 3)%nat ->
  ent4 (transpose3x3 p m) i j = ent4 m j i /\ ent3 (transposep3 (to3x3 m)) i j = ent4 m j i.
Proof. intros F S p m i j Hi Hj. dm. split; destruct p; idx; reflexivity. Qed.
Theorem transpose2_entries : forall {A} (m : mat2 A) i j, (i < 2)%nat -> (j < 2)%nat ->
  ent2 (transposep2 m) i j = ent2 m j i.
Proof. intros A m i j Hi Hj. dm. idx; reflexivity. Qed.
Theorem transpose_involution : forall {F} {S : Scalar F} p (m : mat4 F) (n : mat3 F) (k : mat2 F),
  transpose4x4 p (transpose4x4 p m) = m /\ transposep4 (transposep4 m) = m /\
  transposep3 (transposep3 n) = n /\ transposep2 (transposep2 k) = k /\
  to3x3 (transpose3x3 p (transpose3x3 p m)) = to3x3 m.
Proof. intros F S p m n k. dm. repeat split; destruct p; reflexivity. Qed.
Theorem transpose_product : forall p (a b : mat4 R) (c d : mat3 R) (e f : mat2 R),
  transpose4x4 p (mulM p a b) = mulM p (transpose4x4 p b) (transpose4x4 p a) /\
  transposep3 (mulm3 c d) = mulm3 (transposep3 d) (transposep3 c) /\
  transposep2 (mulm2 e f) = mulm2 (transposep2 f) (transposep2 e).
Proof.
  intros. rewrite !mulMR. dm.
  assert (E : forall m : mat4 R, transpose4x4 p m = transposep4 m) by (intros; dm; destruct p; reflexivity).
  rewrite !E. mcbn.
  msplit; ring.
Qed.

(** *** C36 *)
Ltac inv23 := cbv beta iota zeta delta [inverse2 inverse3 det minor Nat.ltb Nat.leb pow].
Theorem inverse2_transposed : forall m : mat2 R, det 2 (ent2 m) <> 0 ->
  mulm2 (transposep2 (inverse2 m)) m = identity2 /\ mulm2 m (transposep2 (inverse2 m)) = identity2.
Proof.
  intros m H. dm. revert H. inv23. mcbn. intros H. msplit; field; lra.
Qed.
Lemma m2_11 : forall {A} (a b : mat2 A), a = b -> y2 (a1 a) = y2 (a1 b). Proof. congruence. Qed.
Lemma m2_00 : forall {A} (a b : mat2 A), a = b -> x2 (a0 a) = x2 (a0 b). Proof. congruence. Qed.
Lemma m3_22 : forall {A} (a b : mat3 A), a = b -> z3 (b2 a) = z3 (b2 b). Proof. congruence. Qed.
Lemma inverse2_shear : inverse2 (M2 (V2 1 0) (V2 1 1) : mat2 R) = rows2 1 0 (-1) 1.
Proof. inv23. mcbn. msplit; field. Qed.
Theorem inverse2_refuted : exists m : mat2 R, det 2 (ent2 m) <> 0 /\ mulm2 (inverse2 m) m <> identity2 /\
  mulm2 m (inverse2 m) <> identity2.
Proof.
  exists (M2 (V2 1 0) (V2 1 1)). rewrite inverse2_shear. repeat split.
  - inv23. mcbn. lra.
  - intros H. apply m2_11 in H. revert H. mcbn. lra.
  - intros H. apply m2_00 in H. revert H. mcbn. lra.
Qed.
(** even the identity is not inverted: the result is singular *)
Theorem inverse3_identity : inverse3 (identity3 : mat3 R) = rows3 1 0 0 0 1 (-1) 0 0 0.
Proof. inv23. mcbn. msplit; field. Qed.
Theorem inverse3_refuted : exists m : mat3 R, det 3 (ent3 m) <> 0 /\
  mulm3 (inverse3 m) m <> identity3 /\ mulm3 m (inverse3 m) <> identity3 /\
  det 3 (ent3 (inverse3 m)) = 0.
Proof.
  exists identity3. rewrite inverse3_identity. repeat split.
  - inv23. mcbn. lra.
  - intros H. apply m3_22 in H. revert H. mcbn. lra.
  - intros H. apply m3_22 in H. revert H. mcbn. lra.
  - inv23. mcbn. lra.
Qed.

(** *** C37 *)
Theorem vmulm_actual : forall (v : vec2 R) (m : mat2 R) (v' : vec3 R) (m' : mat3 R) (v'' : vec4 R) (m'' : mat4 R),
  (forall i, (i < 2)%nat -> comp2 (vmulm2 v m) i = comp2 v i * sum 2 (fun k => ent2 m i k)) /\
  (forall i, (i < 3)%nat -> comp3 (vmulm3 v' m') i = comp3 v' i * sum 3 (fun k => ent3 m' i k)) /\
  (forall i, (i < 4)%nat -> comp4 (vmulm4 v'' m'') i = comp4 v'' i * sum 4 (fun k => ent4 m'' i k)).
Proof.
  intros. dm. cbv [vmulm2 vmulm3 vmulm4]. repeat split; intros i Hi; idx; mcbn; ring.
Qed.
Lemma vmulm_refuted : exists (v : vec2 R) (m : mat2 R) (v' : vec3 R) (m' : mat3 R) (v'' : vec4 R) (m'' : mat4 R),
  vmulm2 v m <> mulv2 (transposep2 m) v /\ vmulm3 v' m' <> mulv3 (transposep3 m') v' /\
  vmulm4 v'' m'' <> mulv4 (transposep4 m'') v''.
Proof.
  exists (V2 1 0), (M2 (V2 0 0) (V2 1 0)), (V3 1 0 0), (M3 (V3 0 0 0) (V3 1 0 0) (V3 0 0 0)),
    (V4 1 0 0 0), (M4 (V4 0 0 0 0) (V4 1 0 0 0) (V4 0 0 0 0) (V4 0 0 0 0)).
  repeat split; intros H; [apply (f_equal (@x2 R)) in H|apply (f_equal (@x3 R)) in H|apply (f_equal (@vx R)) in H];
    revert H; cbv [vmulm2 vmulm3 vmulm4]; mcbn; lra.
Qed.
(** the fourth column of the 3x3 product depends on the path *)
Lemma multiply3x3_column3 : exists a b : mat4 R, multiply3x3 SSE41 a b <> multiply3x3 GEN a b.
Proof.
  exists identity4, (M4 (V4 1 0 0 0) (V4 0 1 0 0) (V4 0 0 1 0) (V4 5 0 0 1)). intros H.
  apply (f_equal (fun m => vx (c3 m))) in H. revert H. cbv [of3x3]. mcbn. lra.
Qed.
