(** Equality operators. *)
From Coq Require Import ZArith Bool List Reals Lra Lia.
From Flocq Require Import Core.Core IEEE754.BinarySingleNaN IEEE754.Binary IEEE754.Bits.
From Verif.Model Require Import Outcome Scalar Vec Simd Aabb Matrix Geometry IntVec Shapes.
From Verif.Spec Require Import GeomSpec MatSpec IntSpec OrderSpec ShapeSpec.
From Verif.Proofs Require Import OrdScalar IntArith IntProofs IntOrder AabbWitness.
Import ListNotations.
Local Open Scope Z_scope.

Lemma nan_eq : forall a b : f32, is_nan 24 128 a = true \/ is_nan 24 128 b = true -> seq a b = false.
Proof.
  intros [s|s|s pl H|s m e H] [s'|s'|s' pl' H'|s' m' e' H'] [E|E]; try discriminate E; cbn [seq ScalarF32]; unfold b32_cmp_is; try reflexivity; destruct s, s'; reflexivity.
Qed.
Lemma same_number : forall a b : f32, seq a b = true <-> sameNumber a b.
Proof.
  intros a b. unfold sameNumber. split.
  - intros E. assert (A : num a). { cbn. destruct (is_nan 24 128 a) eqn:N; [rewrite nan_eq in E by auto; discriminate|reflexivity]. }
    assert (B : num b). { cbn. destruct (is_nan 24 128 b) eqn:N; [rewrite nan_eq in E by auto; discriminate|reflexivity]. }
    split; [exact A|]. split; [exact B|]. apply seq_iff; assumption.
  - intros (A & B & E). apply seq_iff; assumption.
Qed.

Lemma eq4_paths : forall p (a b : vec4 f32),
  f32x4Eq p a b = (seq (vx a) (vx b) && seq (vy a) (vy b) && seq (vz a) (vz b) && seq (vw a) (vw b))%bool /\
  f32x4Ne p a b = negb (seq (vx a) (vx b) && seq (vy a) (vy b) && seq (vz a) (vz b) && seq (vw a) (vw b)).
Proof.
  intros p a b. unfold f32x4Eq, f32x4Ne, veq, map2_4.
  destruct (reduce4_mask p (seq (vx a) (vx b)) (seq (vy a) (vy b)) (seq (vz a) (vz b)) (seq (vw a) (vw b))) as (_ & _ & _ & _ & G).
  rewrite G.
  destruct p; destruct (seq (vx a) (vx b)), (seq (vy a) (vy b)), (seq (vz a) (vz b)), (seq (vw a) (vw b)); split; reflexivity.
Qed.
Lemma f32x4_equality : forall p (a b : vec4 f32),
  (f32x4Eq p a b = true <-> sameNumber (vx a) (vx b) /\ sameNumber (vy a) (vy b) /\ sameNumber (vz a) (vz b) /\ sameNumber (vw a) (vw b)) /\
  f32x4Ne p a b = negb (f32x4Eq p a b).
Proof.
  intros p a b. destruct (eq4_paths p a b) as (E & N). rewrite N, E. split; [|reflexivity].
  rewrite !andb_true_iff, !same_number. tauto.
Qed.
Definition and4 (e : f32 -> f32 -> bool) (g : vec4 f32 -> f32) (a b : mat4 f32) : bool :=
  e (g (c0 a)) (g (c0 b)) && e (g (c1 a)) (g (c1 b)) && e (g (c2 a)) (g (c2 b)) && e (g (c3 a)) (g (c3 b)).
Lemma land4 : forall x y z w, Z.land (Z.land (Z.land (maskOf x) (maskOf y)) (maskOf z)) (maskOf w) = maskOf (x && y && z && w).
Proof. intros [] [] [] []; reflexivity. Qed.
Lemma lor4 : forall x y z w, Z.lor (Z.lor (Z.lor (maskOf (negb x)) (maskOf (negb y))) (maskOf (negb z))) (maskOf (negb w)) = maskOf (negb (x && y && z && w)).
Proof. intros [] [] [] []; reflexivity. Qed.
Lemma and4_iff : forall g a b, and4 (fun x y => seq x y) g a b = true <->
  sameNumber (g (c0 a)) (g (c0 b)) /\ sameNumber (g (c1 a)) (g (c1 b)) /\ sameNumber (g (c2 a)) (g (c2 b)) /\ sameNumber (g (c3 a)) (g (c3 b)).
Proof. intros g a b. unfold and4. rewrite !andb_true_iff, !same_number. tauto. Qed.
Lemma matrix_equality : forall p (a b : mat4 f32),
  (f32x4x4Eq p a b = true <-> forall i j, (i < 4)%nat -> (j < 4)%nat -> sameNumber (ent4 a i j) (ent4 b i j)) /\
  f32x4x4Ne p a b = negb (f32x4x4Eq p a b).
Proof.
  intros p a b. unfold f32x4x4Eq, f32x4x4Ne, uand, uor, veq, vne, map2_4. cbn [vx vy vz vw]. rewrite !land4, !lor4.
  change (seq (vx (c0 a)) (vx (c0 b)) && seq (vx (c1 a)) (vx (c1 b)) && seq (vx (c2 a)) (vx (c2 b)) && seq (vx (c3 a)) (vx (c3 b)))%bool
    with (and4 (fun x y => seq x y) (@vx f32) a b).
  change (seq (vy (c0 a)) (vy (c0 b)) && seq (vy (c1 a)) (vy (c1 b)) && seq (vy (c2 a)) (vy (c2 b)) && seq (vy (c3 a)) (vy (c3 b)))%bool
    with (and4 (fun x y => seq x y) (@vy f32) a b).
  change (seq (vz (c0 a)) (vz (c0 b)) && seq (vz (c1 a)) (vz (c1 b)) && seq (vz (c2 a)) (vz (c2 b)) && seq (vz (c3 a)) (vz (c3 b)))%bool
    with (and4 (fun x y => seq x y) (@vz f32) a b).
  change (seq (vw (c0 a)) (vw (c0 b)) && seq (vw (c1 a)) (vw (c1 b)) && seq (vw (c2 a)) (vw (c2 b)) && seq (vw (c3 a)) (vw (c3 b)))%bool
    with (and4 (fun x y => seq x y) (@vw f32) a b).
  pose proof (and4_iff (@vx f32) a b) as X. pose proof (and4_iff (@vy f32) a b) as Y.
  pose proof (and4_iff (@vz f32) a b) as Z. pose proof (and4_iff (@vw f32) a b) as W.
  destruct (reduce4_mask p (and4 (fun x y => seq x y) (@vx f32) a b) (and4 (fun x y => seq x y) (@vy f32) a b)
    (and4 (fun x y => seq x y) (@vz f32) a b) (and4 (fun x y => seq x y) (@vw f32) a b)) as (A & _).
  destruct (reduce4_mask p (negb (and4 (fun x y => seq x y) (@vx f32) a b)) (negb (and4 (fun x y => seq x y) (@vy f32) a b))
    (negb (and4 (fun x y => seq x y) (@vz f32) a b)) (negb (and4 (fun x y => seq x y) (@vw f32) a b))) as (_ & O & _).
  rewrite A, O. clear A O. revert X Y Z W.
  generalize (and4 (fun x y => seq x y) (@vx f32) a b), (and4 (fun x y => seq x y) (@vy f32) a b),
    (and4 (fun x y => seq x y) (@vz f32) a b), (and4 (fun x y => seq x y) (@vw f32) a b).
  intros x y z w X Y Z W. split; [|destruct x, y, z, w; reflexivity].
  rewrite !andb_true_iff, X, Y, Z, W. clear X Y Z W x y z w. split.
  - intros H [|[|[|[|i]]]] [|[|[|[|j]]]] I J; try lia; cbn [ent4]; tauto.
  - intros H. Opaque sameNumber. repeat split;
      first [apply (H 0 0)%nat; lia|apply (H 1 0)%nat; lia|apply (H 2 0)%nat; lia|apply (H 3 0)%nat; lia
            |apply (H 0 1)%nat; lia|apply (H 1 1)%nat; lia|apply (H 2 1)%nat; lia|apply (H 3 1)%nat; lia
            |apply (H 0 2)%nat; lia|apply (H 1 2)%nat; lia|apply (H 2 2)%nat; lia|apply (H 3 2)%nat; lia
            |apply (H 0 3)%nat; lia|apply (H 1 3)%nat; lia|apply (H 2 3)%nat; lia|apply (H 3 3)%nat; lia].
Qed.
Transparent sameNumber.

(** ** memcmp *)
Lemma memcmpEq_iff : forall a b, memcmpEq a b = true <-> a = b.
Proof.
  intros a. induction a as [|x a IH]; intros [|y b]; unfold memcmpEq in *; cbn [combine forallb length Nat.eqb]; try (split; intro; discriminate).
  - split; reflexivity.
  - split.
    + rewrite !andb_true_iff. intros ((E & A) & L). apply Z.eqb_eq in E. subst y. f_equal. apply IH. rewrite A, L. reflexivity.
    + intros E. injection E as -> E. apply IH in E. rewrite andb_true_iff in E. destruct E as (E1 & E2). rewrite E1, E2, Z.eqb_refl. reflexivity.
Qed.
Lemma mem4_app : forall (u v : vec4 Z) l m, mem4 u ++ l = mem4 v ++ m -> mem4 u = mem4 v /\ l = m.
Proof.
  intros u v l m H. unfold mem4 in *. rewrite <- !app_assoc in H.
  apply app_inj4 in H. destruct H as (H0 & H). apply app_inj4 in H. destruct H as (H1 & H).
  apply app_inj4 in H. destruct H as (H2 & H). apply app_inj4 in H. destruct H as (H3 & H).
  split; [congruence|exact H].
Qed.
Lemma bytes4_app : forall (u v : vec4 f32) l m, bytes4 u ++ l = bytes4 v ++ m -> bytes4 u = bytes4 v /\ l = m.
Proof. intros u v l m. apply mem4_app. Qed.
Lemma mem4_inj : forall (u v : vec4 Z), Forall u32 (lanes4 u) -> Forall u32 (lanes4 v) -> mem4 u = mem4 v -> u = v.
Proof.
  intros [ux uy uz uw] [vx_ vy_ vz_ vw_] Hu Hv H. unfold lanes4 in *. cbn in Hu, Hv.
  repeat match goal with H : Forall _ (_ :: _) |- _ => inversion H; clear H; subst end.
  unfold mem4 in H. cbn [vx vy vz vw] in H.
  apply app_inj4 in H. destruct H as (G0 & H). apply app_inj4 in H. destruct H as (G1 & H).
  apply app_inj4 in H. destruct H as (G2 & G3).
  apply bytes32_inj in G0. apply bytes32_inj in G1. apply bytes32_inj in G2. apply bytes32_inj in G3.
  f_equal; apply toU32_inj_u32; assumption.
Qed.
Lemma bytes4_inj : forall u v : vec4 f32, bytes4 u = bytes4 v -> u = v.
Proof.
  intros [ux uy uz uw] [vx_ vy_ vz_ vw_] H. apply mem4_inj in H.
  - unfold map_4 in H. cbn [vx vy vz vw] in H. injection H as H0 H1 H2 H3. f_equal; apply bits_inj; assumption.
  - repeat constructor; apply bits_range.
  - repeat constructor; apply bits_range.
Qed.
Ltac memeq := rewrite memcmpEq_iff; split; [|intros ->; reflexivity].
Lemma shape_equality :
  (forall a b, planeEq a b = true <-> a = b) /\ (forall a b, lineEq a b = true <-> a = b) /\
  (forall a b, aabbEq a b = true <-> a = b) /\ (forall a b, triEq a b = true <-> a = b) /\
  (forall a b, float4x4Eq a b = true <-> a = b) /\
  (forall a b, Forall u32 (lanes4 (rparallel a)) -> Forall u32 (lanes4 (rparallel b)) -> (rayEq a b = true <-> a = b)).
Proof.
  split; [|split; [|split; [|split; [|split]]]].
  - intros a b. unfold planeEq. memeq. apply bytes4_inj.
  - intros [a0 a1] [b0 b1]. unfold lineEq. memeq. cbn [lstart lend]. intros H. apply bytes4_app in H. destruct H as (H0 & H1).
    apply bytes4_inj in H0. apply bytes4_inj in H1. congruence.
  - intros [a0 a1] [b0 b1]. unfold aabbEq. memeq. cbn [bmin bmax]. intros H. apply bytes4_app in H. destruct H as (H0 & H1).
    apply bytes4_inj in H0. apply bytes4_inj in H1. congruence.
  - intros [a0 a1 a2] [b0 b1 b2]. unfold triEq. memeq. cbn [t0 t1 t2]. intros H. apply bytes4_app in H. destruct H as (H0 & H).
    apply bytes4_app in H. destruct H as (H1 & H2). apply bytes4_inj in H0. apply bytes4_inj in H1. apply bytes4_inj in H2. congruence.
  - intros [a0 a1 a2 a3] [b0 b1 b2 b3]. unfold float4x4Eq. memeq. cbn [c0 c1 c2 c3]. intros H. apply bytes4_app in H. destruct H as (H0 & H).
    apply bytes4_app in H. destruct H as (H1 & H). apply bytes4_app in H. destruct H as (H2 & H3).
    apply bytes4_inj in H0. apply bytes4_inj in H1. apply bytes4_inj in H2. apply bytes4_inj in H3. congruence.
  - intros [a0 a1 a2] [b0 b1 b2] A B. unfold rayEq. memeq. cbn [rdir rparallel rorigin] in *. intros H. apply bytes4_app in H. destruct H as (H0 & H).
    apply mem4_app in H. destruct H as (H1 & H2). apply bytes4_inj in H0. apply mem4_inj in H1; try assumption. apply bytes4_inj in H2. congruence.
Qed.

Lemma same_number_eqv : forall a b : vec4 f32, eqv a b = true ->
  sameNumber (vx a) (vx b) /\ sameNumber (vy a) (vy b) /\ sameNumber (vz a) (vz b) /\ sameNumber (vw a) (vw b).
Proof. intros a b H. unfold eqv, AabbWitness.lanes in H. cbn [combine forallb] in H. rewrite !andb_true_iff, !same_number in H. tauto. Qed.
(** equal numbers, different results: +0 and -0 *)
Lemma shape_equality_refuted : exists a b : vec4 f32,
  (sameNumber (vx a) (vx b) /\ sameNumber (vy a) (vy b) /\ sameNumber (vz a) (vz b) /\ sameNumber (vw a) (vw b)) /\
  (forall p, f32x4Eq p a b = true) /\
  planeEq a b = false /\ lineEq (mkLine a a) (mkLine b b) = false /\ aabbEq (mkAabb a a) (mkAabb b b) = false /\
  triEq (mkTriangle a a a) (mkTriangle b b b) = false /\ float4x4Eq (M4 a a a a) (M4 b b b b) = false.
Proof.
  exists (V4 f0 f0 f0 f0), (V4 (- f0)%sc f0 f0 f0).
  split; [apply same_number_eqv; vm_compute; reflexivity|].
  split; [intros []; vm_compute; reflexivity|]. repeat split; vm_compute; reflexivity.
Qed.
(** a value that is not a number equals itself under memcmp *)
Lemma nan_equality : forall a : vec4 f32, is_nan 24 128 (vx a) = true -> planeEq a a = true /\ forall p, f32x4Eq p a a = false.
Proof.
  intros a N. split; [apply shape_equality; reflexivity|]. intros p. destruct (eq4_paths p a a) as (-> & _).
  rewrite nan_eq by auto. reflexivity.
Qed.
(** the unused fourth lane takes part *)
Lemma padding_equality : exists a b : aabb f32,
  (vx (bmin a) = vx (bmin b) /\ vy (bmin a) = vy (bmin b) /\ vz (bmin a) = vz (bmin b) /\
   vx (bmax a) = vx (bmax b) /\ vy (bmax a) = vy (bmax b) /\ vz (bmax a) = vz (bmax b)) /\ aabbEq a b = false.
Proof.
  exists (mkAabb (V4 f0 f0 f0 f0) (V4 f1 f1 f1 f0)), (mkAabb (V4 f0 f0 f0 f1) (V4 f1 f1 f1 f1)).
  split; [repeat split|vm_compute; reflexivity].
Qed.
(** two rays with the same origin and direction *)
Lemma ray_equality_refuted : exists o d : vec4 f32,
  let a := newRay SSE2 o d false in let b := setDirection SSE2 (newRay SSE2 o d false) d false in
  rdir a = rdir b /\ rorigin a = rorigin b /\ rayEq a b = false.
Proof. exists (V4 f0 f0 f0 f0), (V4 f1 f0 f0 f0). repeat split; vm_compute; reflexivity. Qed.
