(** The assertions of Aabb accept exactly proper boxes, and proper calls keep a box proper. *)
From Coq Require Import ZArith Bool List Lia Reals Lra.
From Flocq Require Import Core.Core IEEE754.BinarySingleNaN IEEE754.Binary IEEE754.Bits.
From Verif.Model Require Import Outcome Scalar Vec Simd Aabb FloatVec Guards.
From Verif.Spec Require Import GeomSpec BvhGeomSpec GuardSpec.
From Verif.Proofs Require Import OrdScalar F32Round F32Err NumericProofs AabbWitness.
Import ListNotations.
Local Open Scope R_scope.

(** *** the assertions *)
Lemma sle_interval : forall a b : f32, sle a b = true <-> interval a b.
Proof.
  intros a b. unfold interval.
  destruct (is_nan 24 128 a) eqn:Na.
  { split; [|intros (H & _); cbn in H; congruence].
    destruct a; try discriminate; destruct b; discriminate. }
  destruct (is_nan 24 128 b) eqn:Nb.
  { split; [|intros (_ & H & _); cbn in H; congruence].
    destruct b; try discriminate; destruct a; discriminate. }
  rewrite sle_iff by assumption. tauto.
Qed.
Lemma cornersOk_iff : forall p (mn mx : vec4 f32), cornersOk p mn mx = true <-> properBox (mkAabb mn mx).
Proof.
  intros p mn mx. unfold cornersOk, vle, map2_4, withW. cbn [vx vy vz vw]. rewrite areAllTrue_masks.
  replace (sle (f0 : f32) f1) with true by reflexivity.
  rewrite !andb_true_iff, !sle_interval. unfold properBox. cbn [bmin bmax]. tauto.
Qed.
Lemma interval_zero : forall x : f32, interval f0 x <-> nonNegative x.
Proof.
  intros x. unfold interval, nonNegative. change (ext (f0 : f32)) with 0. assert (num (f0 : f32)) by reflexivity. tauto.
Qed.
Lemma sizeOk_iff : forall p (v : vec4 f32), sizeOk p v = true <-> properSize v.
Proof.
  intros p v. unfold sizeOk, vge, map2_4, withW, dup4, sge. cbn [vx vy vz vw]. rewrite areAllTrue_masks.
  replace (sle (f0 : f32) f1) with true by reflexivity.
  rewrite !andb_true_iff, !sle_interval, !interval_zero. unfold properSize. tauto.
Qed.
Lemma checked_iff : forall A c (P : Prop) (r : A), (c = true <-> P) ->
  (P -> checked true c r = Ok r) /\ (~ P -> checked true c r = Abort) /\ checked false c r = Ok r.
Proof.
  intros A [] P r H; cbn; (split; [|split]); intros; try reflexivity; exfalso; [tauto|].
  destruct H as [_ H]. specialize (H H0). discriminate.
Qed.
Theorem constructor_exact : forall p (mn mx : vec4 f32),
  (properBox (mkAabb mn mx) -> newBox true p mn mx = Ok (mkAabb mn mx)) /\
  (~ properBox (mkAabb mn mx) -> newBox true p mn mx = Abort) /\
  newBox false p mn mx = Ok (mkAabb mn mx).
Proof. intros. apply checked_iff, cornersOk_iff. Qed.
Theorem setters_exact : forall p (b : aabb f32) mn mx,
  ((properBox (mkAabb mn (bmax b)) -> setMinC true p b mn = Ok (mkAabb mn (bmax b))) /\
   (~ properBox (mkAabb mn (bmax b)) -> setMinC true p b mn = Abort) /\
   setMinC false p b mn = Ok (mkAabb mn (bmax b))) /\
  ((properBox (mkAabb (bmin b) mx) -> setMaxC true p b mx = Ok (mkAabb (bmin b) mx)) /\
   (~ properBox (mkAabb (bmin b) mx) -> setMaxC true p b mx = Abort) /\
   setMaxC false p b mx = Ok (mkAabb (bmin b) mx)) /\
  ((properBox (mkAabb mn mx) -> setC true p b mn mx = Ok (mkAabb mn mx)) /\
   (~ properBox (mkAabb mn mx) -> setC true p b mn mx = Abort) /\
   setC false p b mn mx = Ok (mkAabb mn mx)).
Proof. intros. split; [|split]; apply checked_iff, cornersOk_iff. Qed.

(** *** intervals under arithmetic *)
Lemma num_cases : forall x : f32, num x ->
  x = B754_infinity 24 128 true \/ x = B754_infinity 24 128 false \/ fin x.
Proof.
  intros [s|[]|s pl H|s m e H] N; cbn in N; try discriminate; auto.
Qed.
Lemma ext_ninf_val : ext (B754_infinity 24 128 true : f32) = - maxF.
Proof. reflexivity. Qed.
Lemma ext_pinf_val : ext (B754_infinity 24 128 false : f32) = maxF.
Proof. reflexivity. Qed.

Lemma interval_map : forall (f : f32 -> f32) (g : R -> R),
  f (B754_infinity 24 128 true) = B754_infinity 24 128 true ->
  f (B754_infinity 24 128 false) = B754_infinity 24 128 false ->
  (forall a, fin a -> num (f a) /\ ext (f a) = RX (g (val a))) ->
  (forall a b, a <= b -> g a <= g b) ->
  forall lo hi, interval lo hi -> interval (f lo) (f hi).
Proof.
  intros f g Fn Fp Ff Gm lo hi (Nl & Nh & H).
  assert (NN : forall x, num x -> num (f x)).
  { intros x N. destruct (num_cases x N) as [->|[->|X]]; [rewrite Fn; reflexivity|rewrite Fp; reflexivity|apply Ff, X]. }
  split; [auto|]. split; [auto|].
  pose proof maxF_pos as MP.
  destruct (num_cases lo Nl) as [->|[->|Fl]].
  - rewrite Fn, ext_ninf_val. apply num_ext_bound; auto.
  - rewrite ext_pinf_val in H. pose proof (num_ext_bound hi Nh).
    assert (E : ext hi = maxF) by lra. apply ext_pinf in E; [|exact Nh]. subst hi. apply Rle_refl.
  - destruct (num_cases hi Nh) as [->|[->|Fh]].
    + rewrite ext_ninf_val, fin_ext in H by exact Fl. pose proof (B2R_bound lo). lra.
    + rewrite Fp, ext_pinf_val. apply num_ext_bound; auto.
    + rewrite (proj2 (Ff lo Fl)), (proj2 (Ff hi Fh)). apply RX_le, Gm.
      rewrite !fin_ext in H by assumption. exact H.
Qed.

Lemma pos_cases : forall s : f32, positive s -> exists m e H, s = B754_finite 24 128 false m e H.
Proof.
  intros s (F & P). destruct s as [[]|s|s pl H|[] m e H]; cbn in F; try discriminate; eauto.
  1, 2: cbn in P; lra.
  exfalso. change (0 < F2R (Float radix2 (Zneg m) e)) in P. pose proof (F2R_lt_0 radix2 (Float radix2 (Zneg m) e) eq_refl). lra.
Qed.
Lemma interval_mul : forall s lo hi : f32, positive s -> interval lo hi -> interval (lo * s)%sc (hi * s)%sc.
Proof.
  intros s lo hi Ps. apply (interval_map (fun x => (x * s)%sc) (fun r => r * val s)).
  - destruct (pos_cases s Ps) as (m & e & H & ->). reflexivity.
  - destruct (pos_cases s Ps) as (m & e & H & ->). reflexivity.
  - intros a Fa. apply mul_fin; [exact Fa|apply Ps].
  - intros a b H. apply Rmult_le_compat_r; [apply Rlt_le, Ps|exact H].
Qed.
Lemma interval_div : forall s lo hi : f32, positive s -> interval lo hi -> interval (lo / s)%sc (hi / s)%sc.
Proof.
  intros s lo hi Ps. assert (P := proj2 Ps).
  apply (interval_map (fun x => (x / s)%sc) (fun r => r / val s)).
  - destruct (pos_cases s Ps) as (m & e & H & ->). reflexivity.
  - destruct (pos_cases s Ps) as (m & e & H & ->). reflexivity.
  - intros a Fa. apply div_fin; [exact Fa|apply Ps|lra].
  - intros a b H. apply Rmult_le_compat_r; [apply Rlt_le, Rinv_0_lt_compat, P|exact H].
Qed.
Lemma interval_add : forall t lo hi : f32, fin t -> interval lo hi -> interval (lo + t)%sc (hi + t)%sc.
Proof.
  intros t lo hi Ft. apply (interval_map (fun x => (x + t)%sc) (fun r => r + val t)).
  - destruct t; try discriminate; reflexivity.
  - destruct t; try discriminate; reflexivity.
  - intros a Fa. apply add_fin; assumption.
  - intros a b H. lra.
Qed.
Lemma interval_sub : forall t lo hi : f32, fin t -> interval lo hi -> interval (lo - t)%sc (hi - t)%sc.
Proof.
  intros t lo hi Ft. apply (interval_map (fun x => (x - t)%sc) (fun r => r - val t)).
  - destruct t; try discriminate; reflexivity.
  - destruct t; try discriminate; reflexivity.
  - intros a Fa. apply sub_fin; assumption.
  - intros a b H. lra.
Qed.
Lemma interval_around : forall q e : f32, fin q -> nonNegative e -> interval (q - e)%sc (q + e)%sc.
Proof.
  intros q e Fq (Ne & He). destruct (num_cases e Ne) as [->|[->|Fe]].
  - rewrite ext_ninf_val in He. pose proof maxF_pos. lra.
  - pose proof maxF_pos. destruct q; try discriminate; (split; [reflexivity|split; [reflexivity|]]); cbn; lra.
  - destruct (sub_fin q e Fq Fe) as [N1 E1]. destruct (add_fin q e Fq Fe) as [N2 E2].
    split; [exact N1|]. split; [exact N2|]. rewrite E1, E2. apply RX_le. rewrite fin_ext in He by exact Fe. lra.
Qed.
Lemma interval_sym : forall e : f32, nonNegative e -> interval (- e)%sc e.
Proof.
  intros e (Ne & He). destruct (num_cases e Ne) as [->|[->|Fe]].
  - rewrite ext_ninf_val in He. pose proof maxF_pos. lra.
  - pose proof maxF_pos. split; [reflexivity|split; [reflexivity|]]. cbn. lra.
  - destruct (neg_fin e Fe) as [Fn Vn]. split; [apply fin_num, Fn|]. split; [exact Ne|].
    rewrite !fin_ext in * by assumption. rewrite Vn. lra.
Qed.
Lemma nonNegative_half : forall s : f32, nonNegative s -> nonNegative (s * fhalf)%sc.
Proof.
  intros s (N & H). destruct (num_cases s N) as [->|[->|Fs]].
  - rewrite ext_ninf_val in H. pose proof maxF_pos. lra.
  - split; [reflexivity|]. replace ((B754_infinity 24 128 false : f32) * fhalf)%sc with (B754_infinity 24 128 false : f32) by reflexivity.
    exact H.
  - destruct half_val as [Fh Vh]. destruct (mul_fin s fhalf Fs Fh) as [N' E']. split; [exact N'|]. rewrite E', Vh.
    apply RX_nonneg. rewrite fin_ext in H by exact Fs. lra.
Qed.

(** *** boxes *)
Lemma size_box : forall size q : vec4 f32, properSize size -> finite3 q ->
  properBox (setSize1 size) /\ properBox (setSize size q) /\ properBox (setExtent1 size) /\ properBox (setExtent size q).
Proof.
  intros size q (S1 & S2 & S3) (Q1 & Q2 & Q3).
  unfold properBox, setSize1, setSize, setExtent1, setExtent, vscale, vmul, vneg, vsub, vadd, dup4, map2_4, map_4.
  cbn [bmin bmax vx vy vz vw].
  repeat match goal with |- _ /\ _ => split end;
    first [apply interval_sym | apply interval_around]; try assumption; apply nonNegative_half; assumption.
Qed.
Lemma size_box1 : forall size : vec4 f32, properSize size -> properBox (setSize1 size) /\ properBox (setExtent1 size).
Proof.
  intros size H. destruct (size_box size (V4 f0 f0 f0 f0) H) as (A & _ & B & _); [repeat split|]. split; assumption.
Qed.
Theorem sized_exact : forall p (size q : vec4 f32),
  (properSize size ->
   setSize1C true p size = Ok (setSize1 size) /\ setExtent1C true p size = Ok (setExtent1 size) /\
   setSizeC true p size q = Ok (setSize size q) /\ setExtentC true p size q = Ok (setExtent size q) /\
   properBox (setSize1 size) /\ properBox (setExtent1 size) /\
   (finite3 q -> properBox (setSize size q) /\ properBox (setExtent size q))) /\
  (~ properSize size ->
   setSize1C true p size = Abort /\ setExtent1C true p size = Abort /\
   setSizeC true p size q = Abort /\ setExtentC true p size q = Abort).
Proof.
  intros p size q.
  assert (C := fun r : aabb f32 => checked_iff _ _ _ r (sizeOk_iff p size)).
  split; intros H.
  - destruct (size_box1 size H) as [B1 B2].
    split; [apply C, H|]. split; [apply C, H|]. split; [apply C, H|]. split; [apply C, H|].
    split; [exact B1|]. split; [exact B2|]. intros Q. destruct (size_box size q H Q) as (_ & X & _ & Y). split; assumption.
  - split; [apply C, H|]. split; [apply C, H|]. split; [apply C, H|]. apply C, H.
Qed.

Lemma scaled_box : forall (b : aabb f32) v, properBox b -> properFactor v ->
  properBox (mkAabb (vmul (bmin b) v) (vmul (bmax b) v)) /\ properBox (mkAabb (vdiv (bmin b) v) (vdiv (bmax b) v)).
Proof.
  intros b v (B1 & B2 & B3) (V1 & V2 & V3). unfold properBox, vmul, vdiv, map2_4. cbn [bmin bmax vx vy vz vw].
  split; (split; [|split]); first [apply interval_mul|apply interval_div]; assumption.
Qed.
Lemma moved_box : forall (b : aabb f32) v, properBox b -> finite3 v ->
  properBox (mkAabb (vadd (bmin b) v) (vadd (bmax b) v)) /\ properBox (mkAabb (vsub (bmin b) v) (vsub (bmax b) v)).
Proof.
  intros b v (B1 & B2 & B3) (V1 & V2 & V3). unfold properBox, vadd, vsub, map2_4. cbn [bmin bmax vx vy vz vw].
  split; (split; [|split]); first [apply interval_add|apply interval_sub]; assumption.
Qed.
Lemma interval_extend : forall p (lo hi a b : f32), interval lo hi -> num a -> num b ->
  interval (simdmin p lo a) (simdmax p hi b).
Proof.
  intros p lo hi a b (N1 & N2 & H) Na Nb.
  split; [apply simdmin_num; assumption|]. split; [apply simdmax_num; assumption|].
  rewrite simdmin_ext, simdmax_ext by assumption.
  eapply Rle_trans; [apply Rmin_l|]. eapply Rle_trans; [exact H|apply Rmax_l].
Qed.
Lemma extended_box : forall p (b o : aabb f32), properBox b -> num3 (bmin o) -> num3 (bmax o) -> properBox (extendBox p b o).
Proof.
  intros p b o (B1 & B2 & B3) (M1 & M2 & M3) (X1 & X2 & X3). unfold properBox, extendBox, vmin, vmax, map2_4.
  cbn [bmin bmax vx vy vz vw]. split; [|split]; apply interval_extend; assumption.
Qed.

Theorem call_keeps : forall p (b b' : aabb f32) c, properBox b -> properCall c ->
  runCall true p b c = Ok b' -> properBox b'.
Proof.
  intros p b b' c B P H.
  assert (G : forall cond (r : aabb f32) (Q : Prop), (cond = true <-> Q) -> checked true cond r = Ok b' -> Q /\ r = b').
  { intros [] r Q I E; cbn in E; inversion E. split; [apply I; reflexivity|reflexivity]. }
  destruct c; cbn [runCall] in H; cbn [properCall] in P.
  - apply (G _ _ _ (cornersOk_iff p _ _)) in H. destruct H as [H <-]. exact H.
  - apply (G _ _ _ (cornersOk_iff p _ _)) in H. destruct H as [H <-]. exact H.
  - apply (G _ _ _ (cornersOk_iff p _ _)) in H. destruct H as [H <-]. exact H.
  - apply (G _ _ _ (sizeOk_iff p _)) in H. destruct H as [H <-]. exact (proj1 (size_box1 _ H)).
  - apply (G _ _ _ (sizeOk_iff p _)) in H. destruct H as [H <-]. exact (proj1 (proj2 (size_box _ _ H P))).
  - apply (G _ _ _ (sizeOk_iff p _)) in H. destruct H as [H <-]. exact (proj2 (size_box1 _ H)).
  - apply (G _ _ _ (sizeOk_iff p _)) in H. destruct H as [H <-]. exact (proj2 (proj2 (proj2 (size_box _ _ H P)))).
  - injection H as <-. apply (extended_box p b (mkAabb point point)); assumption.
  - injection H as <-. apply extended_box; [exact B|apply P|apply P].
  - apply (G _ _ _ (cornersOk_iff p _ _)) in H. destruct H as [H <-]. exact H.
  - apply (G _ _ _ (cornersOk_iff p _ _)) in H. destruct H as [H <-]. exact H.
  - apply (G _ _ _ (cornersOk_iff p _ _)) in H. destruct H as [H <-]. exact H.
  - apply (G _ _ _ (cornersOk_iff p _ _)) in H. destruct H as [H <-]. exact H.
  - injection H as <-. exact (proj1 (scaled_box b v B P)).
  - injection H as <-. exact (proj2 (scaled_box b v B P)).
  - injection H as <-. exact (proj1 (moved_box b v B P)).
  - injection H as <-. exact (proj2 (moved_box b v B P)).
Qed.
Theorem history_keeps : forall p l (b b' : aabb f32), properBox b -> Forall properCall l ->
  runCalls true p b l = Ok b' -> properBox b'.
Proof.
  intros p l. induction l as [|c l IH]; cbn [runCalls]; intros b b' B P H.
  - injection H as <-. exact B.
  - apply bind_Ok in H. destruct H as (b1 & H1 & H2). inversion P; subst.
    apply (IH b1 b'); [|assumption|exact H2]. eapply call_keeps; eassumption.
Qed.
Theorem call_runs : forall p (b : aabb f32) c, properBox b -> properCall c -> isSetter c = false ->
  exists b', runCall true p b c = Ok b' /\ runCall false p b c = Ok b'.
Proof.
  intros p b c B P S.
  destruct c; try discriminate; cbn [runCall]; cbn [properCall] in P;
    try (eexists; split; reflexivity).
  - exists (scaleBox b v). split; [|reflexivity]. apply constructor_exact. exact (proj1 (scaled_box b v B P)).
  - exists (divBox b v). split; [|reflexivity]. apply constructor_exact. exact (proj2 (scaled_box b v B P)).
  - exists (translateBox b v). split; [|reflexivity]. apply constructor_exact. exact (proj1 (moved_box b v B P)).
  - exists (subBox b v). split; [|reflexivity]. apply constructor_exact. exact (proj2 (moved_box b v B P)).
Qed.
Theorem operators_agree : forall p (b : aabb f32) v w, properBox b -> properFactor v -> finite3 w ->
  (mulBoxC true p b v = Ok (scaleBox b v) /\ runCall true p b (MulBy v) = Ok (scaleBox b v)) /\
  (divBoxC true p b v = Ok (divBox b v) /\ runCall true p b (DivBy v) = Ok (divBox b v)) /\
  (addBoxC true p b w = Ok (translateBox b w) /\ runCall true p b (AddBy w) = Ok (translateBox b w)) /\
  (subBoxC true p b w = Ok (subBox b w) /\ runCall true p b (SubBy w) = Ok (subBox b w)).
Proof.
  intros p b v w B V W. destruct (scaled_box b v B V) as [M D]. destruct (moved_box b w B W) as [A S].
  split; [|split; [|split]]; (split; [apply constructor_exact; assumption|reflexivity]).
Qed.
Theorem history_runs : forall p l (b : aabb f32), properBox b -> Forall properCall l ->
  Forall (fun c => isSetter c = false) l ->
  exists b', runCalls true p b l = Ok b' /\ runCalls false p b l = Ok b' /\ properBox b'.
Proof.
  intros p l. induction l as [|c l IH]; cbn [runCalls]; intros b B P S.
  - exists b. auto.
  - inversion P; inversion S; subst. destruct (call_runs p b c) as (b1 & R1 & R2); try assumption.
    rewrite R1, R2. cbn [bind]. apply IH; try assumption. eapply call_keeps; eassumption.
Qed.

(** *** the box of everything *)
Theorem inf_box : properBox aabbInf /\ (forall p, newBox true p (bmin aabbInf) (bmax aabbInf) = Ok aabbInf) /\
  forall p (q : vec4 f32), isInsidePoint p aabbInf q = true <-> num4 q.
Proof.
  assert (E1 : forall x : f32, sle (constLane KMinusInf) x = true <-> num x).
  { intros x. rewrite sle_interval. unfold interval. split; [tauto|]. intros N. split; [reflexivity|]. split; [exact N|].
    change (ext (constLane KMinusInf)) with (- maxF). apply num_ext_bound, N. }
  assert (E2 : forall x : f32, sle x (constLane KInf) = true <-> num x).
  { intros x. rewrite sle_interval. unfold interval. split; [tauto|]. intros N. split; [exact N|]. split; [reflexivity|].
    change (ext (constLane KInf)) with maxF. apply num_ext_bound, N. }
  assert (B : properBox aabbInf).
  { unfold properBox, aabbInf, const4, dup4. cbn [bmin bmax vx vy vz]. rewrite <- !sle_interval. auto. }
  split; [exact B|]. split.
  - intros p. apply constructor_exact, B.
  - intros p [x y z w]. unfold isInsidePoint, aabbInf, const4, dup4, uand, vle, vge, map2_4, num4. cbn [bmin bmax vx vy vz vw].
    rewrite !land_masks, areAllTrue_masks. unfold sge. rewrite !andb_true_iff, !E1, !E2. tauto.
Qed.

(** *** what the assertions do not see *)
Theorem unseen : exists (b : aabb f32) size q s o, properBox b /\ properSize size /\
  (forall p, setSizeC true p size q = Ok (setSize size q)) /\ ~ properBox (setSize size q) /\
  (forall p, runCall true p b (MulBy s) = Ok (scaleBox b s) /\ runCall true p b (BinMul s) = Abort) /\ ~ properBox (scaleBox b s) /\
  properBox o /\ forall p, ~ properBox (shrinkBox p b o).
Proof.
  exists (bx 0 0 0 1 1 1), (V4 (constLane KInf) f1 f1 f1), (V4 (constLane KInf) f0 f0 f0), (v4 (-1) 1 1), (bx 5 5 5 6 6 6).
  assert (D : forall b : aabb f32, properBox b <-> sle (vx (bmin b)) (vx (bmax b)) && sle (vy (bmin b)) (vy (bmax b)) && sle (vz (bmin b)) (vz (bmax b)) = true).
  { intros b. rewrite !andb_true_iff, !sle_interval. unfold properBox. tauto. }
  assert (Z : properSize (V4 (constLane KInf) f1 f1 f1)).
  { unfold properSize. rewrite <- !interval_zero, <- !sle_interval. vm_compute. auto. }
  rewrite !D. split; [vm_compute; reflexivity|]. split; [exact Z|].
  split; [intros p; apply sized_exact, Z|]. split; [vm_compute; discriminate|].
  split.
  { intros p. split; [reflexivity|]. apply constructor_exact. rewrite D. vm_compute. discriminate. }
  split; [vm_compute; discriminate|].
  split; [vm_compute; reflexivity|]. intros p. rewrite D. destruct p; vm_compute; discriminate.
Qed.

Lemma history_example :
  let b := bx 0 0 0 1 1 1 in
  let l := [SetMax (v4 4 4 4); ExtendPoint (v4 (-2) 3 5); BinMul (v4 2 2 2); SubBy (v4 1 0 0); ExtendBox (bx 0 0 0 9 9 9)] in
  properBox b /\ Forall properCall l /\
  forall p, match runCalls true p b l with Ok b' => eqbox b' (bx (-5) 0 0 9 9 10) | _ => false end = true.
Proof.
  cbv zeta. split; [|split].
  - unfold properBox. rewrite <- !sle_interval. vm_compute. auto.
  - assert (P2 : positive (fi 2)).
    { destruct (lit_exact 2 0 ltac:(lia) ltac:(lia)) as [A B]. split; [exact A|].
      change (fi 2) with (slit 2 0 : f32). rewrite B. cbn. lra. }
    repeat constructor; try reflexivity; apply P2.
  - intros []; vm_compute; reflexivity.
Qed.
