(** Box operations that only compare: valid for the reals and for non-NaN binary32. *)
From Coq Require Import Reals Lra List Bool ZArith Permutation.
From Verif.Model Require Import Scalar Vec Simd Aabb.
From Verif.Proofs Require Import OrdScalar.
From Verif.Spec Require Import GeomSpec.
Import ListNotations.
Local Open Scope R_scope.

Section Order.
  Context {F : Type} {S : Scalar F} {O : OrdScalar F}.

  Lemma Rmin_glb' : forall a b c, c <= a -> c <= b -> c <= Rmin a b.
  Proof. intros. apply Rmin_glb; assumption. Qed.

  (** *** closestPoint *)
  Lemma clamp_lane : forall p v mn mx, num v -> num mn -> num mx -> ext mn <= ext mx ->
    let r := simdmax p (simdmin p v mx) mn in
    num r /\ ext mn <= ext r <= ext mx /\
    (forall q, ext mn <= q <= ext mx -> (ext v - ext r)² <= (ext v - q)²) /\
    (ext r = ext v <-> ext mn <= ext v <= ext mx).
  Proof.
    intros p v mn mx Hv Hmn Hmx Hle r.
    assert (N1 : num (simdmin p v mx)) by (apply simdmin_num; assumption).
    assert (N2 : num r) by (apply simdmax_num; assumption).
    assert (E : ext r = Rmax (Rmin (ext v) (ext mx)) (ext mn)).
    { unfold r. rewrite simdmax_ext, simdmin_ext by assumption. reflexivity. }
    split; [exact N2|]. rewrite E. clear E N1 N2 r.
    unfold Rmax, Rmin.
    destruct (Rle_dec (ext v) (ext mx)); match goal with |- context [Rle_dec ?a ?b] => destruct (Rle_dec a b) end;
      repeat split; intros; try lra; apply Rsqr_le_abs_1; unfold Rabs;
      repeat match goal with |- context [Rcase_abs ?a] => destruct (Rcase_abs a) end; lra.
  Qed.

  Theorem closestPointBox_correct : forall p b pt, numBox b -> num4 pt -> validBox b ->
    let r := closestPointBox p b pt in
    inBox b r /\ (forall q, inBox b q -> dist2 pt r <= dist2 pt q) /\
    ((ext (vx r) = ext (vx pt) /\ ext (vy r) = ext (vy pt) /\ ext (vz r) = ext (vz pt)) <-> inBox b pt).
  Proof.
    intros p [mn mx] pt ((A1 & A2 & A3 & A4) & (B1 & B2 & B3 & B4)) (P1 & P2 & P3 & P4) ((V1 & V1') & (V2 & V2') & (V3 & V3')) r.
    cbn [bmin bmax] in *.
    destruct (clamp_lane p (vx pt) (vx mn) (vx mx) P1 A1 B1 V1') as (N1 & I1 & D1 & E1).
    destruct (clamp_lane p (vy pt) (vy mn) (vy mx) P2 A2 B2 V2') as (N2 & I2 & D2 & E2).
    destruct (clamp_lane p (vz pt) (vz mn) (vz mx) P3 A3 B3 V3') as (N3 & I3 & D3 & E3).
    unfold r, closestPointBox, vclamp, vmax, vmin, map2_4, inBox, in3. cbn [bmin bmax vx vy vz vw].
    split; [auto|]. split.
    - intros q (Q1 & Q2 & Q3). unfold dist2. cbn [vx vy vz].
      specialize (D1 _ Q1). specialize (D2 _ Q2). specialize (D3 _ Q3). lra.
    - tauto.
  Qed.

  (** *** containment *)
  Lemma isInsidePoint_iff : forall p b pt, numBox b -> num4 pt ->
    (isInsidePoint p b pt = true <-> inBox4 b pt).
  Proof.
    intros p [mn mx] pt ((A1 & A2 & A3 & A4) & (B1 & B2 & B3 & B4)) (P1 & P2 & P3 & P4).
    unfold isInsidePoint, uand, vle, vge, map2_4. cbn [bmin bmax vx vy vz vw] in *.
    rewrite !land_masks, areAllTrue_masks. unfold sge.
    rewrite !andb_true_iff, !sle_iff by assumption.
    unfold inBox4, in4, in3. cbn [bmin bmax]. tauto.
  Qed.

  Lemma isInsideBox_iff : forall p a b, numBox a -> numBox b ->
    (isInsideBox p a b = true <->
     cornersInside a b /\ ext (vw (bmin a)) <= ext (vw (bmin b)) /\ ext (vw (bmax b)) <= ext (vw (bmax a))).
  Proof.
    intros p [mn mx] [mn' mx'] ((A1 & A2 & A3 & A4) & (B1 & B2 & B3 & B4)) ((P1 & P2 & P3 & P4) & (Q1 & Q2 & Q3 & Q4)).
    unfold isInsideBox, uand, vle, vge, map2_4. cbn [bmin bmax vx vy vz vw] in *.
    rewrite !land_masks, areAllTrue_masks. unfold sge.
    rewrite !andb_true_iff, !sle_iff by assumption.
    unfold cornersInside. cbn [bmin bmax]. tauto.
  Qed.

  Theorem isInsideBox_points : forall p a b, numBox a -> numBox b -> inBox4 b (bmin b) ->
    (isInsideBox p a b = true <-> (forall q, num4 q -> inBox4 b q -> inBox4 a q)).
  Proof.
    intros p a b Ha Hb Hne. rewrite isInsideBox_iff by assumption.
    unfold inBox4, in4, in3, cornersInside in *. split.
    - intros H q _ Hq. lra.
    - intros H. destruct Hb as (Hb1 & Hb2).
      assert (H1 := H (bmin b) Hb1). assert (H2 := H (bmax b) Hb2). lra.
  Qed.

  (** *** extend *)
  Lemma extendPoint_lane : forall p a c, num a -> num c ->
    ext (simdmin p a c) <= ext a /\ ext (simdmin p a c) <= ext c /\
    (forall l, l <= ext a -> l <= ext c -> l <= ext (simdmin p a c)) /\
    ext a <= ext (simdmax p a c) /\ ext c <= ext (simdmax p a c) /\
    (forall h, ext a <= h -> ext c <= h -> ext (simdmax p a c) <= h).
  Proof.
    intros p a c Ha Hc. rewrite simdmin_ext, simdmax_ext by assumption.
    repeat split; intros; unfold Rmin, Rmax; destruct (Rle_dec (ext a) (ext c)); lra.
  Qed.

  Theorem extendBox_least : forall p a b, numBox3 a -> numBox3 b ->
    let r := extendBox p a b in
    numBox3 r /\ cornersInside r a /\ cornersInside r b /\
    (forall c, cornersInside c a -> cornersInside c b -> cornersInside c r).
  Proof.
    intros p [mn mx] [mn' mx'] ((A1 & A2 & A3) & (B1 & B2 & B3)) ((P1 & P2 & P3) & (Q1 & Q2 & Q3)) r.
    cbn [bmin bmax] in *.
    assert (L : forall a c, num a -> num c -> _) by exact (extendPoint_lane p).
    assert (X1 := L _ _ A1 P1). assert (X2 := L _ _ A2 P2). assert (X3 := L _ _ A3 P3).
    assert (Y1 := L _ _ B1 Q1). assert (Y2 := L _ _ B2 Q2). assert (Y3 := L _ _ B3 Q3). clear L.
    unfold r, extendBox, vmin, vmax, map2_4, numBox3, num3, cornersInside. cbn [bmin bmax vx vy vz vw].
    split; [repeat split; apply simdmin_num || apply simdmax_num; assumption|].
    split; [tauto|]. split; [tauto|].
    intros c Ca Cb.
    destruct X1 as (_ & _ & X1 & _), X2 as (_ & _ & X2 & _), X3 as (_ & _ & X3 & _).
    destruct Y1 as (_ & _ & _ & _ & _ & Y1), Y2 as (_ & _ & _ & _ & _ & Y2), Y3 as (_ & _ & _ & _ & _ & Y3).
    repeat split; first [apply X1|apply X2|apply X3|apply Y1|apply Y2|apply Y3]; tauto.
  Qed.

  Lemma extendPoint_box : forall p a pt, extendPoint p a pt = extendBox p a (mkAabb pt pt).
  Proof. reflexivity. Qed.

  Lemma simd_idem : forall p a c, num a -> num c ->
    simdmin p (simdmin p a c) c = simdmin p a c /\ simdmax p (simdmax p a c) c = simdmax p a c.
  Proof.
    intros p a c Ha Hc.
    assert (E1 : simdmin p c c = c) by (destruct (simdmin_cases p c c Hc Hc) as [[? _]|[? _]]; assumption).
    assert (E2 : simdmax p c c = c) by (destruct (simdmax_cases p c c Hc Hc) as [[? _]|[? _]]; assumption).
    split.
    - destruct (simdmin_cases p a c Ha Hc) as [[E _]|[E _]]; rewrite E; [exact E|exact E1].
    - destruct (simdmax_cases p a c Ha Hc) as [[E _]|[E _]]; rewrite E; [exact E|exact E2].
  Qed.

  Theorem extendBox_idem : forall p a b, numBox a -> numBox b ->
    extendBox p (extendBox p a b) b = extendBox p a b.
  Proof.
    intros p [mn mx] [mn' mx'] ((A1 & A2 & A3 & A4) & (B1 & B2 & B3 & B4)) ((P1 & P2 & P3 & P4) & (Q1 & Q2 & Q3 & Q4)).
    cbn [bmin bmax] in *. unfold extendBox, vmin, vmax, map2_4. cbn [bmin bmax vx vy vz vw].
    f_equal; f_equal; apply simd_idem; assumption.
  Qed.

  Lemma numBox_extend : forall p a b, numBox a -> numBox b -> numBox (extendBox p a b).
  Proof.
    intros p [mn mx] [mn' mx'] ((A1 & A2 & A3 & A4) & (B1 & B2 & B3 & B4)) ((P1 & P2 & P3 & P4) & (Q1 & Q2 & Q3 & Q4)).
    unfold extendBox, vmin, vmax, map2_4, numBox, num4. cbn [bmin bmax vx vy vz vw] in *.
    repeat split; apply simdmin_num || apply simdmax_num; assumption.
  Qed.

  (** The result of a sequence of extensions, lane by lane. *)
  Lemma extend_values : forall p a b, numBox a -> numBox b ->
    let r := extendBox p a b in
    (ext (vx (bmin r)) = Rmin (ext (vx (bmin a))) (ext (vx (bmin b))) /\
     ext (vy (bmin r)) = Rmin (ext (vy (bmin a))) (ext (vy (bmin b))) /\
     ext (vz (bmin r)) = Rmin (ext (vz (bmin a))) (ext (vz (bmin b))) /\
     ext (vw (bmin r)) = Rmin (ext (vw (bmin a))) (ext (vw (bmin b)))) /\
    (ext (vx (bmax r)) = Rmax (ext (vx (bmax a))) (ext (vx (bmax b))) /\
     ext (vy (bmax r)) = Rmax (ext (vy (bmax a))) (ext (vy (bmax b))) /\
     ext (vz (bmax r)) = Rmax (ext (vz (bmax a))) (ext (vz (bmax b))) /\
     ext (vw (bmax r)) = Rmax (ext (vw (bmax a))) (ext (vw (bmax b)))).
  Proof.
    intros p [mn mx] [mn' mx'] ((A1 & A2 & A3 & A4) & (B1 & B2 & B3 & B4)) ((P1 & P2 & P3 & P4) & (Q1 & Q2 & Q3 & Q4)) r.
    unfold r, extendBox, vmin, vmax, map2_4. cbn [bmin bmax vx vy vz vw] in *.
    repeat split; apply simdmin_ext || apply simdmax_ext; assumption.
  Qed.

  Theorem extendBox_swap : forall p a b c, numBox a -> numBox b -> numBox c ->
    sameBox (extendBox p (extendBox p a b) c) (extendBox p (extendBox p a c) b).
  Proof.
    intros p a b c Ha Hb Hc.
    destruct (extend_values p _ c (numBox_extend p a b Ha Hb) Hc) as ((E1 & E2 & E3 & E4) & (E5 & E6 & E7 & E8)).
    destruct (extend_values p _ b (numBox_extend p a c Ha Hc) Hb) as ((G1 & G2 & G3 & G4) & (G5 & G6 & G7 & G8)).
    destruct (extend_values p a b Ha Hb) as ((I1 & I2 & I3 & I4) & (I5 & I6 & I7 & I8)).
    destruct (extend_values p a c Ha Hc) as ((J1 & J2 & J3 & J4) & (J5 & J6 & J7 & J8)).
    unfold sameBox, sameValue.
    rewrite E1, E2, E3, E4, E5, E6, E7, E8, G1, G2, G3, G4, G5, G6, G7, G8.
    rewrite I1, I2, I3, I4, I5, I6, I7, I8, J1, J2, J3, J4, J5, J6, J7, J8.
    assert (Mn : forall x y z, Rmin (Rmin x y) z = Rmin (Rmin x z) y)
      by (intros; rewrite <- !Rmin_assoc, (Rmin_comm y z); reflexivity).
    assert (Mx : forall x y z, Rmax (Rmax x y) z = Rmax (Rmax x z) y)
      by (intros; rewrite <- !Rmax_assoc, (Rmax_comm y z); reflexivity).
    repeat split; apply Mn || apply Mx.
  Qed.

  Lemma sameBox_extend : forall p a a' b, numBox a -> numBox a' -> numBox b -> sameBox a a' ->
    sameBox (extendBox p a b) (extendBox p a' b).
  Proof.
    intros p a a' b Ha Ha' Hb ((X1 & X2 & X3 & X4) & (X5 & X6 & X7 & X8)).
    destruct (extend_values p a b Ha Hb) as ((I1 & I2 & I3 & I4) & (I5 & I6 & I7 & I8)).
    destruct (extend_values p a' b Ha' Hb) as ((J1 & J2 & J3 & J4) & (J5 & J6 & J7 & J8)).
    unfold sameBox, sameValue.
    rewrite I1, I2, I3, I4, I5, I6, I7, I8, J1, J2, J3, J4, J5, J6, J7, J8.
    rewrite X1, X2, X3, X4, X5, X6, X7, X8. repeat split.
  Qed.

  (** extension by a list of boxes, in order *)

  Lemma extendAll_num : forall p l a, numBox a -> Forall numBox l -> numBox (extendAll p a l).
  Proof.
    induction l; intros b Hb Hl; cbn; [exact Hb|]. inversion Hl; subst. apply IHl; [|assumption].
    apply numBox_extend; assumption.
  Qed.

  Lemma sameBox_extendAll : forall p l a a', numBox a -> numBox a' -> Forall numBox l -> sameBox a a' ->
    sameBox (extendAll p a l) (extendAll p a' l).
  Proof.
    induction l as [|x l IH]; intros a a' Ha Ha' Hl Hs; cbn; [exact Hs|]. inversion Hl; subst.
    apply IH; auto using numBox_extend, sameBox_extend.
  Qed.

  Lemma sameBox_refl : forall a : aabb F, sameBox a a.
  Proof. intros a. unfold sameBox, sameValue. repeat split. Qed.
  Lemma sameBox_trans : forall a b c : aabb F, sameBox a b -> sameBox b c -> sameBox a c.
  Proof. intros a b c. unfold sameBox, sameValue. intuition congruence. Qed.

  Theorem extendAll_permutation : forall p l l' a, numBox a -> Forall numBox l -> Permutation l l' ->
    sameBox (extendAll p a l) (extendAll p a l').
  Proof.
    intros p l l' a Ha Hl P. revert a Ha Hl. induction P; intros a Ha Hl.
    - apply sameBox_refl.
    - inversion Hl; subst. cbn. apply IHP; auto using numBox_extend.
    - inversion Hl as [|? ? H1 H2]; subst. inversion H2; subst. cbn.
      apply sameBox_extendAll; auto using numBox_extend, extendBox_swap.
    - eapply sameBox_trans; [apply IHP1; auto|]. apply IHP2; auto.
      eapply Permutation_Forall; eassumption.
  Qed.

  Lemma cornersInside_trans : forall a b c : aabb F,
    cornersInside a b -> cornersInside b c -> cornersInside a c.
  Proof. intros a b c. unfold cornersInside. lra. Qed.

  Theorem extendAll_least : forall p l a, numBox3 a -> Forall numBox3 l ->
    let r := extendAll p a l in
    numBox3 r /\ cornersInside r a /\ Forall (cornersInside r) l /\
    (forall c, cornersInside c a -> Forall (cornersInside c) l -> cornersInside c r).
  Proof.
    induction l as [|x l IH]; intros a Ha Hl r.
    - cbn in r. subst r. split; [exact Ha|]. split; [unfold cornersInside; lra|]. split; [constructor|auto].
    - inversion Hl; subst.
      destruct (extendBox_least p a x Ha H1) as (E0 & E1 & E2 & E3).
      destruct (IH (extendBox p a x) E0 H2) as (I0 & I1 & I2 & I3).
      change (extendAll p (extendBox p a x) l) with r in I0, I1, I2, I3.
      split; [exact I0|]. split; [|split].
      + eapply cornersInside_trans; eassumption.
      + constructor; [|exact I2]. eapply cornersInside_trans; eassumption.
      + intros c Hc Hcl. inversion Hcl; subst. apply I3; auto.
  Qed.

  (** *** shrink *)
  Theorem shrinkBox_points : forall p a b, numBox a -> numBox b ->
    forall q, inBox (shrinkBox p a b) q <-> inBox a q /\ inBox b q.
  Proof.
    intros p [mn mx] [mn' mx'] ((A1 & A2 & A3 & A4) & (B1 & B2 & B3 & B4)) ((P1 & P2 & P3 & P4) & (Q1 & Q2 & Q3 & Q4)) q.
    unfold inBox, in3, shrinkBox, vmin, vmax, map2_4. cbn [bmin bmax vx vy vz vw] in *.
    rewrite !simdmin_ext, !simdmax_ext by assumption.
    unfold Rmin, Rmax. repeat (match goal with |- context [Rle_dec ?x ?y] => destruct (Rle_dec x y) end); lra.
  Qed.

  (** *** isIntersected as written *)
  Theorem isIntersectedBox_actual : forall p a b, numBox a -> numBox b ->
    (isIntersectedBox p a b = true <-> sameValue (bmin a) (bmax b)).
  Proof.
    intros p [mn mx] [mn' mx'] ((A1 & A2 & A3 & A4) & (B1 & B2 & B3 & B4)) ((P1 & P2 & P3 & P4) & (Q1 & Q2 & Q3 & Q4)).
    unfold isIntersectedBox, uand, vle, vge, map2_4. cbn [bmin bmax vx vy vz vw] in *.
    rewrite !land_masks, areAllTrue_masks. unfold sge.
    rewrite !andb_true_iff, !sle_iff by assumption. unfold sameValue. lra.
  Qed.
End Order.
