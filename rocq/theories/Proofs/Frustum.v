(** C23: the frustum test, over the reals and in binary32. *)
From Coq Require Import ZArith List Lia Bool Reals Lra Psatz.
From Flocq Require Import Core.Core IEEE754.BinarySingleNaN IEEE754.Binary IEEE754.Bits.
From Verif.Model Require Import Scalar Vec Simd Aabb.
From Verif.Spec Require Import GeomSpec BvhGeomSpec.
From Verif.Proofs Require Import OrdScalar F32Round AabbOrder.
Import ListNotations.

Section Generic.
  Context {F : Type} {S : Scalar F}.

  Lemma allBehind_iff : forall p pl (v0 v1 v2 v3 v4 v5 v6 v7 : vec4 F),
    allBehind p pl v0 v1 v2 v3 v4 v5 v6 v7 = true <->
    Forall (fun v => slt (planeDistance p pl v) f0 = true) [v0; v1; v2; v3; v4; v5; v6; v7].
  Proof.
    intros. unfold allBehind, uand, vlt, map2_4. cbn [vx vy vz vw dup4].
    rewrite !land_masks, areAllTrue_masks, !andb_true_iff.
    split.
    - intros H. repeat apply Forall_cons; try apply Forall_nil; tauto.
    - intros H. repeat match goal with H : Forall _ (_ :: _) |- _ => inversion H; clear H; subst end. tauto.
  Qed.

  Lemma anyPlane_iff : forall (planes : list (vec4 F)) test,
    anyPlane planes test = true <-> exists pl, In pl planes /\ test pl = true.
  Proof.
    induction planes as [|pl planes IH]; intros test; cbn [anyPlane In].
    - split; [discriminate|intros (? & [] & _)].
    - destruct (test pl) eqn:E.
      + split; [intros _; exists pl; auto|reflexivity].
      + rewrite IH. split; [intros (pl' & ? & ?); eauto|].
        intros (pl' & [<-|?] & ?); [congruence|eauto].
  Qed.

  Lemma isBehindFrustum_iff : forall p planes (b : aabb F),
    isBehindFrustum p planes b = true <->
    exists pl, In pl planes /\ Forall (fun v => slt (planeDistance p pl v) f0 = true) (corners b).
  Proof.
    intros p planes b. unfold isBehindFrustum, behind8, corners. rewrite anyPlane_iff.
    split; intros (pl & ? & H); exists pl; (split; [assumption|]); apply allBehind_iff in H || apply allBehind_iff; exact H.
  Qed.

  Definition pick (c : bool) (lo hi : F) : F := if c then hi else lo.
  Lemma corners_in : forall (b : aabb F) cx cy cz, exists w,
    In (V4 (pick cx (vx (bmin b)) (vx (bmax b))) (pick cy (vy (bmin b)) (vy (bmax b)))
           (pick cz (vz (bmin b)) (vz (bmax b))) w) (corners b).
  Proof. intros b cx cy cz. exists f1. unfold corners, withW. destruct cx, cy, cz; cbn; auto 10. Qed.
  Lemma corners_form : forall (b : aabb F) v, In v (corners b) -> exists cx cy cz,
    v = V4 (pick cx (vx (bmin b)) (vx (bmax b))) (pick cy (vy (bmin b)) (vy (bmax b)))
           (pick cz (vz (bmin b)) (vz (bmax b))) f1.
  Proof.
    intros b v H. unfold corners, withW in H. cbn in H.
    destruct H as [<-|[<-|[<-|[<-|[<-|[<-|[<-|[<-|[]]]]]]]]].
    - exists false, false, false. reflexivity.
    - exists false, false, true. reflexivity.
    - exists false, true, false. reflexivity.
    - exists false, true, true. reflexivity.
    - exists true, false, false. reflexivity.
    - exists true, false, true. reflexivity.
    - exists true, true, false. reflexivity.
    - exists true, true, true. reflexivity.
  Qed.
End Generic.

(** ** Reals *)
Section Real.
  Local Open Scope R_scope.

  Lemma f0R : (f0 : R) = 0.
  Proof. unfold f0. cbn. unfold Rlit. cbn. lra. Qed.
  Lemma f1R : (f1 : R) = 1.
  Proof. unfold f1. cbn. unfold Rlit. cbn. lra. Qed.

  Lemma dot3R : forall p (a b : vec4 R), dot3 p a b = vx a * vx b + vy a * vy b + vz a * vz b.
  Proof.
    intros [] a b; cbn [dot3]; unfold dotp3, xyz; cbn [x3 y3 z3]; rewrite ?f0R;
      cbn [sadd smul ScalarR]; ring.
  Qed.
  Lemma planeDistanceR : forall p pl q, planeDistance p pl q = planeSide pl q.
  Proof. intros. unfold planeDistance, planeSide. rewrite dot3R. reflexivity. Qed.

  Lemma sltR0 : forall x : R, slt x f0 = true <-> x < 0.
  Proof. intros x. rewrite f0R. cbn. destruct (Rlt_bool_spec x 0); intuition (try lra; discriminate). Qed.

  Lemma corner_above : forall pl (b : aabb R) q, inBox b q ->
    exists v, In v (corners b) /\ planeSide pl q <= planeSide pl v.
  Proof.
    intros pl b q ((X0 & X1) & (Y0 & Y1) & Z0 & Z1). cbn [ext OrdR] in *.
    destruct (corners_in b (Rle_bool 0 (vx pl)) (Rle_bool 0 (vy pl)) (Rle_bool 0 (vz pl))) as (w & Hin).
    eexists. split; [exact Hin|]. unfold planeSide. cbn [vx vy vz vw].
    assert (A : forall n x lo hi, lo <= x <= hi -> n * x <= n * pick (Rle_bool 0 n) lo hi).
    { intros n x lo hi H. destruct (Rle_bool_spec 0 n); cbn [pick]; nra. }
    pose proof (A (vx pl) (vx q) (vx (bmin b)) (vx (bmax b)) ltac:(lra)).
    pose proof (A (vy pl) (vy q) (vy (bmin b)) (vy (bmax b)) ltac:(lra)).
    pose proof (A (vz pl) (vz q) (vz (bmin b)) (vz (bmax b)) ltac:(lra)).
    lra.
  Qed.


  Lemma corners_inside : forall (b : aabb R) v, nonEmpty b -> In v (corners b) -> inBox b v.
  Proof.
    intros b v (H1 & H2 & H3) Hv. apply corners_form in Hv. destruct Hv as (cx & cy & cz & ->).
    unfold inBox, in3. cbn [ext OrdR vx vy vz].
    assert (A : forall (lo hi : R) c, lo <= hi -> lo <= pick c lo hi <= hi) by (intros lo hi [] ?; cbn [pick]; lra).
    split; [apply A, H1|]. split; [apply A, H2|apply A, H3].
  Qed.

  Theorem isBehindFrustum_R : forall p planes b, nonEmpty b ->
    (isBehindFrustum p planes b = true <->
     exists pl, In pl planes /\ forall q, inBox b q -> planeSide pl q < 0).
  Proof.
    intros p planes b Hb. rewrite isBehindFrustum_iff. split; intros (pl & Hin & H); exists pl; (split; [exact Hin|]).
    - intros q Hq. destruct (corner_above pl b q Hq) as (v & Hv & Hle).
      rewrite Forall_forall in H. specialize (H v Hv). rewrite planeDistanceR, sltR0 in H. lra.
    - apply Forall_forall. intros v Hv. rewrite planeDistanceR, sltR0. apply H, corners_inside; assumption.
  Qed.

  Theorem isBehindFrustum_mono_R : forall p planes a b, nonEmpty b -> cornersInside a b ->
    isBehindFrustum p planes a = true -> isBehindFrustum p planes b = true.
  Proof.
    intros p planes a b Hb Hc. rewrite !isBehindFrustum_iff. intros (pl & Hin & H). exists pl. split; [exact Hin|].
    apply Forall_forall. intros v Hv. apply corners_inside in Hv; [|exact Hb].
    assert (Hq : inBox a v).
    { unfold inBox, in3, cornersInside in *. cbn [ext OrdR] in *. lra. }
    destruct (corner_above pl a v Hq) as (c & Hc' & Hle).
    rewrite Forall_forall in H. specialize (H c Hc'). rewrite planeDistanceR, sltR0 in *. lra.
  Qed.
End Real.

(** ** binary32 *)
Section F32.
  Local Open Scope R_scope.

  Lemma slt_num : forall a b : f32, slt a b = true -> num a /\ num b /\ ext a < ext b.
  Proof.
    intros a b H.
    assert (Ha : num a).
    { destruct a as [s|s|s pl Hp|s m e He]; try reflexivity. destruct b; discriminate. }
    assert (Hb : num b).
    { destruct b as [s|s|s pl Hp|s m e He]; try reflexivity. destruct a; discriminate. }
    split; [exact Ha|]. split; [exact Hb|]. apply slt_iff; assumption.
  Qed.
  Lemma ext_f0 : ext (f0 : f32) = 0.
  Proof. reflexivity. Qed.

  (** the computed distance of a point is at most that of a point with larger terms *)
  Lemma planeDistance_mono : forall p (pl q c : vec4 f32), finite4 pl -> finite3 q -> finite3 c ->
    ext (vx pl * vx q)%sc <= ext (vx pl * vx c)%sc ->
    ext (vy pl * vy q)%sc <= ext (vy pl * vy c)%sc ->
    ext (vz pl * vz q)%sc <= ext (vz pl * vz c)%sc ->
    slt (planeDistance p pl c) f0 = true -> slt (planeDistance p pl q) f0 = true.
  Proof.
    intros p pl q c ((P1 & P2 & P3) & P4) (Q1 & Q2 & Q3) (C1 & C2 & C3) Hx Hy Hz H.
    apply slt_num in H. destruct H as (Hn & _ & Hl). rewrite ext_f0 in Hl. pose proof maxF_pos.
    assert (Nx := proj1 (mul_fin _ _ P1 Q1)). assert (Ny := proj1 (mul_fin _ _ P2 Q2)).
    assert (Nz := proj1 (mul_fin _ _ P3 Q3)). assert (Nw := fin_num _ P4).
    assert (N0 : num (f0 : f32)) by reflexivity.
    unfold planeDistance in *.
    destruct (add_below _ _ Hn ltac:(lra)) as ((Nd & Ld) & _).
    assert (G : num (dot3 p pl q) /\ ext (dot3 p pl q) <= ext (dot3 p pl c)).
    { destruct p; cbn [dot3] in *; unfold dotp3, xyz in *; cbn [x3 y3 z3] in *.
      all: destruct (add_below _ _ Nd Ld) as ((Na & La) & (Nb & Lb)).
      all: destruct (add_mono _ _ _ _ Nx Ny Na La Hx Hy) as (G1 & G2).
      all: try (destruct (add_mono _ _ _ _ Nz N0 Nb Lb Hz (Rle_refl _)) as (G3 & G4)).
      all: apply add_mono; assumption. }
    destruct G as (G1 & G2).
    destruct (add_mono _ _ _ _ G1 Nw Hn ltac:(lra) G2 (Rle_refl _)) as (G3 & G4).
    apply slt_iff; [exact G3|exact N0|]. rewrite ext_f0. lra.
  Qed.

  Lemma term_pick : forall n x lo hi : f32, fin n -> fin x -> fin lo -> fin hi ->
    ext lo <= ext x <= ext hi -> exists c, ext (n * x)%sc <= ext (n * pick c lo hi)%sc.
  Proof.
    intros n x lo hi Hn Hx Hlo Hhi H. rewrite !fin_ext in H by assumption.
    destruct (Rle_lt_dec 0 (val n)).
    - exists true. cbn [pick]. apply mul_mono_r; try assumption. lra.
    - exists false. cbn [pick]. apply mul_anti_r; try assumption; lra.
  Qed.
  Lemma pick_fin : forall c (lo hi : f32), fin lo -> fin hi -> fin (pick c lo hi).
  Proof. intros [] lo hi H1 H2; assumption. Qed.

  Theorem behind_point_F32 : forall p pl (b : aabb f32) q, finite4 pl -> finiteBox3 b -> finite3 q ->
    inBox b q -> Forall (fun v => slt (planeDistance p pl v) f0 = true) (corners b) ->
    slt (planeDistance p pl q) f0 = true.
  Proof.
    intros p pl b q Hpl ((M1 & M2 & M3) & (X1 & X2 & X3)) Hq (Bx & By & Bz) H.
    assert (Hpl' := Hpl). destruct Hpl' as ((P1 & P2 & P3) & P4). assert (Hq' := Hq). destruct Hq' as (Q1 & Q2 & Q3).
    destruct (term_pick (vx pl) (vx q) (vx (bmin b)) (vx (bmax b))) as (cx & Hx); try assumption.
    destruct (term_pick (vy pl) (vy q) (vy (bmin b)) (vy (bmax b))) as (cy & Hy); try assumption.
    destruct (term_pick (vz pl) (vz q) (vz (bmin b)) (vz (bmax b))) as (cz & Hz); try assumption.
    destruct (corners_in b cx cy cz) as (w & Hin). rewrite Forall_forall in H. specialize (H _ Hin).
    refine (planeDistance_mono p pl q _ Hpl Hq _ _ _ _ H); [|exact Hx|exact Hy|exact Hz].
    split; [|split]; cbn [vx vy vz]; apply pick_fin; assumption.
  Qed.

  Theorem isBehindFrustum_F32 : forall p planes b q, Forall finite4 planes -> finiteBox3 b -> finite3 q ->
    inBox b q -> isBehindFrustum p planes b = true ->
    exists pl, In pl planes /\ slt (planeDistance p pl q) f0 = true.
  Proof.
    intros p planes b q Hpl Hb Hq Hin. rewrite isBehindFrustum_iff. intros (pl & Hi & H).
    exists pl. split; [exact Hi|]. rewrite Forall_forall in Hpl. eapply behind_point_F32; eauto.
  Qed.

  Theorem isBehindFrustum_mono_F32 : forall p planes a b, Forall finite4 planes -> finiteBox3 a -> finiteBox3 b ->
    (ext (vx (bmin b)) <= ext (vx (bmax b)) /\ ext (vy (bmin b)) <= ext (vy (bmax b)) /\
     ext (vz (bmin b)) <= ext (vz (bmax b))) ->
    cornersInside a b ->
    isBehindFrustum p planes a = true -> isBehindFrustum p planes b = true.
  Proof.
    intros p planes a b Hpl Ha Hb (V1 & V2 & V3) Hc. rewrite !isBehindFrustum_iff. intros (pl & Hi & H).
    exists pl. split; [exact Hi|]. apply Forall_forall. intros v Hv.
    destruct (corners_form b v Hv) as (cx & cy & cz & ->).
    destruct Hb as ((M1 & M2 & M3) & (X1 & X2 & X3)).
    rewrite Forall_forall in Hpl.
    apply behind_point_F32 with (b := a); auto.
    - split; [|split]; cbn [vx vy vz]; apply pick_fin; assumption.
    - assert (A : forall c (lo hi : f32), ext lo <= ext hi -> ext lo <= ext (pick c lo hi) <= ext hi)
        by (intros [] lo hi ?; cbn [pick]; lra).
      pose proof (A cx _ _ V1). pose proof (A cy _ _ V2). pose proof (A cz _ _ V3).
      unfold inBox, in3, cornersInside in *. cbn [vx vy vz]. lra.
  Qed.
End F32.
