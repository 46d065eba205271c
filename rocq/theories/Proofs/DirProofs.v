(** The named directions: exact results with every finite point. *)
From Coq Require Import ZArith Bool List Reals Lra Lia.
From Flocq Require Import Core.Core IEEE754.BinarySingleNaN IEEE754.Binary IEEE754.Bits.
From Verif.Model Require Import Scalar Vec Simd Matrix Transform Aabb Geometry Directions.
From Verif.Spec Require Import DirSpec.
From Verif.Proofs Require Import OrdScalar F32Round F32Err NumericProofs ClosestErr.
Local Open Scope R_scope.

Definition holds (x : f32) (r : R) : Prop := fin x /\ val x = r.
Definition rep (r : R) : Prop := exists y : f32, holds y r.
Lemma of_rep : forall (x : f32) r, num x -> ext x = RX r -> rep r -> holds x r.
Proof.
  intros x r N E (y & Fy & <-). assert (R : RX (val y) = val y).
  { unfold RX. rewrite rnd_val. apply clampR_id. pose proof (B2R_bound y). apply Rabs_le. lra. }
  rewrite R in E. assert (F : fin x) by (apply ext_fin; [exact N|rewrite E; pose proof (B2R_bound y); lra]).
  split; [exact F|]. rewrite <- fin_ext by exact F. exact E.
Qed.
Lemma add_is : forall (a b : f32) r s, holds a r -> holds b s -> rep (r + s) -> holds (a + b)%sc (r + s).
Proof. intros a b r s [A <-] [B <-] H. destruct (add_fin a b A B). apply of_rep; assumption. Qed.
Lemma sub_is : forall (a b : f32) r s, holds a r -> holds b s -> rep (r - s) -> holds (a - b)%sc (r - s).
Proof. intros a b r s [A <-] [B <-] H. destruct (sub_fin a b A B). apply of_rep; assumption. Qed.
Lemma mul_is : forall (a b : f32) r s, holds a r -> holds b s -> rep (r * s) -> holds (a * b)%sc (r * s).
Proof. intros a b r s [A <-] [B <-] H. destruct (mul_fin a b A B). apply of_rep; assumption. Qed.
Lemma div_is : forall (a b : f32) r s, holds a r -> holds b s -> s <> 0 -> rep (r / s) -> holds (a / b)%sc (r / s).
Proof. intros a b r s [A <-] [B <-] Z H. destruct (div_fin a b A B Z). apply of_rep; assumption. Qed.
Lemma fma_is : forall (a b c : f32) r s t, holds a r -> holds b s -> holds c t -> rep (r * s + t) -> holds (sfma a b c) (r * s + t).
Proof.
  intros a b c r s t [A <-] [B <-] [C <-] (y & Fy & E). cbn [sfma ScalarF32]. unfold b32_fma.
  pose proof (Binary.Bfma_correct 24 128 eq_refl eq_refl ternop_nan_pl32 mode_NE a b c A B C) as K. cbv zeta in K.
  rewrite <- E in K |- *. change (round radix2 (SpecFloat.fexp 24 128) (round_mode mode_NE) (val y)) with (rnd (val y)) in K.
  rewrite rnd_val in K. rewrite Rlt_bool_true in K by (pose proof (B2R_bound y); apply Rabs_def1; lra).
  destruct K as (K1 & K2 & _). split; assumption.
Qed.
Lemma is_eq : forall (x : f32) r s, holds x r -> r = s -> holds x s.
Proof. intros x r s H <-. exact H. Qed.
Lemma rep_val : forall x : f32, fin x -> rep (val x). Proof. intros x F. exists x. split; [exact F|reflexivity]. Qed.
Lemma rep_neg : forall r, rep r -> rep (- r).
Proof. intros r (y & F & <-). exists (- y)%sc. destruct (neg_fin y F) as [G E]. split; assumption. Qed.
Lemma zero_is : holds f0 0. Proof. exact (lit_Z 0 ltac:(lia)). Qed.
Lemma one_is : holds f1 1. Proof. exact (lit_Z 1 ltac:(lia)). Qed.
Lemma minus_is : holds (slit (-1) 0) (-1).
Proof. exact (lit_Z (-1) ltac:(lia)). Qed.
Lemma rep0 : rep 0. Proof. exists f0. exact zero_is. Qed.
Lemma rep1 : rep 1. Proof. exists f1. exact one_is. Qed.
Lemma rep_as : forall r s, rep r -> r = s -> rep s. Proof. intros r s H <-. exact H. Qed.

Lemma dot_is : forall p (a b : vec4 f32) a0 a1 a2 b0 b1 b2, holds (vx a) a0 -> holds (vy a) a1 -> holds (vz a) a2 ->
  holds (vx b) b0 -> holds (vy b) b1 -> holds (vz b) b2 -> rep (a0 * b0) -> rep (a1 * b1) -> rep (a2 * b2) ->
  rep (a0 * b0 + a1 * b1) -> rep (a0 * b0 + a1 * b1 + a2 * b2) -> holds (dot3 p a b) (a0 * b0 + a1 * b1 + a2 * b2).
Proof.
  intros p a b a0 a1 a2 b0 b1 b2 A0 A1 A2 B0 B1 B2 Q0 Q1 Q2 S T.
  pose proof (mul_is _ _ _ _ A0 B0 Q0) as M0. pose proof (mul_is _ _ _ _ A1 B1 Q1) as M1. pose proof (mul_is _ _ _ _ A2 B2 Q2) as M2.
  pose proof (add_is _ _ _ _ M0 M1 S) as S1. pose proof (add_is _ _ _ _ S1 M2 T) as S2.
  assert (Z : holds (vz a * vz b + f0)%sc (a2 * b2)).
  { apply is_eq with (a2 * b2 + 0); [apply add_is; [exact M2|exact zero_is|rewrite Rplus_0_r; exact Q2]|ring]. }
  pose proof (add_is _ _ _ _ S1 Z T) as S3. unfold dot3. destruct p; assumption.
Qed.
Ltac repq := first
 [ solve [apply rep_as with 0; [exact rep0|ring]] | solve [apply rep_as with 1; [exact rep1|field]]
 | match goal with H : fin ?x |- _ => solve [apply rep_as with (val x); [exact (rep_val x H)|field]] end
 | match goal with H : fin ?x |- _ => solve [apply rep_as with (- val x); [exact (rep_neg _ (rep_val x H))|field]] end ].
Ltac lane := first [exact zero_is | exact one_is | exact minus_is | match goal with H : fin ?x |- holds ?x _ => exact (conj H eq_refl) end].
Ltac dotq := eapply is_eq; [eapply dot_is; [lane|lane|lane|lane|lane|lane|repq|repq|repq|repq|repq]|].

Section Point.
  Variables (p : path) (v : vec4 f32).
  Hypothesis P : place v.
  Let Fx : fin (vx v) := P 0%nat ltac:(lia).
  Let Fy : fin (vy v) := P 1%nat ltac:(lia).
  Let Fz : fin (vz v) := P 2%nat ltac:(lia).
  Lemma plane_dist : forall d, holds (planeDistance p (dirPlane p d) v) (along d v).
  Proof.
    intros d. unfold planeDistance. apply is_eq with (along d v + 0); [|ring].
    assert (H : holds (dot3 p (dirPlane p d) v) (along d v) /\ rep (along d v + 0)).
    { pose proof Fx as X. pose proof Fy as Y. pose proof Fz as Z.
      destruct d; unfold along; cbn [axisOf signOf coord]; (split; [dotq; ring|repq]). }
    destruct H as [H R]. apply add_is; [exact H|destruct d; exact zero_is|exact R].
  Qed.
  Lemma dir_lane : forall (n : vec4 f32) d i, (i <= 2)%nat -> coord i n = coord i (dirVec d) -> holds (coord i n) (unitOf d i).
  Proof.
    intros n d i I ->. unfold unitOf. destruct i as [|[|[|i]]]; [| | |lia]; destruct d; cbn [coord dirVec vx vy vz axisOf Nat.eqb signOf]; lane.
  Qed.
  Lemma rep_prod : forall d i r, rep r -> rep (unitOf d i * r).
  Proof.
    intros d i r H. unfold unitOf. destruct Nat.eqb; [|apply rep_as with 0; [exact rep0|ring]].
    destruct d; cbn [signOf]; (apply rep_as with r; [exact H|ring]) || (apply rep_as with (- r); [exact (rep_neg _ H)|ring]).
  Qed.
  Lemma rep_along : forall d, rep (along d v).
  Proof. intros d. destruct (plane_dist d) as [F <-]. exact (rep_val _ F). Qed.
  Lemma plane_near : forall d, lanesAre (closestPointPlane p (dirPlane p d) v)
    (fun i => if Nat.eqb i (axisOf d) then 0 else val (coord i v)).
  Proof.
    intros d i I. pose proof (P i I) as F. pose proof (plane_dist d) as D.
    assert (N : holds (coord i (dirPlane p d)) (unitOf d i)) by (apply dir_lane; [exact I|destruct i as [|[|[|i]]]; [| | |lia]; destruct d; reflexivity]).
    pose proof (mul_is _ _ _ _ N D (rep_prod d i _ (rep_along d))) as M.
    assert (E : val (coord i v) - unitOf d i * along d v = if Nat.eqb i (axisOf d) then 0 else val (coord i v)).
    { unfold unitOf, along. destruct (Nat.eqb_spec i (axisOf d)) as [->|]; [|ring]. destruct d; cbn [signOf]; ring. }
    assert (K : holds (coord i v - coord i (dirPlane p d) * planeDistance p (dirPlane p d) v)%sc
                      (if Nat.eqb i (axisOf d) then 0 else val (coord i v))).
    { rewrite <- E. apply sub_is; [exact (conj F eq_refl)|exact M|]. rewrite E. destruct Nat.eqb; [exact rep0|exact (rep_val _ F)]. }
    destruct i as [|[|[|i]]]; [exact K|exact K|exact K|lia].
  Qed.
  Lemma ray_near : forall d, lanesAre (closestPointRay p (dirRay p d) v) (fun i => unitOf d i * Rmax (along d v) 0).
  Proof.
    intros d. unfold closestPointRay. cbv zeta.
    set (w := vsub (vadd (rorigin (dirRay p d)) (rdir (dirRay p d))) (rorigin (dirRay p d))).
    set (u := vsub v (rorigin (dirRay p d))).
    assert (O : forall i, (i <= 2)%nat -> holds (coord i (rorigin (dirRay p d))) 0).
    { intros i I. destruct i as [|[|[|i]]]; [| | |lia]; destruct d; exact zero_is. }
    assert (N : forall i, (i <= 2)%nat -> holds (coord i (rdir (dirRay p d))) (unitOf d i)).
    { intros i I. apply dir_lane; [exact I|]. destruct i as [|[|[|i]]]; [| | |lia]; destruct d; reflexivity. }
    assert (RN : forall i, rep (unitOf d i)) by (intros i; apply rep_as with (unitOf d i * 1); [apply rep_prod, rep1|ring]).
    assert (W : forall i, (i <= 2)%nat -> holds (coord i w) (unitOf d i)).
    { intros i I. assert (A : holds (coord i (rorigin (dirRay p d)) + coord i (rdir (dirRay p d)))%sc (0 + unitOf d i)).
      { apply add_is; [exact (O i I)|exact (N i I)|rewrite Rplus_0_l; apply RN]. }
      assert (B : holds (coord i (rorigin (dirRay p d)) + coord i (rdir (dirRay p d)) - coord i (rorigin (dirRay p d)))%sc (0 + unitOf d i - 0)).
      { apply sub_is; [exact A|exact (O i I)|]. apply rep_as with (unitOf d i); [apply RN|ring]. }
      apply is_eq with (0 + unitOf d i - 0); [|ring]. destruct i as [|[|[|i]]]; [exact B|exact B|exact B|lia]. }
    assert (U : forall i, (i <= 2)%nat -> holds (coord i u) (val (coord i v))).
    { intros i I. assert (B : holds (coord i v - coord i (rorigin (dirRay p d)))%sc (val (coord i v) - 0)).
      { apply sub_is; [exact (conj (P i I) eq_refl)|exact (O i I)|]. rewrite Rminus_0_r. exact (rep_val _ (P i I)). }
      rewrite Rminus_0_r in B. destruct i as [|[|[|i]]]; [exact B|exact B|exact B|lia]. }
    assert (T : holds (dot3 p u w / dot3 p w w)%sc (along d v)).
    { assert (T1 : holds (dot3 p u w) (along d v)).
      { eapply is_eq; [eapply dot_is; [exact (U 0%nat ltac:(lia))|exact (U 1%nat ltac:(lia))|exact (U 2%nat ltac:(lia))|
          exact (W 0%nat ltac:(lia))|exact (W 1%nat ltac:(lia))|exact (W 2%nat ltac:(lia))| | | | | ]|];
        pose proof Fx as X; pose proof Fy as Y; pose proof Fz as Z; unfold along, unitOf; destruct d; cbn [axisOf signOf coord Nat.eqb]; try repq; ring. }
      assert (T2 : holds (dot3 p w w) 1).
      { eapply is_eq; [eapply dot_is; [exact (W 0%nat ltac:(lia))|exact (W 1%nat ltac:(lia))|exact (W 2%nat ltac:(lia))|
          exact (W 0%nat ltac:(lia))|exact (W 1%nat ltac:(lia))|exact (W 2%nat ltac:(lia))| | | | | ]|];
        unfold unitOf; destruct d; cbn [axisOf signOf Nat.eqb]; try repq; ring. }
      apply is_eq with (along d v / 1); [|field]. apply div_is; [exact T1|exact T2|lra|].
      apply rep_as with (along d v); [exact (rep_along d)|field]. }
    assert (M : holds (stdmax (dot3 p u w / dot3 p w w)%sc f0) (Rmax (along d v) 0)).
    { destruct T as [T1 <-]. exact (max_f32 _ T1). }
    assert (RM : rep (Rmax (along d v) 0)) by (destruct M as [M1 <-]; exact (rep_val _ M1)).
    intros i I. set (t := stdmax _ f0) in *.
    assert (K : holds (simdfma p (coord i (rdir (dirRay p d))) t (coord i (rorigin (dirRay p d)))) (unitOf d i * Rmax (along d v) 0)).
    { pose proof (rep_prod d i _ RM) as RP. pose proof (N i I) as Ni. pose proof (O i I) as Oi.
      pose proof (mul_is _ _ _ _ Ni M RP) as Q.
      assert (R0 : rep (unitOf d i * Rmax (along d v) 0 + 0)) by (rewrite Rplus_0_r; exact RP).
      assert (R1 : rep (0 + unitOf d i * Rmax (along d v) 0)) by (rewrite Rplus_0_l; exact RP).
      pose proof (fma_is _ _ _ _ _ _ Ni M Oi R0) as G. rewrite Rplus_0_r in G.
      pose proof (add_is _ _ _ _ Oi Q R1) as H. rewrite Rplus_0_l in H.
      unfold simdfma. destruct p; assumption. }
    destruct i as [|[|[|i]]]; [exact K|exact K|exact K|lia].
  Qed.
End Point.

Lemma lane_by : forall (x y : f32) r, is_finite 24 128 x = true -> Bcompare 24 128 x y = Some Eq -> holds y r -> holds x r.
Proof.
  intros x y r F C [G <-]. split; [exact F|]. rewrite (Bcompare_correct 24 128 x y F G) in C. injection C as C. apply Rcompare_Eq_inv, C.
Qed.
Ltac byz := apply lane_by with f0; [vm_compute; reflexivity|vm_compute; reflexivity|exact zero_is].
Ltac byo := apply lane_by with f1; [vm_compute; reflexivity|vm_compute; reflexivity|exact one_is].
Ltac bym := apply lane_by with (slit (-1) 0); [vm_compute; reflexivity|vm_compute; reflexivity|exact minus_is].

Theorem names_agree : forall p d, lanesAre (dirVec d) (unitOf d) /\
  lanesAre (dirPlane p d) (unitOf d) /\ holds (vw (dirPlane p d)) 0 /\
  lanesAre (rdir (dirRay p d)) (unitOf d) /\ lanesAre (rorigin (dirRay p d)) (fun _ => 0).
Proof.
  intros p d. split; [|split; [|split; [|split]]].
  - intros i I. apply dir_lane; [exact I|reflexivity].
  - intros i I. apply dir_lane; [exact I|destruct i as [|[|[|i]]]; [| | |lia]; destruct d; reflexivity].
  - destruct d; exact zero_is.
  - intros i I. apply dir_lane; [exact I|destruct i as [|[|[|i]]]; [| | |lia]; destruct d; reflexivity].
  - intros i I. destruct i as [|[|[|i]]]; [| | |lia]; destruct d; exact zero_is.
Qed.
Theorem crossed : forall p, lanesAre (cross3 p (dirVec Right) (dirVec Top)) (unitOf Front) /\
  lanesAre (cross3 p (dirVec Top) (dirVec Front)) (unitOf Right) /\ lanesAre (cross3 p (dirVec Front) (dirVec Right)) (unitOf Top).
Proof.
  intros p. split; [|split]; intros i I; (destruct i as [|[|[|i]]]; [| | |lia]); cbn [unitOf Nat.eqb axisOf signOf];
    destruct p; (byz || byo || bym).
Qed.
Theorem looking_front : forall p, isIdentity (lookAt p (dup4 f0) (dirVec Front) (dirVec Top)) /\
  isIdentity (rotateLook p (dup4 f0) (dirVec Front) (dirVec Top)) /\ isIdentity (rotateFront p (dirVec Front) (dirVec Top)).
Proof.
  intros p. split; [|split]; intros i j I J; (destruct i as [|[|[|[|i]]]]; [| | | |lia]); (destruct j as [|[|[|[|j]]]]; [| | | |lia]);
    cbn [Nat.eqb column]; destruct p; (byz || byo || bym).
Qed.
Theorem planes_exact : forall p v, place v -> forall d,
  (fin (planeDistance p (dirPlane p d) v) /\ val (planeDistance p (dirPlane p d) v) = along d v) /\
  lanesAre (closestPointPlane p (dirPlane p d) v) (fun i => if Nat.eqb i (axisOf d) then 0 else val (coord i v)).
Proof. intros p v P d. split; [exact (plane_dist p v P d)|exact (plane_near p v P d)]. Qed.
Theorem ex_place : let v := V4 (slit (-1) 0) f1 f0 f0 : vec4 f32 in place v /\ along Top v = 1 /\ along Right v = -1 /\ along Left v = 1.
Proof.
  destruct zero_is as [Z0 Z1], one_is as [O0 O1], minus_is as [M0 M1]. cbv zeta. split.
  - intros i I. destruct i as [|[|[|i]]]; cbn [coord vx vy vz]; [exact M0|exact O0|exact Z0|lia].
  - unfold along. cbn [coord vx vy vz axisOf signOf]. rewrite O1, M1. lra.
Qed.
