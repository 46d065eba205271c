(** Comparison, equality and arithmetic of the float vectors (C124). *)
From Coq Require Import ZArith Reals Bool List Lia Lra.
From Flocq Require Import Core.Core IEEE754.BinarySingleNaN IEEE754.Binary IEEE754.Bits.
From Verif.Model Require Import Outcome Scalar Vec Simd IntVec FloatVec.
From Verif.Spec Require Import OrderSpec IntSpec FloatSpec.
From Verif.Proofs Require Import OrdScalar F32Round F32Err IntProofs IntArith.
Import ListNotations.
Local Open Scope R_scope.

Lemma denotes_cases : forall x : f32,
  (is_nan 24 128 x = true /\ denotes x = NotNumber) \/
  (num x /\ ((denotes x = NegInf /\ ext x = - maxF) \/ (denotes x = PosInf /\ ext x = maxF) \/
             (fin x /\ denotes x = Real (val x) /\ ext x = val x))).
Proof.
  intros [s|[]|s pl H|s m e H]; cbn; auto 10.
Qed.
Lemma nan_cmp : forall a b : f32, is_nan 24 128 a = true \/ is_nan 24 128 b = true ->
  slt a b = false /\ sle a b = false /\ seq a b = false.
Proof.
  intros a b [H|H]; [destruct a; try discriminate | destruct b; try discriminate; destruct a as [|[]| |[]]];
    repeat split; reflexivity.
Qed.
Lemma real_inj : forall x y, Real x = Real y <-> x = y.
Proof. intros; split; [intro H; injection H; auto | intros ->; reflexivity]. Qed.
Lemma below_iff : forall a b : f32, slt a b = true <-> below (denotes a) (denotes b).
Proof.
  intros a b.
  destruct (denotes_cases a) as [(Na & ->) | (Na & Ha)].
  { destruct (nan_cmp a b (or_introl Na)) as (-> & _). cbn. split; [discriminate | tauto]. }
  destruct (denotes_cases b) as [(Nb & ->) | (Nb & Hb)].
  { destruct (nan_cmp a b (or_intror Nb)) as (-> & _).
    destruct (denotes a); cbn; (split; [discriminate | tauto]). }
  rewrite slt_iff by assumption. pose proof maxF_pos.
  pose proof (B2R_bound a). pose proof (B2R_bound b).
  destruct Ha as [(-> & Ea) | [(-> & Ea) | (Fa & -> & Ea)]], Hb as [(-> & Eb) | [(-> & Eb) | (Fb & -> & Eb)]];
    rewrite Ea, Eb; cbn [below]; (split; [intros; try exact I; lra | intros; try tauto; lra]).
Qed.
Lemma same_iff : forall a b : f32, seq a b = true <-> same (denotes a) (denotes b).
Proof.
  intros a b. unfold same.
  destruct (denotes_cases a) as [(Na & ->) | (Na & Ha)].
  { destruct (nan_cmp a b (or_introl Na)) as (_ & _ & ->). split; [discriminate | tauto]. }
  destruct (denotes_cases b) as [(Nb & ->) | (Nb & Hb)].
  { destruct (nan_cmp a b (or_intror Nb)) as (_ & _ & ->).
    split; [discriminate | intros [A B]; congruence]. }
  rewrite seq_iff by assumption. pose proof maxF_pos.
  pose proof (B2R_bound a). pose proof (B2R_bound b).
  destruct Ha as [(-> & Ea) | [(-> & Ea) | (Fa & -> & Ea)]], Hb as [(-> & Eb) | [(-> & Eb) | (Fb & -> & Eb)]];
    rewrite Ea, Eb; (split; [intros E; first [exfalso; lra | split; [discriminate | first [reflexivity | f_equal; exact E]]]
                            | intros [_ E]; try discriminate E; try reflexivity; injection E; auto]).
Qed.
Lemma le_iff : forall a b : f32, sle a b = true <-> below (denotes a) (denotes b) \/ same (denotes a) (denotes b).
Proof.
  intros a b. rewrite <- below_iff, <- same_iff.
  destruct (is_nan 24 128 a) eqn:Na.
  { destruct (nan_cmp a b (or_introl Na)) as (-> & -> & ->). split; [discriminate | intros []; discriminate]. }
  destruct (is_nan 24 128 b) eqn:Nb.
  { destruct (nan_cmp a b (or_intror Nb)) as (-> & -> & ->). split; [discriminate | intros []; discriminate]. }
  rewrite sle_iff, slt_iff, seq_iff by assumption. lra.
Qed.
Lemma same_sym : forall x y, same x y <-> same y x.
Proof. intros x y. unfold same. split; intros [A <-]; auto. Qed.
Lemma frel_lane : forall c (a b : f32), fcmpLane c a b = true <-> frel c a b.
Proof.
  intros [] a b; unfold fcmpLane, frel, sgt, sge; cbv zeta.
  - apply below_iff.
  - apply below_iff.
  - apply le_iff.
  - rewrite le_iff, (same_sym (denotes b)). reflexivity.
  - apply same_iff.
  - rewrite negb_true_iff, <- same_iff. destruct (seq a b); split; congruence.
Qed.
Lemma frel_mask : forall c (a b : f32), maskFor (frel c a b) (maskOf (fcmpLane c a b)).
Proof.
  intros c a b. unfold maskFor. rewrite <- frel_lane.
  destruct (fcmpLane c a b); [left | right]; split; auto.
Qed.
Ltac lanes := repeat first [apply F3_cons; [cbv beta | ] | apply F3_nil].
Lemma fcompare2_lanes : forall c a b,
  Forall3 (fun x y m => maskFor (frel c x y) m) (lanes2 a) (lanes2 b) (lanes2 (fcompare2 c a b)).
Proof. intros. unfold lanes2. lanes; apply frel_mask. Qed.
Lemma fcompare3_lanes : forall c a b,
  Forall3 (fun x y m => maskFor (frel c x y) m) (lanes3 a) (lanes3 b) (lanes3 (fcompare3 c a b)).
Proof. intros. unfold lanes3. lanes; apply frel_mask. Qed.
Lemma fcompare4_lanes : forall c a b,
  Forall3 (fun x y m => maskFor (frel c x y) m) (lanes4 a) (lanes4 b) (lanes4 (fcompare4 c a b)).
Proof. intros. unfold lanes4. lanes; apply frel_mask. Qed.
Lemma fcompareS_is : forall c (a b : vec4 f32), fcompareS c a b = fcompare4 c a b.
Proof. intros [] a b; reflexivity. Qed.
Lemma fcompareS_lanes : forall c (a b : vec4 f32),
  Forall3 (fun x y m => maskFor (frel c x y) m) (lanes4 a) (lanes4 b) (lanes4 (fcompareS c a b)).
Proof. intros. rewrite fcompareS_is. apply fcompare4_lanes. Qed.
Lemma equalF2_lanes : forall (a : vec2 f32) b,
  Forall3 (fun x y m => maskFor (frel CEq x y) m) (lanes2 a) [vx b; vy b] (lanes2 (equalF2 a b)) /\
  Forall3 (fun x y m => maskFor (frel CNe x y) m) (lanes2 a) [vx b; vy b] (lanes2 (notEqualF2 a b)).
Proof.
  intros a b. unfold lanes2. split; lanes;
    first [apply (frel_mask CEq) | apply (frel_mask CNe)].
Qed.
(** comparison with a number *)
Lemma number_right : forall c (n : f32),
  (forall v, Forall2 (fun x m => maskFor (frel c x n) m) (lanes2 v) (lanes2 (fcompareN2 c v n))) /\
  (forall v, Forall2 (fun x m => maskFor (frel c x n) m) (lanes3 v) (lanes3 (fcompareN3 c v n))) /\
  (forall v, Forall2 (fun x m => maskFor (frel c x n) m) (lanes4 v) (lanes4 (fcompareN4 c v n))) /\
  (forall v, Forall2 (fun x m => maskFor (frel c x n) m) (lanes4 v) (lanes4 (fcompareSN c v n))).
Proof.
  intros c n. unfold fcompareSN. repeat split; intros v; try rewrite fcompareS_is;
    repeat first [apply Forall2_cons; [apply frel_mask|] | apply Forall2_nil].
Qed.
Lemma number_left : forall c (n : f32),
  (forall v, Forall2 (fun x m => maskFor (frel c n x) m) (lanes2 v) (lanes2 (nfcompare2 c n v))) /\
  (forall v, Forall2 (fun x m => maskFor (frel c n x) m) (lanes3 v) (lanes3 (nfcompare3 c n v))) /\
  (forall v, Forall2 (fun x m => maskFor (frel c n x) m) (lanes4 v) (lanes4 (nfcompare4 c n v))) /\
  (forall v, Forall2 (fun x m => maskFor (frel c n x) m) (lanes4 v) (lanes4 (nfcompareS c n v))).
Proof.
  intros c n. unfold nfcompareS. repeat split; intros v; try rewrite fcompareS_is;
    repeat first [apply Forall2_cons; [apply frel_mask|] | apply Forall2_nil].
Qed.
Lemma seq_sym32 : forall a b : f32, seq a b = seq b a.
Proof.
  intros a b. apply eq_true_iff_eq. rewrite !same_iff. apply same_sym.
Qed.
Lemma mirror_lane : forall c (a b : f32), fcmpLane c a b = fcmpLane (mirrored c) b a.
Proof. intros [] a b; cbn [fcmpLane mirrored]; try reflexivity; rewrite seq_sym32; reflexivity. Qed.
Lemma mirror_all : forall c,
  (forall a b : vec2 f32, fcompare2 c a b = fcompare2 (mirrored c) b a) /\
  (forall a b : vec3 f32, fcompare3 c a b = fcompare3 (mirrored c) b a) /\
  (forall a b : vec4 f32, fcompare4 c a b = fcompare4 (mirrored c) b a) /\
  (forall a b : vec4 f32, fcompareS c a b = fcompareS (mirrored c) b a) /\
  (forall n (v : vec2 f32), nfcompare2 c n v = fcompareN2 (mirrored c) v n) /\
  (forall n (v : vec3 f32), nfcompare3 c n v = fcompareN3 (mirrored c) v n) /\
  (forall n (v : vec4 f32), nfcompare4 c n v = fcompareN4 (mirrored c) v n) /\
  (forall n (v : vec4 f32), nfcompareS c n v = fcompareSN (mirrored c) v n).
Proof.
  intros c. unfold nfcompareS, fcompareSN.
  repeat split; intros; try rewrite !fcompareS_is;
    unfold nfcompare2, nfcompare3, nfcompare4, fcompareN2, fcompareN3, fcompareN4, fcompare2, fcompare3, fcompare4,
      map2_2, map2_3, map2_4; rewrite !(mirror_lane c); reflexivity.
Qed.
Lemma nan_lane : forall c (a b : f32), denotes a = NotNumber \/ denotes b = NotNumber ->
  (frel c a b <-> c = CNe).
Proof.
  intros c a b H.
  assert (B : ~ below (denotes a) (denotes b) /\ ~ below (denotes b) (denotes a) /\ ~ same (denotes a) (denotes b)).
  { unfold same. destruct H as [-> | ->].
    - repeat split; cbn; auto; destruct (denotes b); cbn; auto; intros [? ?]; congruence.
    - repeat split; cbn; auto; destruct (denotes a); cbn; auto; intros [? ?]; congruence. }
  destruct B as (B1 & B2 & B3).
  destruct c; unfold frel; cbv zeta; (split; [intros; try reflexivity; tauto | intros; try discriminate; tauto]).
Qed.

(** equality *)
Ltac f2 := repeat first [apply Forall2_cons; [first [assumption | tauto]|] | apply Forall2_nil
                        | apply Forall_cons; [first [assumption | tauto]|] | apply Forall_nil].
Lemma and_true : forall a b, a && b = true <-> a = true /\ b = true.
Proof. intros [] []; intuition. Qed.
Lemma feq2_iff : forall a b : vec2 f32, feq2 a b = true <-> Forall2 (frel CEq) (lanes2 a) (lanes2 b).
Proof.
  intros a b. unfold feq2, lanes2. rewrite and_true, !same_iff. split.
  - intros (H1 & H2). f2.
  - intros H. inversion_clear H as [|? ? ? ? A H']. inversion_clear H' as [|? ? ? ? B _]. auto.
Qed.
Lemma feq3_iff : forall a b : vec3 f32, feq3 a b = true <-> Forall2 (frel CEq) (lanes3 a) (lanes3 b).
Proof.
  intros a b. unfold feq3, lanes3. rewrite !and_true, !same_iff. split.
  - intros ((H1 & H2) & H3). f2.
  - intros H. inversion_clear H as [|? ? ? ? A H']. inversion_clear H' as [|? ? ? ? B H'']. inversion_clear H'' as [|? ? ? ? C _]. auto.
Qed.
Lemma feq4_iff : forall a b : vec4 f32, feq4 a b = true <-> Forall2 (frel CEq) (lanes4 a) (lanes4 b).
Proof.
  intros a b. unfold feq4, lanes4. rewrite !and_true, !same_iff. split.
  - intros (((H1 & H2) & H3) & H4). f2.
  - intros H. inversion_clear H as [|? ? ? ? A H']. inversion_clear H' as [|? ? ? ? B H'']. inversion_clear H'' as [|? ? ? ? C H3].
    inversion_clear H3 as [|? ? ? ? D _]. auto.
Qed.
Lemma feqS_is : forall p (a b : vec4 f32), feqS p a b = feq4 a b.
Proof.
  intros p a b. unfold feqS, feq4, veq, map2_4, getTrues4, zmin4, maskOf. cbn [vx vy vz vw].
  destruct (seq (vx a) (vx b)), (seq (vy a) (vy b)), (seq (vz a) (vz b)), (seq (vw a) (vw b)), p; reflexivity.
Qed.
Lemma fneS_is : forall p (a b : vec4 f32), fneS p a b = negb (feq4 a b).
Proof.
  intros p a b. unfold fneS, fne4, feq4, veq, map2_4, getTrues4, zmin4, maskOf. cbn [vx vy vz vw].
  destruct (seq (vx a) (vx b)), (seq (vy a) (vy b)), (seq (vz a) (vz b)), (seq (vw a) (vw b)), p; reflexivity.
Qed.
Lemma equality_all :
  (forall a b : vec2 f32, feq2 a b = true <-> Forall2 (frel CEq) (lanes2 a) (lanes2 b)) /\
  (forall a b : vec3 f32, feq3 a b = true <-> Forall2 (frel CEq) (lanes3 a) (lanes3 b)) /\
  (forall a b : vec4 f32, feq4 a b = true <-> Forall2 (frel CEq) (lanes4 a) (lanes4 b)) /\
  (forall p (a b : vec4 f32), feqS p a b = true <-> Forall2 (frel CEq) (lanes4 a) (lanes4 b)).
Proof.
  split; [apply feq2_iff|]. split; [apply feq3_iff|]. split; [apply feq4_iff|].
  intros p a b. rewrite feqS_is. apply feq4_iff.
Qed.
Lemma number_equality : forall n : f32,
  (forall v, feqN2 v n = true <-> Forall (fun x => frel CEq x n) (lanes2 v)) /\
  (forall v, feqN3 v n = true <-> Forall (fun x => frel CEq x n) (lanes3 v)) /\
  (forall v, feqN4 v n = true <-> Forall (fun x => frel CEq x n) (lanes4 v)).
Proof.
  intros n. split; [|split]; intros v; unfold feqN2, feqN3, feqN4;
    rewrite ?feq2_iff, ?feq3_iff, ?feq4_iff; (split; intros H).
  all: repeat match goal with
         | H : Forall2 _ (_ :: _) _ |- _ => inversion_clear H
         | H : Forall2 _ (lanes2 _) _ |- _ => unfold lanes2 in H
         | H : Forall2 _ (lanes3 _) _ |- _ => unfold lanes3 in H
         | H : Forall2 _ (lanes4 _) _ |- _ => unfold lanes4 in H
         | H : Forall _ (lanes2 _) |- _ => unfold lanes2 in H
         | H : Forall _ (lanes3 _) |- _ => unfold lanes3 in H
         | H : Forall _ (lanes4 _) |- _ => unfold lanes4 in H
         | H : Forall _ (_ :: _) |- _ => inversion_clear H
         end; f2.
Qed.
Lemma inequality_all :
  (forall a b : vec2 f32, fne2 a b = negb (feq2 a b)) /\ (forall a b : vec3 f32, fne3 a b = negb (feq3 a b)) /\
  (forall a b : vec4 f32, fne4 a b = negb (feq4 a b)) /\ (forall p (a b : vec4 f32), fneS p a b = negb (feqS p a b)).
Proof.
  repeat split; intros.
  - unfold fne2, feq2. destruct (seq (x2 a) (x2 b)), (seq (y2 a) (y2 b)); reflexivity.
  - unfold fne3, feq3. destruct (seq (x3 a) (x3 b)), (seq (y3 a) (y3 b)), (seq (z3 a) (z3 b)); reflexivity.
  - unfold fne4, feq4. destruct (seq (vx a) (vx b)), (seq (vy a) (vy b)), (seq (vz a) (vz b)), (seq (vw a) (vw b)); reflexivity.
  - rewrite fneS_is, feqS_is. reflexivity.
Qed.
Lemma self_equal : forall v : vec4 f32, (forall p, feqS p v v = feq4 v v) /\
  (feq4 v v = true <-> Forall (fun x => denotes x <> NotNumber) (lanes4 v)).
Proof.
  intros v. split; [intros p; apply feqS_is|]. rewrite feq4_iff. unfold lanes4, frel, same. cbv zeta. split; intros H.
  - repeat match goal with H : Forall2 _ (_ :: _) _ |- _ => inversion_clear H end. f2.
  - repeat match goal with H : Forall _ (_ :: _) |- _ => inversion_clear H end. f2.
Qed.

(** arithmetic *)
#[local] Instance fexp_ok' : Valid_exp (SpecFloat.fexp 24 128) := fexp_correct 24 128 eq_refl.
Lemma maxFinite_val : maxFinite = IZR 16777215 * bpow radix2 104.
Proof.
  unfold maxFinite. change (bpow radix2 104) with (IZR (2 ^ 104)). rewrite <- mult_IZR. f_equal.
Qed.
Lemma maxFinite_lt : maxFinite < maxF.
Proof. unfold maxFinite. change maxF with (IZR (2 ^ 128)). apply IZR_lt. reflexivity. Qed.
Lemma in_range : forall z, Rabs z <= maxFinite -> Rabs (rnd z) < maxF.
Proof.
  intros z H. rewrite maxFinite_val in H.
  apply rnd_abs_le in H; [|reflexivity|lia]. rewrite <- maxFinite_val in H.
  pose proof maxFinite_lt. lra.
Qed.
Lemma rnd_closest : forall z w, generic_format radix2 (SpecFloat.fexp 24 128) w -> Rabs (rnd z - z) <= Rabs (w - z).
Proof.
  intros z w Fw.
  pose proof (round_N_pt radix2 (SpecFloat.fexp 24 128) (fun x => negb (Z.even x)) z) as [_ H].
  apply H. exact Fw.
Qed.
Lemma denotes_real : forall (x : f32) r, denotes x = Real r -> fin x /\ val x = r.
Proof.
  intros [s|[]|s pl H|s m e H] r E; try discriminate E; cbn [denotes] in E; injection E as <-; split; reflexivity.
Qed.
Lemma closest_of : forall z (r : f32), num r -> ext r = RX z -> Rabs z <= maxFinite -> closest z r.
Proof.
  intros z r Nr Er Hz. pose proof (in_range z Hz) as B.
  rewrite (RX_normal z) in Er by (apply Rlt_bool_true; exact B).
  assert (Fr : fin r) by (apply ext_fin; [exact Nr | rewrite Er; apply Rabs_lt_inv; exact B]).
  rewrite fin_ext in Er by exact Fr.
  exists (val r). split.
  - destruct (denotes_cases r) as [(N & _) | (_ & [(_ & E) | [(_ & E) | (_ & D & _)]])].
    + unfold num in Nr; cbn in Nr; congruence.
    + rewrite fin_ext in E by exact Fr. exfalso. pose proof (B2R_bound r). lra.
    + rewrite fin_ext in E by exact Fr. exfalso. pose proof (B2R_bound r). lra.
    + exact D.
  - intros y w Hy. rewrite Er. apply rnd_closest.
    destruct (denotes_real y w Hy) as (_ & <-). apply generic_format_B2R.
Qed.
Lemma lane_nearest : forall o (a b : f32), nearestOf o a b (flane o a b).
Proof.
  intros o a b x y z Ha Hb He Hz.
  destruct (denotes_real a x Ha) as (Fa & Va). destruct (denotes_real b y Hb) as (Fb & Vb).
  destruct o; cbn [exactly] in He; cbn [flane].
  - destruct (add_fin a b Fa Fb) as (N & E). apply closest_of; [exact N | rewrite E, Va, Vb, He; reflexivity | exact Hz].
  - destruct (sub_fin a b Fa Fb) as (N & E). apply closest_of; [exact N | rewrite E, Va, Vb, He; reflexivity | exact Hz].
  - destruct (mul_fin a b Fa Fb) as (N & E). apply closest_of; [exact N | rewrite E, Va, Vb, He; reflexivity | exact Hz].
  - destruct He as (Hy & He). destruct (div_fin a b Fa Fb) as (N & E); [rewrite Vb; exact Hy|].
    apply closest_of; [exact N | | exact Hz]. rewrite E, Va, Vb. f_equal. rewrite He. field. exact Hy.
Qed.

Lemma mul_lane_comm : forall a b : f32, nearestOf AMul a b (smul b a).
Proof.
  intros a b x y z Ha Hb He Hz.
  apply (lane_nearest AMul b a y x z Hb Ha); [|exact Hz]. cbn [exactly] in *. lra.
Qed.
Lemma arith_all : forall o,
  (forall a b, Forall3 (nearestOf o) (lanes2 a) (lanes2 b) (lanes2 (fop2 o a b))) /\
  (forall a b, Forall3 (nearestOf o) (lanes3 a) (lanes3 b) (lanes3 (fop3 o a b))) /\
  (forall a b, Forall3 (nearestOf o) (lanes4 a) (lanes4 b) (lanes4 (fop4 o a b))) /\
  (forall a b, Forall3 (nearestOf o) (lanes4 a) (lanes4 b) (lanes4 (fopS o a b))).
Proof.
  intros o. unfold lanes2, lanes3, lanes4. repeat split; intros; lanes; try apply lane_nearest;
    destruct o; apply lane_nearest.
Qed.
Lemma arith_number : forall o (n : f32),
  (forall v, Forall2 (fun x r => nearestOf o x n r) (lanes2 v) (lanes2 (fopN2 o v n))) /\
  (forall v, Forall2 (fun x r => nearestOf o x n r) (lanes3 v) (lanes3 (fopN3 o v n))) /\
  (forall v, Forall2 (fun x r => nearestOf o x n r) (lanes4 v) (lanes4 (fopN4 o v n))) /\
  (forall v, Forall2 (fun x r => nearestOf o x n r) (lanes4 v) (lanes4 (fopSN o v n))).
Proof.
  intros o n. unfold lanes2, lanes3, lanes4. split; [|split; [|split]]; intros v.
  1-3: repeat first [apply Forall2_cons; [apply lane_nearest|] | apply Forall2_nil].
  destruct o; repeat first [apply Forall2_cons; [apply lane_nearest|] | apply Forall2_nil].
Qed.
Lemma number_arith : forall o (n : f32),
  (forall v, Forall2 (fun x r => nearestOf o n x r) (lanes2 v) (lanes2 (nfop2 o n v))) /\
  (forall v, Forall2 (fun x r => nearestOf o n x r) (lanes3 v) (lanes3 (nfop3 o n v))) /\
  (forall v, Forall2 (fun x r => nearestOf o n x r) (lanes4 v) (lanes4 (nfop4 o n v))) /\
  (forall p v, Forall2 (fun x r => nearestOf o n x r) (lanes4 v) (lanes4 (nfopS p o n v))).
Proof.
  intros o n. unfold lanes2, lanes3, lanes4. split; [|split; [|split]].
  1-3: intros v; repeat first [apply Forall2_cons; [apply lane_nearest|] | apply Forall2_nil].
  intros p v. destruct p, o;
    repeat first [apply Forall2_cons; [first [apply lane_nearest | apply mul_lane_comm]|] | apply Forall2_nil].
Qed.
