(** The triangle-box test in binary32. *)
From Coq Require Import ZArith Bool List Reals Lra Lia Psatz.
From Flocq Require Import Core.Core IEEE754.BinarySingleNaN IEEE754.Binary IEEE754.Bits.
From Verif.Model Require Import Outcome Scalar Vec Simd Aabb Matrix Geometry.
From Verif.Spec Require Import GeomSpec EuclidSpec LaneSpec SatErrSpec.
From Verif.Proofs Require Import OrdScalar F32Round F32Err NormProofs RayErr SahCosts NumericProofs LaneProofs SatSeparate Sat SphereErr AabbWitness ShLoop.
Import ListNotations.
Local Open Scope R_scope.
Notation U := (/ 16777216) (only parsing).

(** ** Multiples of a power of two *)
Definition grid (e : Z) (x : R) : Prop := exists k : Z, x = IZR k * bpow radix2 e.
Lemma grid_sub : forall e x y, grid e x -> grid e y -> grid e (x - y).
Proof. intros e x y (k & ->) (m & ->). exists (k - m)%Z. rewrite minus_IZR. ring. Qed.
Lemma grid_add : forall e x y, grid e x -> grid e y -> grid e (x + y).
Proof. intros e x y (k & ->) (m & ->). exists (k + m)%Z. rewrite plus_IZR. ring. Qed.
Lemma grid_mul : forall e f x y, grid e x -> grid f y -> grid (e + f) (x * y).
Proof. intros e f x y (k & ->) (m & ->). exists (k * m)%Z. rewrite mult_IZR, bpow_plus. ring. Qed.
Lemma grid_opp : forall e x, grid e x -> grid e (- x).
Proof. intros e x (k & ->). exists (- k)%Z. rewrite opp_IZR. ring. Qed.
Lemma grid_abs : forall e x, grid e x -> grid e (Rabs x).
Proof. intros e x H. unfold Rabs. destruct Rcase_abs; [apply grid_opp|]; exact H. Qed.
Lemma grid_0 : forall e, grid e 0.
Proof. intros e. exists 0%Z. ring. Qed.
Lemma grid_finer : forall e f x, (f <= e)%Z -> grid e x -> grid f x.
Proof.
  intros e f x H (k & ->). exists (k * 2 ^ (e - f))%Z. rewrite mult_IZR. rewrite (IZR_Zpower radix2) by lia.
  rewrite Rmult_assoc, <- bpow_plus. do 2 f_equal. lia.
Qed.
Lemma grid_gap : forall e x, grid e x -> x = 0 \/ bpow radix2 e <= Rabs x.
Proof.
  intros e x (k & ->). destruct (Z.eq_dec k 0) as [->|N]; [left; ring|right].
  rewrite Rabs_mult, (Rabs_pos_eq (bpow radix2 e)) by apply bpow_ge_0. rewrite <- abs_IZR.
  rewrite <- (Rmult_1_l (bpow radix2 e)) at 1. apply Rmult_le_compat_r; [apply bpow_ge_0|]. apply IZR_le. lia.
Qed.
#[local] Instance prec24' : Prec_gt_0 24 := eq_refl.
#[local] Instance fexp_ok' : Valid_exp (SpecFloat.fexp 24 128) := fexp_correct 24 128 eq_refl.
Lemma rnd_grid : forall e x, (-149 <= e)%Z -> grid e x -> grid e (rnd x).
Proof.
  intros e x He G. pose proof G as G0. destruct G as (k & Ex).
  destruct (Z_lt_le_dec (Z.abs k) (2 ^ 24)) as [S|L].
  - rewrite Ex, rnd_lit by assumption. exists k. reflexivity.
  - assert (B : bpow radix2 (e + 24) <= Rabs x).
    { rewrite Ex, Rabs_mult, (Rabs_pos_eq (bpow radix2 e)) by apply bpow_ge_0. rewrite <- abs_IZR, Z.add_comm, bpow_plus.
      apply Rmult_le_compat_r; [apply bpow_ge_0|]. rewrite <- (IZR_Zpower radix2) by lia. apply IZR_le. exact L. }
    assert (F : generic_format radix2 (SpecFloat.fexp 24 128) (rnd x)) by (apply generic_format_round; auto with typeclass_instances).
    assert (B' : bpow radix2 (e + 24) <= Rabs (rnd x)).
    { apply abs_round_ge_generic; auto with typeclass_instances.
      apply generic_format_bpow. unfold SpecFloat.fexp, SpecFloat.emin. lia. }
    unfold generic_format in F. set (m := Ztrunc (scaled_mantissa radix2 (SpecFloat.fexp 24 128) (rnd x))) in F.
    set (c := cexp radix2 (SpecFloat.fexp 24 128) (rnd x)) in F.
    assert (Hc : (e <= c)%Z).
    { unfold c, cexp. pose proof (mag_ge_bpow radix2 (rnd x) (e + 24 + 1)) as MG.
      replace (e + 24 + 1 - 1)%Z with (e + 24)%Z in MG by lia. specialize (MG B'). unfold SpecFloat.fexp, SpecFloat.emin. lia. }
    rewrite F. apply (grid_finer c); [exact Hc|]. exists m. reflexivity.
Qed.
Lemma rnd_rel : forall e x, (-126 <= e)%Z -> grid e x -> Rabs (rnd x - x) <= U * Rabs x.
Proof.
  intros e x He G. destruct (grid_gap e x G) as [->|B].
  - rewrite rnd_0, Rminus_0_r, Rabs_R0. lra.
  - destruct (rel_normal x) as (d & Hd & ->); [eapply Rle_trans; [|exact B]; apply bpow_le; exact He|].
    rewrite u24_val in Hd. replace (x * (1 + d) - x) with (d * x) by ring. rewrite Rabs_mult. apply Rmult_le_compat_r; [apply Rabs_pos|exact Hd].
Qed.

(** ** Operations *)
Definition gnum (e : Z) (B : R) (x : f32) : Prop := fin x /\ grid e (val x) /\ Rabs (val x) <= B.
Lemma rel_bound : forall x X B, Rabs (x - X) <= U * Rabs X -> Rabs X <= B -> Rabs x <= 1.01 * B.
Proof.
  intros x X B H1 H2. pose proof (Rabs_pos X). replace x with ((x - X) + X) by ring.
  eapply Rle_trans; [apply Rabs_triang|]. lra.
Qed.
Lemma g_sub : forall e B C (a b : f32), (-126 <= e)%Z -> gnum e B a -> gnum e C b -> B + C <= 100000000000000000000000000000000000000 ->
  gnum e (1.01 * (B + C)) (a - b)%sc /\ Rabs (val (a - b)%sc - (val a - val b)) <= U * Rabs (val a - val b).
Proof.
  intros e B C a b He (Fa & Ga & Ba) (Fb & Gb & Bb) HB.
  assert (BD : Rabs (val a - val b) <= B + C) by (apply abs2 in Ba, Bb; apply Rabs_le; lra).
  destruct (sub_small a b Fa Fb) as [F V]; [apply small_num; lra|].
  assert (G : grid e (val a - val b)) by (apply grid_sub; assumption).
  assert (E : Rabs (val (a - b)%sc - (val a - val b)) <= U * Rabs (val a - val b)) by (rewrite V; apply (rnd_rel e); assumption).
  split; [|exact E]. split; [exact F|]. split; [rewrite V; apply rnd_grid; [lia|exact G]|]. eapply rel_bound; eassumption.
Qed.
Lemma g_add : forall e B C (a b : f32), (-126 <= e)%Z -> gnum e B a -> gnum e C b -> B + C <= 100000000000000000000000000000000000000 ->
  gnum e (1.01 * (B + C)) (a + b)%sc /\ Rabs (val (a + b)%sc - (val a + val b)) <= U * Rabs (val a + val b).
Proof.
  intros e B C a b He (Fa & Ga & Ba) (Fb & Gb & Bb) HB.
  assert (BD : Rabs (val a + val b) <= B + C) by (apply abs2 in Ba, Bb; apply Rabs_le; lra).
  destruct (add_small a b Fa Fb) as [F V]; [apply small_num; lra|].
  assert (G : grid e (val a + val b)) by (apply grid_add; assumption).
  assert (E : Rabs (val (a + b)%sc - (val a + val b)) <= U * Rabs (val a + val b)) by (rewrite V; apply (rnd_rel e); assumption).
  split; [|exact E]. split; [exact F|]. split; [rewrite V; apply rnd_grid; [lia|exact G]|]. eapply rel_bound; eassumption.
Qed.
Lemma g_mul : forall e f B C (a b : f32), (-126 <= e + f)%Z -> gnum e B a -> gnum f C b -> B * C <= 100000000000000000000000000000000000000 ->
  gnum (e + f) (1.01 * (B * C)) (a * b)%sc /\ Rabs (val (a * b)%sc - val a * val b) <= U * Rabs (val a * val b).
Proof.
  intros e f B C a b He (Fa & Ga & Ba) (Fb & Gb & Bb) HB.
  assert (BD : Rabs (val a * val b) <= B * C) by (rewrite Rabs_mult; apply Rmult_le_compat; try apply Rabs_pos; assumption).
  destruct (mul_small a b Fa Fb) as [F V]; [apply small_num; lra|].
  assert (G : grid (e + f) (val a * val b)) by (apply grid_mul; assumption).
  assert (E : Rabs (val (a * b)%sc - val a * val b) <= U * Rabs (val a * val b)) by (rewrite V; apply (rnd_rel (e + f)); assumption).
  split; [|exact E]. split; [exact F|]. split; [rewrite V; apply rnd_grid; [lia|exact G]|]. eapply rel_bound; eassumption.
Qed.
Lemma g_neg : forall e B (a : f32), gnum e B a -> gnum e B (- a)%sc /\ val (- a)%sc = - val a.
Proof.
  intros e B a (F & G & H). destruct (neg_fin a F) as [F' V]. split; [|exact V]. split; [exact F'|]. rewrite V, Rabs_Ropp. split; [apply grid_opp; exact G|exact H].
Qed.
Lemma g_abs : forall e B (a : f32), gnum e B a -> gnum e B (sabs a) /\ val (sabs a) = Rabs (val a).
Proof.
  intros e B a (F & G & H). destruct (abs_fin a F) as [F' V]. split; [|exact V]. split; [exact F'|]. rewrite V, Rabs_Rabsolu. split; [apply grid_abs; exact G|exact H].
Qed.
Lemma g_0 : forall e B, 0 <= B -> gnum e B (f0 : f32) /\ val (f0 : f32) = 0.
Proof.
  intros e B H. destruct (lit_exact 0 0 ltac:(lia) ltac:(lia)) as [F V]. rewrite Rmult_0_l in V. change (slit 0 0 : f32) with (f0 : f32) in *.
  split; [|exact V]. split; [exact F|]. rewrite V, Rabs_R0. split; [apply grid_0|exact H].
Qed.
Lemma g_wide : forall e B C (a : f32), B <= C -> gnum e B a -> gnum e C a.
Proof. intros e B C a H (F & G & K). split; [exact F|]. split; [exact G|lra]. Qed.

(** sums of inexact terms *)
Lemma sum_rel1 : forall x y z X Y A B, Rabs (x - X) <= U * A -> Rabs (y - Y) <= U * B -> Rabs X <= A -> Rabs Y <= B ->
  Rabs (z - (x + y)) <= U * Rabs (x + y) -> Rabs (z - (X + Y)) <= 2.001 * U * (A + B) /\ Rabs (X + Y) <= A + B.
Proof.
  intros x y z X Y A B H1 H2 H3 H4 H5. pose proof (Rabs_pos X). pose proof (Rabs_pos Y). apply abs2 in H1, H2, H3, H4.
  assert (K : Rabs (x + y) <= (1 + U) * (A + B)) by (apply Rabs_le; lra). apply abs2 in H5.
  split; apply Rabs_le; lra.
Qed.
Lemma sum_rel2 : forall x y z X Y A B, Rabs (x - X) <= 2.001 * U * A -> Rabs (y - Y) <= 2.001 * U * B -> Rabs X <= A -> Rabs Y <= B ->
  Rabs (z - (x + y)) <= U * Rabs (x + y) -> Rabs (z - (X + Y)) <= 3.002 * U * (A + B).
Proof.
  intros x y z X Y A B H1 H2 H3 H4 H5. pose proof (Rabs_pos X). pose proof (Rabs_pos Y). apply abs2 in H1, H2, H3, H4.
  assert (K : Rabs (x + y) <= (1 + 2.001 * U) * (A + B)) by (apply Rabs_le; lra). apply abs2 in H5.
  apply Rabs_le; lra.
Qed.
Definition g3 (e : Z) (B : R) (v : vec4 f32) : Prop := gnum e B (vx v) /\ gnum e B (vy v) /\ gnum e B (vz v).
Definition absDot (a b : vec4 R) : R := Rabs (vx a * vx b) + Rabs (vy a * vy b) + Rabs (vz a * vz b).
Lemma three : forall e f B C (a0 a1 a2 b0 b1 b2 : f32), (-126 <= e + f)%Z -> gnum e B a0 -> gnum e B a1 -> gnum e B a2 ->
  gnum f C b0 -> gnum f C b1 -> gnum f C b2 -> B * C <= 10000000000000000000000000000000000000 ->
  (fin (a0 * b0 + a1 * b1 + a2 * b2)%sc /\ Rabs (val (a0 * b0 + a1 * b1 + a2 * b2)%sc - (val a0 * val b0 + val a1 * val b1 + val a2 * val b2)) <=
    3.002 * U * (Rabs (val a0 * val b0) + Rabs (val a1 * val b1) + Rabs (val a2 * val b2))) /\
  (fin ((a0 * b0 + a1 * b1) + (a2 * b2 + f0))%sc /\ Rabs (val ((a0 * b0 + a1 * b1) + (a2 * b2 + f0))%sc - (val a0 * val b0 + val a1 * val b1 + val a2 * val b2)) <=
    3.002 * U * (Rabs (val a0 * val b0) + Rabs (val a1 * val b1) + Rabs (val a2 * val b2))).
Proof.
  intros e f B C a0 a1 a2 b0 b1 b2 He A0 A1 A2 B0 B1 B2 HB.
  destruct (g_mul e f B C a0 b0 He A0 B0 ltac:(lra)) as [P0 E0].
  destruct (g_mul e f B C a1 b1 He A1 B1 ltac:(lra)) as [P1 E1].
  destruct (g_mul e f B C a2 b2 He A2 B2 ltac:(lra)) as [P2 E2].
  destruct (g_add (e + f) _ _ _ _ He P0 P1 ltac:(lra)) as [Q0 F0].
  pose proof (g_0 (e + f) 0 (Rle_refl 0)) as [Z VZ].
  destruct (g_add (e + f) _ _ _ _ He P2 Z ltac:(lra)) as [Q1 F1].
  destruct (g_add (e + f) _ _ _ _ He Q0 P2 ltac:(lra)) as [Q2 F2].
  destruct (g_add (e + f) _ _ _ _ He Q0 Q1 ltac:(lra)) as [Q3 F3].
  destruct (sum_rel1 _ _ _ _ _ _ _ E0 E1 (Rle_refl _) (Rle_refl _) F0) as [S0 T0].
  pose proof (Rabs_pos (val a2 * val b2)) as P.
  assert (E2' : Rabs (val (a2 * b2)%sc - val a2 * val b2) <= 2.001 * U * Rabs (val a2 * val b2)) by lra.
  assert (E3 : Rabs (val (f0 : f32) - 0) <= U * 0) by (rewrite VZ, Rminus_0_r, Rabs_R0; lra).
  destruct (sum_rel1 _ _ _ _ _ _ _ E2 E3 (Rle_refl _) ltac:(rewrite Rabs_R0; lra) F1) as [S1 _]. rewrite !Rplus_0_r in S1.
  split; (split; [apply Q2 || apply Q3|]).
  - apply (sum_rel2 _ _ _ _ _ _ _ S0 E2' T0 (Rle_refl _) F2).
  - apply (sum_rel2 _ _ _ _ _ _ _ S0 S1 T0 (Rle_refl _) F3).
Qed.
Lemma dot_pure : forall p e f B C (a b : vec4 f32), (-126 <= e + f)%Z -> g3 e B a -> g3 f C b -> B * C <= 10000000000000000000000000000000000000 ->
  fin (dot3 p a b) /\ Rabs (val (dot3 p a b) - dotS (realV a) (realV b)) <= 3.002 * U * absDot (realV a) (realV b).
Proof.
  intros p e f B C a b He (A0 & A1 & A2) (B0 & B1 & B2) HB.
  destruct (three e f B C _ _ _ _ _ _ He A0 A1 A2 B0 B1 B2 HB) as [X Y]. destruct p; [exact X|exact Y|exact Y|exact Y|exact X].
Qed.
Lemma two : forall e f B C (a0 a1 b0 b1 : f32), (-126 <= e + f)%Z -> gnum e B a0 -> gnum e B a1 ->
  gnum f C b0 -> gnum f C b1 -> B * C <= 10000000000000000000000000000000000000 ->
  fin (a0 * b0 + a1 * b1)%sc /\ Rabs (val (a0 * b0 + a1 * b1)%sc - (val a0 * val b0 + val a1 * val b1)) <=
    2.001 * U * (Rabs (val a0 * val b0) + Rabs (val a1 * val b1)).
Proof.
  intros e f B C a0 a1 b0 b1 He A0 A1 B0 B1 HB.
  destruct (g_mul e f B C a0 b0 He A0 B0 ltac:(lra)) as [P0 E0].
  destruct (g_mul e f B C a1 b1 He A1 B1 ltac:(lra)) as [P1 E1].
  destruct (g_add (e + f) _ _ _ _ He P0 P1 ltac:(lra)) as [Q0 F0].
  split; [apply Q0|]. apply (sum_rel1 _ _ _ _ _ _ _ E0 E1 (Rle_refl _) (Rle_refl _) F0).
Qed.
Lemma det_pure : forall e B C (a b c d : f32), (-126 <= e + e)%Z -> gnum e B a -> gnum e B b -> gnum e C c -> gnum e C d -> B * C <= 10000000000000000000000000000000000000 ->
  gnum (e + e) (2.1 * (B * C)) (a * c - b * d)%sc /\
  Rabs (val (a * c - b * d)%sc - (val a * val c - val b * val d)) <= 2.001 * U * (Rabs (val a * val c) + Rabs (val b * val d)).
Proof.
  intros e B C a b c d He A0 A1 C0 C1 HB.
  assert (PB : 0 <= B * C).
  { destruct A0 as (_ & _ & K), C0 as (_ & _ & K'). pose proof (Rabs_pos (val a)). pose proof (Rabs_pos (val c)). apply Rmult_le_pos; lra. }
  destruct (g_mul e e B C a c He A0 C0 ltac:(lra)) as [P0 E0].
  destruct (g_mul e e B C b d He A1 C1 ltac:(lra)) as [P1 E1].
  destruct (g_sub (e + e) _ _ _ _ He P0 P1 ltac:(lra)) as [Q0 F0].
  split; [eapply g_wide; [|exact Q0]; lra|].
  assert (E1' : Rabs (- val (b * d)%sc - - (val b * val d)) <= U * Rabs (val b * val d)).
  { rewrite <- Rabs_Ropp. replace (- (- val (b * d)%sc - - (val b * val d))) with (val (b * d)%sc - val b * val d) by ring. exact E1. }
  apply (sum_rel1 (val (a * c)%sc) (- val (b * d)%sc) _ (val a * val c) (- (val b * val d)) _ _ E0 E1' (Rle_refl _)); [rewrite Rabs_Ropp; apply Rle_refl|exact F0].
Qed.

(** ** The tests *)
Definition beyondAll (d0 d1 d2 r : R) : Prop := (r < d0 /\ r < d1 /\ r < d2) \/ (d0 < - r /\ d1 < - r /\ d2 < - r).
Lemma min3_val : forall p (x y z w : f32), fin x -> fin y -> fin z ->
  fin (vmin3 p (V4 x y z w)) /\ (val (vmin3 p (V4 x y z w)) = val x \/ val (vmin3 p (V4 x y z w)) = val y \/ val (vmin3 p (V4 x y z w)) = val z) /\
  val (vmin3 p (V4 x y z w)) <= val x /\ val (vmin3 p (V4 x y z w)) <= val y /\ val (vmin3 p (V4 x y z w)) <= val z.
Proof.
  intros p x y z w Fx Fy Fz. destruct (min3_least p (V4 x y z w)) as [I L].
  { unfold nums, l43. cbn [vx vy vz]. repeat (apply Forall_cons; [apply fin_num; assumption|]). apply Forall_nil. }
  unfold l43 in I, L. cbn [vx vy vz] in I, L. set (m := vmin3 p (V4 x y z w)) in *.
  assert (F : fin m) by (destruct I as [<-|[<-|[<-|[]]]]; assumption).
  rewrite !Forall_cons_iff in L. rewrite !fin_ext in L by assumption.
  split; [exact F|]. split; [destruct I as [<-|[<-|[<-|[]]]]; auto|tauto].
Qed.
Lemma max3_val : forall p (x y z w : f32), fin x -> fin y -> fin z ->
  fin (vmax3 p (V4 x y z w)) /\ (val (vmax3 p (V4 x y z w)) = val x \/ val (vmax3 p (V4 x y z w)) = val y \/ val (vmax3 p (V4 x y z w)) = val z) /\
  val x <= val (vmax3 p (V4 x y z w)) /\ val y <= val (vmax3 p (V4 x y z w)) /\ val z <= val (vmax3 p (V4 x y z w)).
Proof.
  intros p x y z w Fx Fy Fz. destruct (max3_greatest p (V4 x y z w)) as [I L].
  { unfold nums, l43. cbn [vx vy vz]. repeat (apply Forall_cons; [apply fin_num; assumption|]). apply Forall_nil. }
  unfold l43 in I, L. cbn [vx vy vz] in I, L. set (m := vmax3 p (V4 x y z w)) in *.
  assert (F : fin m) by (destruct I as [<-|[<-|[<-|[]]]]; assumption).
  rewrite !Forall_cons_iff in L. rewrite !fin_ext in L by assumption.
  split; [exact F|]. split; [destruct I as [<-|[<-|[<-|[]]]]; auto|tauto].
Qed.
Lemma satAxis_iff : forall p (v0 v1 v2 a : vec4 f32) (r : f32), fin (dot3 p v0 a) -> fin (dot3 p v1 a) -> fin (dot3 p v2 a) -> fin r ->
  (satAxis p v0 v1 v2 a r = true <-> beyondAll (val (dot3 p v0 a)) (val (dot3 p v1 a)) (val (dot3 p v2 a)) (val r)).
Proof.
  intros p v0 v1 v2 a r F0 F1 F2 Fr. unfold satAxis, of3.
  destruct (min3_val p _ _ _ f0 F0 F1 F2) as (Fm & Im & Lm). destruct (max3_val p _ _ _ f0 F0 F1 F2) as (FM & IM & LM).
  set (m := vmin3 p _) in *. set (x := vmax3 p _) in *. destruct (neg_fin x FM) as [FN VN]. clearbody m x.
  unfold sgt, stdmax, beyondAll. destruct (slt (- x)%sc m) eqn:E.
  - rewrite (slt_iff' _ _ FN Fm), VN in E. rewrite (slt_iff' _ _ Fr Fm). lra.
  - assert (E' : ~ (- val x < val m)) by (rewrite <- VN, <- (slt_iff' _ _ FN Fm); congruence).
    rewrite (slt_iff' _ _ Fr FN), VN. lra.
Qed.
Lemma unit_iff : forall p (x y z w e : f32), fin x -> fin y -> fin z -> fin e ->
  (slt (vmax3 p (V4 x y z w)) (- e)%sc || sgt (vmin3 p (V4 x y z w)) e = true <-> beyondAll (val x) (val y) (val z) (val e)).
Proof.
  intros p x y z w e F0 F1 F2 Fr.
  destruct (min3_val p _ _ _ w F0 F1 F2) as (Fm & Im & Lm). destruct (max3_val p _ _ _ w F0 F1 F2) as (FM & IM & LM).
  set (m := vmin3 p _) in *. set (g := vmax3 p _) in *. destruct (neg_fin e Fr) as [FN VN]. clearbody m g.
  unfold sgt, beyondAll. rewrite orb_true_iff, (slt_iff' _ _ FM FN), (slt_iff' _ _ Fr Fm), VN. lra.
Qed.
(** from approximate projections to exact ones *)
Lemma rejects_near : forall h v0 v1 v2 A d0 d1 d2 r e e' delta, Rabs (d0 - dotS A v0) <= e -> Rabs (d1 - dotS A v1) <= e -> Rabs (d2 - dotS A v2) <= e ->
  Rabs (r - absSum h A) <= e' -> e + e' <= delta * sum3 A ->
  (beyondAll d0 d1 d2 r -> rejects (widen (- delta) h) v0 v1 v2 A) /\ (rejects (widen delta h) v0 v1 v2 A -> beyondAll d0 d1 d2 r).
Proof.
  intros h v0 v1 v2 A d0 d1 d2 r e e' delta H0 H1 H2 Hr HE. apply abs2 in H0, H1, H2, Hr.
  assert (W : forall d, absSum (widen d h) A = absSum h A + d * sum3 A) by (intros; unfold absSum, widen, sum3; cbn [vx vy vz]; ring).
  unfold rejects, beyondAll. rewrite !W. split; intros [H|H]; [left|right|left|right]; lra.
Qed.
(** an axis whose lanes carry one rounding error *)
Lemma axis_dot : forall p (v a : vec4 f32) (A : vec4 R) V, g3 (-36) 2200000000 v -> g3 (-36) 5000000000 a -> within3 V (realV v) ->
  Rabs (val (vx a) - vx A) <= U * Rabs (vx A) -> Rabs (val (vy a) - vy A) <= U * Rabs (vy A) -> Rabs (val (vz a) - vz A) <= U * Rabs (vz A) ->
  fin (dot3 p v a) /\ Rabs (val (dot3 p v a) - dotS A (realV v)) <= 4.01 * U * (V * sum3 A).
Proof.
  intros p v a A V Gv Ga (V0 & V1 & V2) E0 E1 E2.
  destruct (dot_pure p (-36) (-36) _ _ v a ltac:(lia) Gv Ga ltac:(lra)) as [F E]. split; [exact F|].
  unfold dotS, absDot, sum3, realV in *. cbn [vx vy vz] in *.
  assert (T : forall x b B : R, Rabs x <= V -> Rabs (b - B) <= U * Rabs B -> Rabs (x * b) <= 1.0001 * (V * Rabs B) /\ Rabs (x * b - B * x) <= U * (V * Rabs B)).
  { intros x b B Hx Hb. pose proof (Rabs_pos x). pose proof (Rabs_pos B). pose proof (Rabs_pos b). split.
    - rewrite Rabs_mult. apply Rle_trans with (V * (1.0001 * Rabs B)); [|lra]. apply Rmult_le_compat; try assumption.
      replace b with ((b - B) + B) by ring. eapply Rle_trans; [apply Rabs_triang|]. lra.
    - replace (x * b - B * x) with (x * (b - B)) by ring. rewrite Rabs_mult.
      apply Rle_trans with (V * (U * Rabs B)); [apply Rmult_le_compat; try assumption; apply Rabs_pos|lra]. }
  destruct (T _ _ _ V0 E0) as [A0 B0]. destruct (T _ _ _ V1 E1) as [A1 B1]. destruct (T _ _ _ V2 E2) as [A2 B2].
  apply abs2 in E, B0, B1, B2. apply Rabs_le. lra.
Qed.
Lemma ext_term : forall (h a : f32) (A V : R), 0 <= val h <= V -> Rabs (val a - A) <= U * Rabs A ->
  Rabs (val h * Rabs (val a)) <= 1.0001 * (V * Rabs A) /\ Rabs (val h * Rabs (val a) - val h * Rabs A) <= U * (V * Rabs A).
Proof.
  intros h a A V [H1 H2] E. pose proof (Rabs_pos A). pose proof (Rabs_pos (val a)). split.
  - rewrite Rabs_pos_eq by (apply Rmult_le_pos; lra). apply Rle_trans with (V * (1.0001 * Rabs A)); [|lra]. apply Rmult_le_compat; try assumption.
    replace (val a) with ((val a - A) + A) by ring. eapply Rle_trans; [apply Rabs_triang|]. lra.
  - replace (val h * Rabs (val a) - val h * Rabs A) with (val h * (Rabs (val a) - Rabs A)) by ring. rewrite Rabs_mult, (Rabs_pos_eq (val h)) by exact H1.
    apply Rle_trans with (V * (U * Rabs A)); [|lra]. apply Rmult_le_compat; try assumption; [apply Rabs_pos|].
    eapply Rle_trans; [apply Rabs_triang_inv2|exact E].
Qed.
Lemma radius2 : forall (h0 h1 a0 a1 : f32) (A0 A1 V : R), gnum (-36) 2200000000 h0 -> gnum (-36) 2200000000 h1 -> gnum (-36) 5000000000 a0 -> gnum (-36) 5000000000 a1 ->
  0 <= val h0 <= V -> 0 <= val h1 <= V -> Rabs (val a0 - A0) <= U * Rabs A0 -> Rabs (val a1 - A1) <= U * Rabs A1 ->
  fin (h0 * sabs a0 + h1 * sabs a1)%sc /\
  Rabs (val (h0 * sabs a0 + h1 * sabs a1)%sc - (val h0 * Rabs A0 + val h1 * Rabs A1)) <= 3.01 * U * (V * (Rabs A0 + Rabs A1)).
Proof.
  intros h0 h1 a0 a1 A0 A1 V G0 G1 K0 K1 P0 P1 E0 E1.
  destruct (g_abs _ _ _ K0) as [L0 W0]. destruct (g_abs _ _ _ K1) as [L1 W1].
  destruct (two (-36) (-36) _ _ _ _ _ _ ltac:(lia) G0 G1 L0 L1 ltac:(lra)) as [F E]. split; [exact F|]. rewrite W0, W1 in E.
  destruct (ext_term h0 a0 A0 V P0 E0) as [X0 Y0]. destruct (ext_term h1 a1 A1 V P1 E1) as [X1 Y1].
  apply abs2 in E, Y0, Y1. apply Rabs_le. lra.
Qed.
Definition close (x X : R) : Prop := Rabs (x - X) <= U * Rabs X.
Definition closeV (v : vec4 f32) (W : vec4 R) : Prop := close (val (vx v)) (vx W) /\ close (val (vy v)) (vy W) /\ close (val (vz v)) (vz W).
Lemma close_opp : forall x X, close x X -> close (- x) (- X).
Proof. unfold close. intros x X H. rewrite Rabs_Ropp. replace (- x - - X) with (- (x - X)) by ring. rewrite Rabs_Ropp. exact H. Qed.
Lemma close_0 : close 0 0.
Proof. unfold close. rewrite Rminus_0_r, Rabs_R0. lra. Qed.

Section Tests.
  Variables (p : path) (v0 v1 v2 h : vec4 f32) (V delta : R).
  Hypothesis G0 : g3 (-36) 2200000000 v0.
  Hypothesis G1 : g3 (-36) 2200000000 v1.
  Hypothesis G2 : g3 (-36) 2200000000 v2.
  Hypothesis GH : g3 (-36) 2200000000 h.
  Hypothesis W0 : within3 V (realV v0).
  Hypothesis W1 : within3 V (realV v1).
  Hypothesis W2 : within3 V (realV v2).
  Hypothesis HX : 0 <= val (vx h) <= V.
  Hypothesis HY : 0 <= val (vy h) <= V.
  Hypothesis HZ : 0 <= val (vz h) <= V.
  Hypothesis HD : 7.02 * U * V <= delta.
  Let rej (d : R) := rejects (widen d (realV h)) (realV v0) (realV v1) (realV v2).
  Definition decides (b : bool) (A : vec4 R) : Prop := (b = true -> rej (- delta) A) /\ (rej delta A -> b = true).

  Lemma edge_test : forall (a : vec4 f32) (r : f32) (A : vec4 R), g3 (-36) 5000000000 a -> closeV a A -> fin r ->
    Rabs (val r - absSum (realV h) A) <= 3.01 * U * (V * sum3 A) -> decides (satAxis p v0 v1 v2 a r) A.
  Proof.
    intros a r A Ga (C0 & C1 & C2) Fr Er.
    destruct (axis_dot p v0 a A V G0 Ga W0 C0 C1 C2) as [F0 E0].
    destruct (axis_dot p v1 a A V G1 Ga W1 C0 C1 C2) as [F1 E1].
    destruct (axis_dot p v2 a A V G2 Ga W2 C0 C1 C2) as [F2 E2].
    unfold decides. rewrite (satAxis_iff p v0 v1 v2 a r F0 F1 F2 Fr).
    apply (rejects_near _ _ _ _ _ _ _ _ _ _ _ _ E0 E1 E2 Er).
    assert (S : 0 <= sum3 A) by (unfold sum3; pose proof (Rabs_pos (vx A)); pose proof (Rabs_pos (vy A)); pose proof (Rabs_pos (vz A)); lra).
    apply (Rmult_le_compat_r (sum3 A)) in HD; [|exact S]. lra.
  Qed.
  Variables (g : vec4 f32) (E : vec4 R).
  Hypothesis Gg : g3 (-36) 5000000000 g.
  Hypothesis Cg : closeV g E.
  Lemma testX : decides (satAxis p v0 v1 v2 (of3 f0 (- vz g)%sc (vy g)) (vy h * sabs (vz g) + vz h * sabs (vy g))%sc) (crX E).
  Proof.
    destruct Gg as (K0 & K1 & K2). destruct Cg as (C0 & C1 & C2). destruct GH as (H0 & H1 & H2).
    destruct (g_neg _ _ _ K2) as [N2 O2]. destruct (g_0 (-36) 5000000000 ltac:(lra)) as [Z Vz].
    destruct (radius2 _ _ _ _ _ _ V H1 H2 K2 K1 HY HZ C2 C1) as [Fr Er].
    apply edge_test; [split; [exact Z|split; [exact N2|exact K1]]| |exact Fr|].
    - unfold closeV, of3, crX. cbn [vx vy vz]. rewrite O2. split; [|split; [apply close_opp; exact C2|exact C1]].
      rewrite Vz. apply close_0.
    - unfold absSum, crX, sum3, realV in *. cbn [vx vy vz] in *. rewrite Rabs_R0, Rabs_Ropp, Rmult_0_r, !Rplus_0_l. exact Er.
  Qed.
  Lemma testY : decides (satAxis p v0 v1 v2 (of3 (vz g) f0 (- vx g)%sc) (vx h * sabs (vz g) + vz h * sabs (vx g))%sc) (crY E).
  Proof.
    destruct Gg as (K0 & K1 & K2). destruct Cg as (C0 & C1 & C2). destruct GH as (H0 & H1 & H2).
    destruct (g_neg _ _ _ K0) as [N2 O2]. destruct (g_0 (-36) 5000000000 ltac:(lra)) as [Z Vz].
    destruct (radius2 _ _ _ _ _ _ V H0 H2 K2 K0 HX HZ C2 C0) as [Fr Er].
    apply edge_test; [split; [exact K2|split; [exact Z|exact N2]]| |exact Fr|].
    - unfold closeV, of3, crY. cbn [vx vy vz]. rewrite O2. split; [exact C2|split; [|apply close_opp; exact C0]].
      rewrite Vz. apply close_0.
    - unfold absSum, crY, sum3, realV in *. cbn [vx vy vz] in *. rewrite Rabs_R0, Rabs_Ropp, Rmult_0_r, !Rplus_0_r. exact Er.
  Qed.
  Lemma testZ : decides (satAxis p v0 v1 v2 (of3 (- vy g)%sc (vx g) f0) (vx h * sabs (vy g) + vy h * sabs (vx g))%sc) (crZ E).
  Proof.
    destruct Gg as (K0 & K1 & K2). destruct Cg as (C0 & C1 & C2). destruct GH as (H0 & H1 & H2).
    destruct (g_neg _ _ _ K1) as [N2 O2]. destruct (g_0 (-36) 5000000000 ltac:(lra)) as [Z Vz].
    destruct (radius2 _ _ _ _ _ _ V H0 H1 K1 K0 HX HY C1 C0) as [Fr Er].
    apply edge_test; [split; [exact N2|split; [exact K0|exact Z]]| |exact Fr|].
    - unfold closeV, of3, crZ. cbn [vx vy vz]. rewrite O2. split; [apply close_opp; exact C1|split; [exact C0|]].
      rewrite Vz. apply close_0.
    - unfold absSum, crZ, sum3, realV in *. cbn [vx vy vz] in *. rewrite Rabs_R0, Rabs_Ropp, Rmult_0_r, !Rplus_0_r. exact Er.
  Qed.
End Tests.
Lemma unit_decides : forall p (x y z w e : f32) (h v0 v1 v2 : vec4 f32) delta A, 0 <= delta -> fin x -> fin y -> fin z -> fin e ->
  dotS A (realV v0) = val x -> dotS A (realV v1) = val y -> dotS A (realV v2) = val z -> absSum (realV h) A = val e -> sum3 A = 1 ->
  decides v0 v1 v2 h delta (slt (vmax3 p (V4 x y z w)) (- e)%sc || sgt (vmin3 p (V4 x y z w)) e) A.
Proof.
  intros p x y z w e h v0 v1 v2 delta A HD Fx Fy Fz Fe Dx Dy Dz De S. unfold decides. rewrite (unit_iff p x y z w e Fx Fy Fz Fe).
  apply (rejects_near _ _ _ _ _ _ _ _ _ 0 0); rewrite ?Dx, ?Dy, ?Dz, ?De, ?Rminus_eq_0, ?Rabs_R0; try lra. rewrite S. lra.
Qed.

(** the normal *)
Lemma prod_close : forall a b A B, close a A -> close b B -> Rabs (a * b - A * B) <= 2.001 * U * Rabs (A * B) /\ Rabs (a * b) <= 1.001 * Rabs (A * B).
Proof.
  intros a b A B HA HB. unfold close in *. pose proof (Rabs_pos A). pose proof (Rabs_pos B). pose proof (Rabs_pos (A * B)).
  assert (BA : Rabs a <= 1.0001 * Rabs A) by (replace a with ((a - A) + A) by ring; eapply Rle_trans; [apply Rabs_triang|]; lra).
  assert (E : Rabs (a * b - A * B) <= 2.001 * U * Rabs (A * B)).
  { replace (a * b - A * B) with (a * (b - B) + (a - A) * B) by ring. eapply Rle_trans; [apply Rabs_triang|]. rewrite !Rabs_mult.
    assert (Rabs a * Rabs (b - B) <= 1.0001 * Rabs A * (U * Rabs B)) by (apply Rmult_le_compat; try apply Rabs_pos; assumption).
    assert (Rabs (a - A) * Rabs B <= U * Rabs A * Rabs B) by (apply Rmult_le_compat_r; assumption). 
    assert (0 <= Rabs A * Rabs B) by (apply Rmult_le_pos; assumption). lra. }
  split; [exact E|]. replace (a * b) with ((a * b - A * B) + A * B) by ring. eapply Rle_trans; [apply Rabs_triang|]. lra.
Qed.
Lemma det_close : forall (a b c d : f32) A B C D, gnum (-36) 5000000000 a -> gnum (-36) 5000000000 b -> gnum (-36) 5000000000 c -> gnum (-36) 5000000000 d ->
  close (val a) A -> close (val b) B -> close (val c) C -> close (val d) D ->
  gnum (-72) 60000000000000000000 (a * c - b * d)%sc /\
  Rabs (val (a * c - b * d)%sc - (A * C - B * D)) <= 4.01 * U * (Rabs (A * C) + Rabs (B * D)).
Proof.
  intros a b c d A B C D Ga Gb Gc Gd CA CB CC CD.
  destruct (det_pure (-36) _ _ a b c d ltac:(lia) Ga Gb Gc Gd ltac:(lra)) as [G E].
  split; [eapply g_wide; [|exact G]; lra|].
  destruct (prod_close _ _ _ _ CA CC) as [P1 Q1]. destruct (prod_close _ _ _ _ CB CD) as [P2 Q2].
  pose proof (Rabs_pos (A * C)). pose proof (Rabs_pos (B * D)). apply abs2 in E, P1, P2. apply Rabs_le. lra.
Qed.
Lemma cross_close : forall p (a b : vec4 f32) A B, g3 (-36) 5000000000 a -> g3 (-36) 5000000000 b -> closeV a A -> closeV b B ->
  let n := cross3 p a b in let N := crossS A B in
  g3 (-72) 60000000000000000000 n /\
  Rabs (val (vx n) - vx N) <= 4.01 * U * (Rabs (vy A * vz B) + Rabs (vz A * vy B)) /\
  Rabs (val (vy n) - vy N) <= 4.01 * U * (Rabs (vz A * vx B) + Rabs (vx A * vz B)) /\
  Rabs (val (vz n) - vz N) <= 4.01 * U * (Rabs (vx A * vy B) + Rabs (vy A * vx B)).
Proof.
  intros p a b A B (A0 & A1 & A2) (B0 & B1 & B2) (C0 & C1 & C2) (D0 & D1 & D2) n N.
  assert (X : gnum (-72) 60000000000000000000 (vx n) /\ Rabs (val (vx n) - vx N) <= 4.01 * U * (Rabs (vy A * vz B) + Rabs (vz A * vy B))).
  { unfold N, crossS. cbn [vx]. destruct p; unfold n, cross3, swYZXX, ofFloat3, crossp, xyz, vsub, vmul, map2_4; cbn [x3 y3 z3 vx vy vz vw];
      try (apply det_close; assumption); rewrite ?(Rmult_comm (vy A)), ?(Rmult_comm (vz A)); try (apply det_close; assumption).
    all: rewrite (Rmult_comm (vy B)); apply det_close; assumption. }
  assert (Y : gnum (-72) 60000000000000000000 (vy n) /\ Rabs (val (vy n) - vy N) <= 4.01 * U * (Rabs (vz A * vx B) + Rabs (vx A * vz B))).
  { unfold N, crossS. cbn [vy]. destruct p; unfold n, cross3, swYZXX, ofFloat3, crossp, xyz, vsub, vmul, map2_4; cbn [x3 y3 z3 vx vy vz vw];
      try (apply det_close; assumption); rewrite ?(Rmult_comm (vz A)), ?(Rmult_comm (vx A)); try (apply det_close; assumption).
    all: rewrite (Rmult_comm (vz B)); apply det_close; assumption. }
  assert (Z : gnum (-72) 60000000000000000000 (vz n) /\ Rabs (val (vz n) - vz N) <= 4.01 * U * (Rabs (vx A * vy B) + Rabs (vy A * vx B))).
  { unfold N, crossS. cbn [vz]. destruct p; unfold n, cross3, swYZXX, ofFloat3, crossp, xyz, vsub, vmul, map2_4; cbn [x3 y3 z3 vx vy vz vw];
      try (apply det_close; assumption); rewrite ?(Rmult_comm (vx A)), ?(Rmult_comm (vy A)); try (apply det_close; assumption).
    all: rewrite (Rmult_comm (vx B)); apply det_close; assumption. }
  unfold g3. tauto.
Qed.
Lemma normal_decides : forall p (v0 v1 v2 h g0 g1 : vec4 f32) V K delta,
  g3 (-36) 2200000000 v0 -> g3 (-36) 2200000000 h -> within3 V (realV v0) ->
  0 <= val (vx h) <= V -> 0 <= val (vy h) <= V -> 0 <= val (vz h) <= V ->
  let E0 := minusS (realV v1) (realV v0) in let E1 := minusS (realV v2) (realV v1) in
  g3 (-36) 5000000000 g0 -> g3 (-36) 5000000000 g1 -> closeV g0 E0 -> closeV g1 E1 ->
  stout K (realV v0) (realV v1) (realV v2) -> 0 <= K <= 1048576 -> (7.7 + 8.03 * K) * U * V <= delta ->
  let n := cross3 p g0 g1 in
  decides v0 v1 v2 h delta (negb (sle (sabs (dot3 p n v0)) (vx h * sabs (vx n) + vy h * sabs (vy n) + vz h * sabs (vz n))%sc)) (crossS E0 E1).
Proof.
  intros p v0 v1 v2 h g0 g1 V K delta G0 GH (W0 & W1 & W2) HX HY HZ E0 E1 K0 K1 C0 C1 ST HK HD n.
  destruct (cross_close p g0 g1 E0 E1 K0 K1 C0 C1) as (Gn & X & Y & Z). fold n in Gn, X, Y, Z.
  set (N := crossS E0 E1) in *. unfold stout, spread in ST. fold E0 E1 N in ST.
  set (ax := Rabs (vy E0 * vz E1) + Rabs (vz E0 * vy E1)) in *. set (ay := Rabs (vz E0 * vx E1) + Rabs (vx E0 * vz E1)) in *. set (az := Rabs (vx E0 * vy E1) + Rabs (vy E0 * vx E1)) in *.
  assert (Pa : 0 <= ax /\ 0 <= ay /\ 0 <= az) by (unfold ax, ay, az; repeat split; apply Rplus_le_le_0_compat; apply Rabs_pos).
  destruct Pa as (Px & Py & Pz).
  set (S := sum3 N) in *. assert (PS : 0 <= S) by (unfold S, sum3; pose proof (Rabs_pos (vx N)); pose proof (Rabs_pos (vy N)); pose proof (Rabs_pos (vz N)); lra).
  assert (PV : 0 <= V) by lra.
  (* lane bounds *)
  assert (Ln : forall x X' a, Rabs (x - X') <= 4.01 * U * a -> Rabs x <= Rabs X' + 4.01 * U * a).
  { intros x X' a H. replace x with ((x - X') + X') by ring. eapply Rle_trans; [apply Rabs_triang|]. lra. }
  pose proof (Ln _ _ _ X) as Lx. pose proof (Ln _ _ _ Y) as Ly. pose proof (Ln _ _ _ Z) as Lz. clear Ln.
  set (Sn := Rabs (val (vx n)) + Rabs (val (vy n)) + Rabs (val (vz n))).
  assert (KS : K * S <= 1048576 * S) by (apply Rmult_le_compat_r; lra).
  assert (BSn : Sn <= 1.26 * S) by (unfold Sn; unfold S, sum3 in ST, KS |- *; lra).
  (* the distance *)
  destruct (dot_pure p (-72) (-36) _ _ n v0 ltac:(lia) Gn G0 ltac:(lra)) as [Fd Ed].
  assert (Ad : absDot (realV n) (realV v0) <= V * Sn).
  { unfold absDot, Sn. rewrite !Rabs_mult. unfold realV in *. cbn [vx vy vz] in *.
    pose proof (Rabs_pos (val (vx n))) as Q1. pose proof (Rabs_pos (val (vy n))) as Q2. pose proof (Rabs_pos (val (vz n))) as Q3.
    apply (Rmult_le_compat_l _ _ _ Q1) in W0. apply (Rmult_le_compat_l _ _ _ Q2) in W1. apply (Rmult_le_compat_l _ _ _ Q3) in W2. lra. }
  assert (D1 : Rabs (dotS (realV n) (realV v0) - dotS N (realV v0)) <= 4.01 * U * (V * (ax + ay + az))).
  { unfold dotS, realV in *. cbn [vx vy vz] in *.
    assert (Q : forall x X' w a, Rabs (x - X') <= 4.01 * U * a -> Rabs w <= V -> Rabs ((x - X') * w) <= 4.01 * U * (V * a)).
    { intros x X' w a H1 H2. rewrite Rabs_mult. apply Rle_trans with (4.01 * U * a * V); [apply Rmult_le_compat; try apply Rabs_pos; assumption|lra]. }
    pose proof (Q _ _ _ _ X W0) as Q1. pose proof (Q _ _ _ _ Y W1) as Q2. pose proof (Q _ _ _ _ Z W2) as Q3.
    apply abs2 in Q1, Q2, Q3. apply Rabs_le. lra. }
  (* the radius *)
  destruct Gn as (N0 & N1 & N2). destruct (g_abs _ _ _ N0) as [M0 V0]. destruct (g_abs _ _ _ N1) as [M1 V1]. destruct (g_abs _ _ _ N2) as [M2 V2].
  destruct GH as (H0 & H1 & H2).
  destruct (three (-36) (-72) _ _ _ _ _ _ _ _ ltac:(lia) H0 H1 H2 M0 M1 M2 ltac:(lra)) as [[Fr Er] _]. rewrite V0, V1, V2 in Er.
  set (r := (vx h * sabs (vx n) + vy h * sabs (vy n) + vz h * sabs (vz n))%sc) in *.
  assert (T : forall (hh : f32) x X' a, 0 <= val hh <= V -> Rabs (x - X') <= 4.01 * U * a -> 0 <= a ->
    Rabs (val hh * Rabs x) <= V * Rabs x /\ Rabs (val hh * Rabs x - val hh * Rabs X') <= 4.01 * U * (V * a)).
  { intros hh x X' a [P1 P2] H PA. pose proof (Rabs_pos x). split.
    - rewrite Rabs_pos_eq by (apply Rmult_le_pos; lra). apply Rmult_le_compat_r; lra.
    - replace (val hh * Rabs x - val hh * Rabs X') with (val hh * (Rabs x - Rabs X')) by ring. rewrite Rabs_mult, (Rabs_pos_eq (val hh)) by lra.
      apply Rle_trans with (V * (4.01 * U * a)); [apply Rmult_le_compat; [lra|apply Rabs_pos|lra|]|lra].
      eapply Rle_trans; [apply Rabs_triang_inv2|exact H]. }
  destruct (T (vx h) _ _ _ HX X Px) as [I0 J0]. destruct (T (vy h) _ _ _ HY Y Py) as [I1 J1]. destruct (T (vz h) _ _ _ HZ Z Pz) as [I2 J2]. clear T.
  (* totals *)
  assert (VS : V * Sn <= 1.26 * (V * S)) by (apply (Rmult_le_compat_l V) in BSn; lra).
  assert (VA : V * (ax + ay + az) <= V * (K * S)) by (apply Rmult_le_compat_l; lra).
  assert (Dd : Rabs (val (dot3 p n v0) - dotS N (realV v0)) <= (3.8 + 4.01 * K) * U * (V * S)) by (apply abs2 in Ed, D1; apply Rabs_le; lra).
  assert (Dr : Rabs (val r - absSum (realV h) N) <= (3.8 + 4.01 * K) * U * (V * S)).
  { unfold absSum, realV. cbn [vx vy vz]. unfold Sn in VS. apply abs2 in Er, J0, J1, J2. apply Rabs_le. lra. }
  assert (HE : (3.8 + 4.01 * K) * U * (V * S) + (3.8 + 4.01 * K) * U * (V * S) <= delta * S).
  { apply (Rmult_le_compat_r S) in HD; [|exact PS]. assert (0 <= K * (V * S)) by (apply Rmult_le_pos; [lra|apply Rmult_le_pos; assumption]).
    assert (0 <= V * S) by (apply Rmult_le_pos; assumption). lra. }
  (* the same distance for the three corners *)
  assert (Q1 : dotS N (realV v1) = dotS N (realV v0)) by (unfold N, E0, E1, dotS, crossS, minusS; cbn [vx vy vz]; ring).
  assert (Q2 : dotS N (realV v2) = dotS N (realV v0)) by (unfold N, E0, E1, dotS, crossS, minusS; cbn [vx vy vz]; ring).
  assert (Dd1 : Rabs (val (dot3 p n v0) - dotS N (realV v1)) <= (3.8 + 4.01 * K) * U * (V * S)) by (rewrite Q1; exact Dd).
  assert (Dd2 : Rabs (val (dot3 p n v0) - dotS N (realV v2)) <= (3.8 + 4.01 * K) * U * (V * S)) by (rewrite Q2; exact Dd).
  pose proof (rejects_near _ _ _ _ _ _ _ _ _ _ _ delta Dd Dd1 Dd2 Dr HE) as RN.
  unfold decides.
  assert (B : negb (sle (sabs (dot3 p n v0)) r) = true <-> beyondAll (val (dot3 p n v0)) (val (dot3 p n v0)) (val (dot3 p n v0)) (val r)).
  { destruct (abs_fin _ Fd) as [Fa Va]. rewrite negb_true_iff, <- not_true_iff_false, (sle_iff' _ _ Fa Fr), Va. unfold beyondAll.
    unfold Rabs. destruct Rcase_abs; lra. }
  rewrite B. exact RN.
Qed.

(** ** The whole test *)
Lemma gridded_g : forall x, gridded x -> gnum (-36) 1073741824 x.
Proof. intros x (F & G & B). split; [exact F|]. split; [exact G|]. replace 1073741824 with (bpow radix2 30) by (cbn; lra). exact B. Qed.
Lemma rel_sub : forall c pos : vec4 f32, griddedV c -> griddedV pos -> let w := vsub c pos in
  g3 (-36) 2200000000 w /\ closeV w (minusS (realV c) (realV pos)).
Proof.
  intros c pos (C0 & C1 & C2) (P0 & P1 & P2) w. apply gridded_g in C0, C1, C2, P0, P1, P2.
  destruct (g_sub (-36) _ _ _ _ ltac:(lia) C0 P0 ltac:(lra)) as [G0 E0].
  destruct (g_sub (-36) _ _ _ _ ltac:(lia) C1 P1 ltac:(lra)) as [G1 E1].
  destruct (g_sub (-36) _ _ _ _ ltac:(lia) C2 P2 ltac:(lra)) as [G2 E2].
  split; [|split; [exact E0|split; [exact E1|exact E2]]].
  split; [|split]; (eapply g_wide; [|first [exact G0|exact G1|exact G2]]); lra.
Qed.
Lemma edge_sub : forall a b : vec4 f32, g3 (-36) 2200000000 a -> g3 (-36) 2200000000 b -> let g := vsub a b in
  g3 (-36) 5000000000 g /\ closeV g (minusS (realV a) (realV b)).
Proof.
  intros a b (C0 & C1 & C2) (P0 & P1 & P2) w.
  destruct (g_sub (-36) _ _ _ _ ltac:(lia) C0 P0 ltac:(lra)) as [G0 E0].
  destruct (g_sub (-36) _ _ _ _ ltac:(lia) C1 P1 ltac:(lra)) as [G1 E1].
  destruct (g_sub (-36) _ _ _ _ ltac:(lia) C2 P2 ltac:(lra)) as [G2 E2].
  split; [|split; [exact E0|split; [exact E1|exact E2]]].
  split; [|split]; (eapply g_wide; [|first [exact G0|exact G1|exact G2]]); lra.
Qed.
Lemma mix_close : forall u v w x y z X Y Z M, 0 <= u -> 0 <= v -> 0 <= w -> u + v + w = 1 -> close x X -> close y Y -> close z Z ->
  Rabs X <= M -> Rabs Y <= M -> Rabs Z <= M -> Rabs ((u * x + v * y + w * z) - (u * X + v * Y + w * Z)) <= U * M.
Proof.
  intros u v w x y z X Y Z M Hu Hv Hw HS CX CY CZ BX BY BZ. unfold close in *.
  assert (Q : forall k a A, 0 <= k -> Rabs (a - A) <= U * Rabs A -> Rabs A <= M -> Rabs (k * (a - A)) <= k * (U * M)).
  { intros k a A Hk H1 H2. rewrite Rabs_mult, (Rabs_pos_eq k) by exact Hk. apply Rmult_le_compat_l; [exact Hk|]. lra. }
  pose proof (Q u x X Hu CX BX) as Q1. pose proof (Q v y Y Hv CY BY) as Q2. pose proof (Q w z Z Hw CZ BZ) as Q3.
  apply abs2 in Q1, Q2, Q3. assert (E : u * (U * M) + v * (U * M) + w * (U * M) = U * M) by (rewrite <- !Rmult_plus_distr_r, HS; ring).
  apply Rabs_le. lra.
Qed.
Lemma reject_chain : forall b (A : Prop), (b = true -> A) -> ~ A -> b = false.
Proof. intros [] A H N; [exfalso; auto|reflexivity]. Qed.
Theorem triangle_near : forall p (pos ext : vec4 f32) (t : triangle f32) M K,
  griddedV pos -> griddedV ext -> griddedV (t0 t) -> griddedV (t1 t) -> griddedV (t2 t) -> nonneg3 (realV ext) ->
  within3 M (realV ext) -> within3 M (minusS (realV (t0 t)) (realV pos)) -> within3 M (minusS (realV (t1 t)) (realV pos)) -> within3 M (minusS (realV (t2 t)) (realV pos)) ->
  stout K (realV (vsub (t0 t) pos)) (realV (vsub (t1 t) pos)) (realV (vsub (t2 t) pos)) -> 0 <= K <= 1048576 ->
  let delta := 9 * (1 + K) * M / 16777216 in
  (touches (realV pos) (widen (- delta) (realV ext)) (realT t) -> isAabbIntersected p pos ext t = true) /\
  (isAabbIntersected p pos ext t = true -> touches (realV pos) (widen delta (realV ext)) (realT t)).
Proof.
  intros p pos ext t M K GP GE GT0 GT1 GT2 NE WE WT0 WT1 WT2 ST HK delta.
  destruct (rel_sub _ _ GT0 GP) as [A0 C0]. destruct (rel_sub _ _ GT1 GP) as [A1 C1]. destruct (rel_sub _ _ GT2 GP) as [A2 C2].
  set (v0 := vsub (t0 t) pos) in *. set (v1 := vsub (t1 t) pos) in *. set (v2 := vsub (t2 t) pos) in *.
  assert (GH : g3 (-36) 2200000000 ext) by (destruct GE as (G0 & G1 & G2); split; [|split]; (eapply g_wide; [|apply gridded_g; eassumption]); lra).
  set (V := (1 + U) * M). set (w0 := minusS (realV (t0 t)) (realV pos)) in *. set (w1 := minusS (realV (t1 t)) (realV pos)) in *. set (w2 := minusS (realV (t2 t)) (realV pos)) in *.
  assert (PM : 0 <= M) by (destruct WE as (W & _); pose proof (Rabs_pos (vx (realV ext))); lra).
  assert (WV : forall (v : vec4 f32) w, closeV v w -> within3 M w -> within3 V (realV v)).
  { intros v w (X & Y & Z) (P1 & P2 & P3). unfold within3, realV, V, close in *. cbn [vx vy vz].
    assert (Q : forall a b, Rabs (a - b) <= U * Rabs b -> Rabs b <= M -> Rabs a <= (1 + U) * M).
    { intros a b H1 H2. replace a with ((a - b) + b) by ring. eapply Rle_trans; [apply Rabs_triang|]. lra. }
    split; [|split]; eapply Q; eassumption. }
  pose proof (WV _ _ C0 WT0) as W0. pose proof (WV _ _ C1 WT1) as W1. pose proof (WV _ _ C2 WT2) as W2. clear WV.
  assert (HH : (0 <= val (vx ext) <= V) /\ (0 <= val (vy ext) <= V) /\ (0 <= val (vz ext) <= V)).
  { destruct NE as (N1 & N2 & N3). destruct WE as (E1 & E2 & E3). unfold realV, V in *. cbn [vx vy vz] in *.
    rewrite Rabs_pos_eq in E1, E2, E3 by assumption. lra. }
  destruct HH as (HX & HY & HZ).
  set (d := (8 + 9 * K) * M / 16777216). assert (PK : 0 <= K * M) by (apply Rmult_le_pos; lra).
  assert (D1 : 7.02 * U * V <= d) by (unfold d, V; lra). assert (D2 : (7.7 + 8.03 * K) * U * V <= d) by (unfold d, V; lra).
  assert (D3 : delta = d + U * M) by (unfold delta, d; lra). assert (D0 : 0 <= d) by (unfold d; lra).
  destruct (edge_sub _ _ A1 A0) as [K0 L0]. destruct (edge_sub _ _ A2 A1) as [K1 L1]. destruct (edge_sub _ _ A0 A2) as [K2 L2].
  set (g0 := vsub v1 v0) in *. set (g1 := vsub v2 v1) in *. set (g2 := vsub v0 v2) in *.
  set (E0 := minusS (realV v1) (realV v0)) in *. set (E1 := minusS (realV v2) (realV v1)) in *. set (E2 := minusS (realV v0) (realV v2)) in *.
  pose proof (testX p v0 v1 v2 ext V d A0 A1 A2 GH W0 W1 W2 HY HZ D1) as TX.
  pose proof (testY p v0 v1 v2 ext V d A0 A1 A2 GH W0 W1 W2 HX HZ D1) as TY.
  pose proof (testZ p v0 v1 v2 ext V d A0 A1 A2 GH W0 W1 W2 HX HY D1) as TZ.
  pose proof (TX g0 E0 K0 L0) as X0. pose proof (TX g1 E1 K1 L1) as X1. pose proof (TX g2 E2 K2 L2) as X2.
  pose proof (TY g0 E0 K0 L0) as Y0. pose proof (TY g1 E1 K1 L1) as Y1. pose proof (TY g2 E2 K2 L2) as Y2.
  pose proof (TZ g0 E0 K0 L0) as Z0. pose proof (TZ g1 E1 K1 L1) as Z1. pose proof (TZ g2 E2 K2 L2) as Z2. clear TX TY TZ.
  pose proof (normal_decides p v0 v1 v2 ext g0 g1 V K d A0 GH W0 HX HY HZ K0 K1 L0 L1 ST HK D2) as NN. cbv zeta in NN. fold E0 E1 in NN.
  unfold isAabbIntersected. fold v0 v1 v2. cbv zeta. fold g0 g1 g2.
  assert (T : exists a b c, c0 (transpose3x3 p (M4 v0 v1 v2 (dup4 f0))) = V4 (vx v0) (vx v1) (vx v2) a /\
    c1 (transpose3x3 p (M4 v0 v1 v2 (dup4 f0))) = V4 (vy v0) (vy v1) (vy v2) b /\
    c2 (transpose3x3 p (M4 v0 v1 v2 (dup4 f0))) = V4 (vz v0) (vz v1) (vz v2) c).
  { clear. clearbody v0 v1 v2. destruct v0 as [x0 y0 z0 q0], v1 as [x1 y1 z1 q1], v2 as [x2 y2 z2 q2]. destruct p; repeat eexists; reflexivity. }
  destruct T as (ta & tb & tc & Ta & Tb & Tc). rewrite Ta, Tb, Tc. clear Ta Tb Tc.
  assert (F : forall v : vec4 f32, g3 (-36) 2200000000 v -> fin (vx v) /\ fin (vy v) /\ fin (vz v)) by (intros v (P & Q & R'); split; [apply P|split; [apply Q|apply R']]).
  destruct (F _ A0) as (F00 & F01 & F02). destruct (F _ A1) as (F10 & F11 & F12). destruct (F _ A2) as (F20 & F21 & F22). destruct (F _ GH) as (FH0 & FH1 & FH2). clear F.
  pose proof (unit_decides p (vx v0) (vx v1) (vx v2) ta (vx ext) ext v0 v1 v2 d axX D0 F00 F10 F20 FH0) as UX.
  pose proof (unit_decides p (vy v0) (vy v1) (vy v2) tb (vy ext) ext v0 v1 v2 d axY D0 F01 F11 F21 FH1) as UY.
  pose proof (unit_decides p (vz v0) (vz v1) (vz v2) tc (vz ext) ext v0 v1 v2 d axZ D0 F02 F12 F22 FH2) as UZ.
  assert (A1' : Rabs 1 = 1) by apply Rabs_R1. assert (AZ : Rabs 0 = 0) by apply Rabs_R0.
  assert (O : forall v : vec4 R, dotS axX v = vx v /\ dotS axY v = vy v /\ dotS axZ v = vz v /\ absSum v axX = vx v /\ absSum v axY = vy v /\ absSum v axZ = vz v).
  { intros v. unfold dotS, absSum, axX, axY, axZ. cbn [vx vy vz]. rewrite A1', AZ. repeat split; ring. }
  assert (SX : sum3 axX = 1 /\ sum3 axY = 1 /\ sum3 axZ = 1) by (unfold sum3, axX, axY, axZ; cbn [vx vy vz]; rewrite A1', AZ; repeat split; ring).
  specialize (UX (proj1 (O _)) (proj1 (O _)) (proj1 (O _)) (proj1 (proj2 (proj2 (proj2 (O _))))) (proj1 SX)).
  specialize (UY (proj1 (proj2 (O _))) (proj1 (proj2 (O _))) (proj1 (proj2 (O _))) (proj1 (proj2 (proj2 (proj2 (proj2 (O _)))))) (proj1 (proj2 SX))).
  specialize (UZ (proj1 (proj2 (proj2 (O _)))) (proj1 (proj2 (proj2 (O _)))) (proj1 (proj2 (proj2 (O _)))) (proj2 (proj2 (proj2 (proj2 (proj2 (O _)))))) (proj2 (proj2 SX))).
  clear O SX. rewrite <- !orb_assoc.
  set (n := cross3 p g0 g1) in *.
  match type of NN with decides _ _ _ _ _ (negb ?b) _ => set (bn := b) in * end.
  repeat match goal with
  | H : decides _ _ _ _ _ (satAxis p v0 v1 v2 ?a ?r) _ |- _ => let b := fresh "b" in set (b := satAxis p v0 v1 v2 a r) in *; clearbody b
  end.
  repeat match goal with
  | H : decides _ _ _ _ _ (slt ?a ?b || ?c) _ |- _ => let x := fresh "s" in let y := fresh "s" in set (x := slt a b) in *; set (y := c) in *; clearbody x y
  end.
  clearbody bn.
  assert (SH : forall u v w, 0 <= u -> 0 <= v -> 0 <= w -> u + v + w = 1 ->
    Rabs ((u * vx (realV v0) + v * vx (realV v1) + w * vx (realV v2)) - (u * vx w0 + v * vx w1 + w * vx w2)) <= U * M /\
    Rabs ((u * vy (realV v0) + v * vy (realV v1) + w * vy (realV v2)) - (u * vy w0 + v * vy w1 + w * vy w2)) <= U * M /\
    Rabs ((u * vz (realV v0) + v * vz (realV v1) + w * vz (realV v2)) - (u * vz w0 + v * vz w1 + w * vz w2)) <= U * M).
  { intros u v w Hu Hv Hw HS. destruct C0 as (P0 & P1 & P2), C1 as (Q0 & Q1 & Q2), C2 as (R0 & R1 & R2).
    destruct WT0 as (B0 & B1 & B2), WT1 as (S0 & S1 & S2), WT2 as (T0 & T1 & T2).
    split; [|split]; unfold realV; cbn [vx vy vz]; apply mix_close; assumption. }
  rewrite !(touches_centred _ _ (realT t)). change (minusS (t0 (realT t)) (realV pos)) with w0. change (minusS (t1 (realT t)) (realV pos)) with w1. change (minusS (t2 (realT t)) (realV pos)) with w2.
  split.
  - intros (u & v & w & Hu & Hv & Hw & HS & B1 & B2 & B3). destruct (SH u v w Hu Hv Hw HS) as (S1 & S2 & S3). apply abs2 in S1, S2, S3.
    assert (NR : forall A, ~ rejects (widen (- d) (realV ext)) (realV v0) (realV v1) (realV v2) A).
    { intros A HA. apply (rejects_sound _ _ _ _ A u v w HA Hu Hv Hw HS); unfold widen in *; cbn [vx vy vz] in *; lra. }
    assert (FB : forall b A, decides v0 v1 v2 ext d b A -> b = false) by (intros bb A [H _]; apply (reject_chain bb _ H), NR).
    apply FB in X0, X1, X2, Y0, Y1, Y2, Z0, Z1, Z2, UX, UY, UZ, NN.
    rewrite ?X0, ?X1, ?X2, ?Y0, ?Y1, ?Y2, ?Z0, ?Z1, ?Z2. cbv iota. rewrite ?orb_false_iff in *. destruct UX as [-> ->]. destruct UY as [-> ->]. destruct UZ as [-> ->].
    cbn [orb]. apply negb_false_iff in NN. exact NN.
  - intros H. rewrite !if_chain in H. destruct H as (H0 & H1 & H2 & H3 & H4 & H5 & H6 & H7 & H8 & H9 & HN).
    rewrite !orb_false_iff in H9. destruct H9 as (P1 & P2 & P3 & P4 & P5 & P6).
    assert (NW : nonneg3 (widen d (realV ext))) by (destruct NE as (N1 & N2 & N3); unfold nonneg3, widen; cbn [vx vy vz]; lra).
    destruct (separating_direction (widen d (realV ext)) (realV v0) (realV v1) (realV v2) NW) as [(u & v & w & Hu & Hv & Hw & HS & B1 & B2 & B3)|(m & Hm)].
    + exists u, v, w. split; [exact Hu|]. split; [exact Hv|]. split; [exact Hw|]. split; [exact HS|].
      destruct (SH u v w Hu Hv Hw HS) as (S1 & S2 & S3). apply abs2 in S1, S2, S3. unfold widen in *. cbn [vx vy vz] in *. lra.
    + exfalso. pose proof (some_axis _ _ _ _ NW m Hm) as EX. unfold axes in EX. fold E0 E1 E2 in EX. rewrite !Exists_cons, Exists_nil in EX.
      unfold decides in *. subst.
      repeat match type of EX with _ \/ _ => destruct EX as [EX|EX] end; try exact EX;
        try (match goal with H : _ /\ (rejects _ _ _ _ ?A -> ?b = true) |- _ => match type of EX with rejects _ _ _ _ A => apply (proj2 H) in EX end end; cbn [orb negb] in EX; try rewrite HN in EX; discriminate EX).
Qed.

(** ** A sliver that is missed, and a triangle in the range of the theorem *)
Lemma fi_grid : forall z, (Z.abs z < 2 ^ 24)%Z -> gridded (fi z) /\ val (fi z) = IZR z.
Proof.
  intros z H. destruct (lit_Z z H) as [F V]. change (slit z 0) with (fi z) in *. split; [|exact V]. split; [exact F|]. rewrite V. split.
  - exists (z * 2 ^ 36)%Z. rewrite mult_IZR, (IZR_Zpower radix2) by lia. rewrite Rmult_assoc, <- bpow_plus. cbn. ring.
  - rewrite <- abs_IZR. rewrite <- (IZR_Zpower radix2) by lia. apply IZR_le. change (radix2 ^ 30)%Z with (2 ^ 30)%Z. lia.
Qed.
Lemma v4_grid : forall x y z, (Z.abs x < 2 ^ 24)%Z -> (Z.abs y < 2 ^ 24)%Z -> (Z.abs z < 2 ^ 24)%Z ->
  griddedV (v4 x y z) /\ vx (realV (v4 x y z)) = IZR x /\ vy (realV (v4 x y z)) = IZR y /\ vz (realV (v4 x y z)) = IZR z.
Proof.
  intros x y z X Y Z. destruct (fi_grid x X), (fi_grid y Y), (fi_grid z Z). unfold griddedV, v4, realV. cbn [vx vy vz]. tauto.
Qed.
Theorem sliver_missed : exists (pos ext : vec4 f32) (t : triangle f32),
  griddedV pos /\ griddedV ext /\ griddedV (t0 t) /\ griddedV (t1 t) /\ griddedV (t2 t) /\
  vx (realV ext) = 25000 /\ vy (realV ext) = 25000 /\ vz (realV ext) = 25000 /\
  touches (realV pos) (V4 0 0 0 0) (realT t) /\ forall p, isAabbIntersected p pos ext t = false.
Proof.
  exists (v4 0 0 0), (v4 25000 25000 25000), (mkTriangle (v4 (-7208) 10762 25203) (v4 0 0 0) (v4 5478 (-8179) (-19154))).
  cbn [t0 t1 t2].
  destruct (v4_grid 0 0 0 ltac:(lia) ltac:(lia) ltac:(lia)) as (G0 & X0 & Y0 & Z0).
  destruct (v4_grid 25000 25000 25000 ltac:(lia) ltac:(lia) ltac:(lia)) as (GE & XE & YE & ZE).
  split; [exact G0|]. split; [exact GE|]. split; [apply v4_grid; lia|]. split; [exact G0|]. split; [apply v4_grid; lia|].
  split; [exact XE|]. split; [exact YE|]. split; [exact ZE|]. split.
  - exists (realV (v4 0 0 0)). split; [|rewrite X0, Y0, Z0; cbn [vx vy vz]; lra]. exists 0, 1, 0. unfold realT. cbn [t0 t1 t2].
    split; [lra|]. split; [lra|]. split; [lra|]. split; [lra|]. unfold combination. cbn [t0 t1 t2]. rewrite X0, Y0, Z0. split; [|split]; ring.
  - intros []; vm_compute; reflexivity.
Qed.
Lemma same_bits : forall x y : f32, bits_of_b32 x = bits_of_b32 y -> x = y.
Proof. intros x y H. rewrite (by_bits x _ eq_refl), (by_bits y _ eq_refl), H. reflexivity. Qed.
Theorem triangle_example : let pos := v4 0 0 0 in let ext := v4 2 2 2 in let t := mkTriangle (v4 3 0 0) (v4 0 3 0) (v4 0 0 3) in
  griddedV pos /\ griddedV ext /\ griddedV (t0 t) /\ griddedV (t1 t) /\ griddedV (t2 t) /\ nonneg3 (realV ext) /\
  within3 3 (realV ext) /\ within3 3 (minusS (realV (t0 t)) (realV pos)) /\ within3 3 (minusS (realV (t1 t)) (realV pos)) /\ within3 3 (minusS (realV (t2 t)) (realV pos)) /\
  stout 1 (realV (vsub (t0 t) pos)) (realV (vsub (t1 t) pos)) (realV (vsub (t2 t) pos)) /\
  touches (realV pos) (widen (- (9 * (1 + 1) * 3 / 16777216)) (realV ext)) (realT t).
Proof.
  cbv zeta. cbn [t0 t1 t2].
  destruct (v4_grid 0 0 0 ltac:(lia) ltac:(lia) ltac:(lia)) as (G0 & X0 & Y0 & Z0).
  destruct (v4_grid 2 2 2 ltac:(lia) ltac:(lia) ltac:(lia)) as (GE & XE & YE & ZE).
  destruct (v4_grid 3 0 0 ltac:(lia) ltac:(lia) ltac:(lia)) as (G1 & X1 & Y1 & Z1).
  destruct (v4_grid 0 3 0 ltac:(lia) ltac:(lia) ltac:(lia)) as (G2 & X2 & Y2 & Z2).
  destruct (v4_grid 0 0 3 ltac:(lia) ltac:(lia) ltac:(lia)) as (G3 & X3 & Y3 & Z3).
  assert (S1 : vsub (v4 3 0 0) (v4 0 0 0) = v4 3 0 0) by (unfold vsub, map2_4, v4; cbn [vx vy vz vw]; f_equal; apply same_bits; vm_compute; reflexivity).
  assert (S2 : vsub (v4 0 3 0) (v4 0 0 0) = v4 0 3 0) by (unfold vsub, map2_4, v4; cbn [vx vy vz vw]; f_equal; apply same_bits; vm_compute; reflexivity).
  assert (S3 : vsub (v4 0 0 3) (v4 0 0 0) = v4 0 0 3) by (unfold vsub, map2_4, v4; cbn [vx vy vz vw]; f_equal; apply same_bits; vm_compute; reflexivity).
  rewrite S1, S2, S3.
  assert (AA : forall x, -3 <= x <= 3 -> Rabs x <= 3) by (intros; apply Rabs_le; lra).
  split; [exact G0|]. split; [exact GE|]. split; [exact G1|]. split; [exact G2|]. split; [exact G3|].
  split; [unfold nonneg3; rewrite XE, YE, ZE; lra|].
  split; [unfold within3; rewrite XE, YE, ZE; repeat split; apply AA; lra|].
  split; [unfold within3, minusS; cbn [vx vy vz]; rewrite X0, Y0, Z0, X1, Y1, Z1; repeat split; apply AA; lra|].
  split; [unfold within3, minusS; cbn [vx vy vz]; rewrite X0, Y0, Z0, X2, Y2, Z2; repeat split; apply AA; lra|].
  split; [unfold within3, minusS; cbn [vx vy vz]; rewrite X0, Y0, Z0, X3, Y3, Z3; repeat split; apply AA; lra|].
  split.
  - unfold stout, spread, sum3, crossS, minusS. cbn [vx vy vz]. rewrite X1, Y1, Z1, X2, Y2, Z2, X3, Y3, Z3.
    repeat match goal with |- context [Rabs ?e] => let H := fresh in assert (H : Rabs e = e \/ Rabs e = - e) by (unfold Rabs; destruct Rcase_abs; auto); pose proof (Rabs_pos e);
      let y := fresh "y" in set (y := Rabs e) in *; clearbody y end. lra.
  - exists (V4 1 1 1 0). unfold realT. split.
    + exists (1 / 3), (1 / 3), (1 / 3). split; [lra|]. split; [lra|]. split; [lra|]. split; [lra|].
      unfold combination. cbn [t0 t1 t2]. rewrite X1, Y1, Z1, X2, Y2, Z2, X3, Y3, Z3. cbn [vx vy vz]. lra.
    + unfold widen. cbn [vx vy vz]. rewrite X0, Y0, Z0, XE, YE, ZE. lra.
Qed.
