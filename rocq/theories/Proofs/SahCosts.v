(** Accuracy of the costs and centroids of the split-plane search. *)
From Coq Require Import ZArith List Lia Bool Reals Lra Psatz.
From Flocq Require Import Core.Core IEEE754.BinarySingleNaN IEEE754.Binary IEEE754.Bits.
From Flocq Require Plus_error Relative.
From Verif.Model Require Import Outcome Scalar Vec Simd Aabb Packed Bvh BvhSplit.
From Verif.Spec Require Import BvhSpec BvhGeomSpec SahSpec.
From Verif.Proofs Require Import OrdScalar ArrayLemmas F32Round F32Err NumericProofs LaneProofs BvhBoxes SahProofs.
Import ListNotations.
Local Open Scope R_scope.

#[local] Instance prec24 : Prec_gt_0 24 := eq_refl.

Lemma val_format : forall x : f32, generic_format radix2 (FLT_exp (-149) 24) (val x).
Proof. intros x. exact (generic_format_B2R 24 128 x). Qed.

(** sums and differences round with a relative error, even near zero *)
Lemma rnd_add_rel : forall x y : f32, Rabs (rnd (val x + val y) - (val x + val y)) <= u24 * Rabs (val x + val y).
Proof.
  intros x y.
  destruct (Plus_error.FLT_plus_error_N_ex radix2 (-149) 24 (fun x => negb (Z.even x)) (val x) (val y)
    (val_format x) (val_format y)) as (eps & H & E).
  change (round radix2 (FLT_exp (-149) 24) (Znearest (fun x => negb (Z.even x))) (val x + val y))
    with (rnd (val x + val y)) in E. rewrite E.
  replace ((val x + val y) * (1 + eps) - (val x + val y)) with (eps * (val x + val y)) by ring.
  rewrite Rabs_mult. apply Rmult_le_compat_r; [apply Rabs_pos|].
  eapply Rle_trans; [exact H|]. unfold Relative.u_ro. change (- (24) + 1)%Z with (-23)%Z.
  unfold u24. cbn. lra.
Qed.
Lemma rnd_sub_rel : forall x y : f32, fin y -> Rabs (rnd (val x - val y) - (val x - val y)) <= u24 * Rabs (val x - val y).
Proof.
  intros x y Fy.
  assert (E : val (- y : f32)%sc = - val y).
  { apply (proj2 (neg_fin y Fy)). }
  pose proof (rnd_add_rel x (- y)%sc) as H. rewrite E in H. exact H.
Qed.

Section Area.
  Variable p : path.
  Lemma mul_bounds : forall x y X Y a b, 0 <= a -> 0 <= X -> 0 <= Y ->
    a * X <= x <= b * X -> a * Y <= y <= b * Y -> a * a * (X * Y) <= x * y <= b * b * (X * Y).
  Proof.
    intros x y X Y a b Ha HX HY [H1 H2] [H3 H4].
    assert (0 <= a * X) by (apply Rmult_le_pos; assumption).
    assert (0 <= a * Y) by (apply Rmult_le_pos; assumption).
    split.
    - replace (a * a * (X * Y)) with ((a * X) * (a * Y)) by ring. apply Rmult_le_compat; lra.
    - replace (b * b * (X * Y)) with ((b * X) * (b * Y)) by ring. apply Rmult_le_compat; lra.
  Qed.

  Lemma rnd_pos_bounds : forall x, 0 <= x -> (1 - u24) * x - eta0 <= rnd x <= (1 + u24) * x + eta0.
  Proof.
    intros x Hx. pose proof (rnd_err x) as H. rewrite (Rabs_pos_eq x Hx) in H. apply Rabs_le_inv in H. lra.
  Qed.
  Lemma sub_bounds : forall a b : f32, fin a -> fin b -> Rabs (val a) <= bpow radix2 60 -> Rabs (val b) <= bpow radix2 60 ->
    val b <= val a ->
    fin (a - b)%sc /\ (1 - u24) * (val a - val b) <= val (a - b)%sc <= (1 + u24) * (val a - val b) /\
    val (a - b)%sc <= bpow radix2 61.
  Proof.
    intros a b Fa Fb Ha Hb Hab. apply Rabs_le_inv in Ha, Hb.
    assert (B : bpow radix2 61 = 2 * bpow radix2 60) by (change 61%Z with (1 + 60)%Z; rewrite bpow_plus; reflexivity).
    destruct (sub_small a b Fa Fb) as [F V].
    { unfold small. rewrite Rabs_pos_eq by lra. apply Rle_trans with (bpow radix2 61); [lra|apply bpow_le; lia]. }
    split; [exact F|]. rewrite V. pose proof (rnd_sub_rel a b Fb) as R. rewrite (Rabs_pos_eq (val a - val b)) in R by lra.
    apply Rabs_le_inv in R. split; [lra|].
    assert (K := rnd_abs_le (val a - val b) 1 61 ltac:(lia) ltac:(lia)). rewrite Rmult_1_l in K.
    rewrite Rabs_pos_eq in K by lra. eapply Rle_trans; [apply Rle_abs|]. apply K. lra.
  Qed.

  Lemma mul61 : forall a b : f32, fin a -> fin b -> 0 <= val a <= bpow radix2 61 -> 0 <= val b <= bpow radix2 61 ->
    fin (a * b)%sc /\ val (a * b)%sc = rnd (val a * val b) /\ 0 <= val (a * b)%sc <= bpow radix2 122.
  Proof.
    intros a b Fa Fb Ha Hb.
    assert (H : 0 <= val a * val b <= bpow radix2 122).
    { change 122%Z with (61 + 61)%Z. rewrite bpow_plus. split; [apply Rmult_le_pos; lra|apply Rmult_le_compat; lra]. }
    destruct (mul_small a b Fa Fb) as [F V].
    { unfold small. rewrite Rabs_pos_eq by lra. apply Rle_trans with (bpow radix2 122); [lra|apply bpow_le; lia]. }
    split; [exact F|]. split; [exact V|]. rewrite V. split.
    - rewrite <- rnd_0. apply F32Round.rnd_le. lra.
    - assert (K := rnd_abs_le (val a * val b) 1 122 ltac:(lia) ltac:(lia)). rewrite Rmult_1_l in K.
      rewrite Rabs_pos_eq in K by lra. eapply Rle_trans; [apply Rle_abs|]. apply K. lra.
  Qed.

  Lemma add_pos_bounds : forall a b : f32, fin a -> fin b -> 0 <= val a <= bpow radix2 125 -> 0 <= val b <= bpow radix2 125 ->
    fin (a + b)%sc /\ (1 - u24) * (val a + val b) <= val (a + b)%sc <= (1 + u24) * (val a + val b).
  Proof.
    intros a b Fa Fb Ha Hb.
    assert (B : bpow radix2 126 = 2 * bpow radix2 125) by (change 126%Z with (1 + 125)%Z; rewrite bpow_plus; reflexivity).
    destruct (add_small a b Fa Fb) as [F V].
    { unfold small. rewrite Rabs_pos_eq by lra. apply Rle_trans with (bpow radix2 126); [lra|apply bpow_le; lia]. }
    split; [exact F|]. rewrite V. pose proof (rnd_add_rel a b) as R. rewrite (Rabs_pos_eq (val a + val b)) in R by lra.
    apply Rabs_le_inv in R. lra.
  Qed.

  Lemma area_accuracy : forall b, boundedBox b ->
    let '(X, Y, Z) := extents b in
    let E := X * Y + X * Z + Y * Z in
    fin (calcAreaHalf p b) /\ Rabs (val (calcAreaHalf p b) - E) <= bpow radix2 (-21) * E + bpow radix2 (-148).
  Proof.
    intros b (((F1 & F2 & F3) & (F4 & F5 & F6)) & Ox & Oy & Oz & HB). unfold extents.
    destruct (sub_bounds (vx (bmax b)) (vx (bmin b)) F4 F1 ltac:(apply HB; auto 7) ltac:(apply HB; auto 7) Ox) as (Fx & Bx & Lx).
    destruct (sub_bounds (vy (bmax b)) (vy (bmin b)) F5 F2 ltac:(apply HB; auto 7) ltac:(apply HB; auto 7) Oy) as (Fy & By & Ly).
    destruct (sub_bounds (vz (bmax b)) (vz (bmin b)) F6 F3 ltac:(apply HB; auto 7) ltac:(apply HB; auto 7) Oz) as (Fz & Bz & Lz).
    set (ex := (vx (bmax b) - vx (bmin b))%sc) in *. set (ey := (vy (bmax b) - vy (bmin b))%sc) in *.
    set (ez := (vz (bmax b) - vz (bmin b))%sc) in *.
    set (X := val (vx (bmax b)) - val (vx (bmin b))) in *. set (Y := val (vy (bmax b)) - val (vy (bmin b))) in *.
    set (Z := val (vz (bmax b)) - val (vz (bmin b))) in *.
    assert (HX : 0 <= X) by (unfold X; lra). assert (HY : 0 <= Y) by (unfold Y; lra). assert (HZ : 0 <= Z) by (unfold Z; lra).
    clearbody X Y Z. pose proof u24_val as U. pose proof eta0_pos as EP.
    assert (Px : 0 <= val ex) by (eapply Rle_trans; [|apply Bx]; apply Rmult_le_pos; lra).
    assert (Py : 0 <= val ey) by (eapply Rle_trans; [|apply By]; apply Rmult_le_pos; lra).
    assert (Pz : 0 <= val ez) by (eapply Rle_trans; [|apply Bz]; apply Rmult_le_pos; lra).
    assert (A : calcAreaHalf p b = match p with
      | SSE41 | AVX2 | NEON => (ex * ey + ex * ez + (ey * ez + f0))%sc
      | SSE2 | GEN => (ex * ey + ex * ez + ey * ez)%sc end).
    { unfold calcAreaHalf, dot3. destruct p; reflexivity. }
    destruct (mul61 ex ey Fx Fy ltac:(lra) ltac:(lra)) as (G1 & V1 & R1).
    destruct (mul61 ex ez Fx Fz ltac:(lra) ltac:(lra)) as (G2 & V2 & R2).
    destruct (mul61 ey ez Fy Fz ltac:(lra) ltac:(lra)) as (G3 & V3 & R3).
    pose proof (mul_bounds _ _ X Y (1 - u24) (1 + u24) ltac:(lra) HX HY Bx By) as M1.
    pose proof (mul_bounds _ _ X Z (1 - u24) (1 + u24) ltac:(lra) HX HZ Bx Bz) as M2.
    pose proof (mul_bounds _ _ Y Z (1 - u24) (1 + u24) ltac:(lra) HY HZ By Bz) as M3.
    pose proof (rnd_pos_bounds (val ex * val ey) ltac:(apply Rmult_le_pos; assumption)) as N1.
    pose proof (rnd_pos_bounds (val ex * val ez) ltac:(apply Rmult_le_pos; assumption)) as N2.
    pose proof (rnd_pos_bounds (val ey * val ez) ltac:(apply Rmult_le_pos; assumption)) as N3.
    rewrite <- V1 in N1. rewrite <- V2 in N2. rewrite <- V3 in N3.
    assert (Q1 : 0 <= X * Y) by (apply Rmult_le_pos; assumption).
    assert (Q2 : 0 <= X * Z) by (apply Rmult_le_pos; assumption).
    assert (Q3 : 0 <= Y * Z) by (apply Rmult_le_pos; assumption).
    generalize dependent (X * Y). intros XY M1 Q1. generalize dependent (X * Z). intros XZ M2 Q2.
    generalize dependent (Y * Z). intros YZ M3 Q3.
    assert (B125 : 8 * bpow radix2 122 = bpow radix2 125) by (change 125%Z with (3 + 122)%Z; rewrite bpow_plus; reflexivity).
    pose proof (bpow_gt_0 radix2 122) as B122.
    destruct (add_pos_bounds _ _ G1 G2 ltac:(lra) ltac:(lra)) as (G4 & N4).
    set (m1 := (ex * ey)%sc) in *. set (m2 := (ex * ez)%sc) in *. set (m3 := (ey * ez)%sc) in *.
    generalize dependent (val ex * val ey). intros w1 V1 M1 N1.
    generalize dependent (val ex * val ez). intros w2 V2 M2 N2.
    generalize dependent (val ey * val ez). intros w3 V3 M3 N3.
    rewrite U in *.
    assert (Z0 : fin (m3 + f0)%sc /\ val (m3 + f0)%sc = val m3).
    { destruct f0_f as [Zf Zv]. destruct (add_small m3 (f0 : f32) G3 Zf) as [G V].
      - rewrite Zv. unfold small. rewrite Rabs_pos_eq by lra.
        apply Rle_trans with (bpow radix2 122); [lra|apply bpow_le; lia].
      - split; [exact G|]. rewrite V, Zv, Rplus_0_r. apply rnd_val. }
    assert (K : fin (calcAreaHalf p b) /\
      (1 - / 16777216) * (val (m1 + m2)%sc + val m3) <= val (calcAreaHalf p b) <= (1 + / 16777216) * (val (m1 + m2)%sc + val m3)).
    { rewrite A. destruct p.
      - exact (ltac:(destruct (add_pos_bounds (m1 + m2)%sc m3 G4 G3 ltac:(lra) ltac:(lra)) as (G & N); rewrite U in N; auto)).
      - destruct Z0 as [Z1 Z2]. destruct (add_pos_bounds (m1 + m2)%sc (m3 + f0)%sc G4 Z1 ltac:(lra) ltac:(lra)) as (G & N).
        rewrite Z2, U in N. auto.
      - destruct Z0 as [Z1 Z2]. destruct (add_pos_bounds (m1 + m2)%sc (m3 + f0)%sc G4 Z1 ltac:(lra) ltac:(lra)) as (G & N).
        rewrite Z2, U in N. auto.
      - destruct Z0 as [Z1 Z2]. destruct (add_pos_bounds (m1 + m2)%sc (m3 + f0)%sc G4 Z1 ltac:(lra) ltac:(lra)) as (G & N).
        rewrite Z2, U in N. auto.
      - exact (ltac:(destruct (add_pos_bounds (m1 + m2)%sc m3 G4 G3 ltac:(lra) ltac:(lra)) as (G & N); rewrite U in N; auto)). }
    destruct K as [KF K]. split; [exact KF|].
    assert (E148 : bpow radix2 (-148) = 4 * eta0) by (unfold eta0; change (-148)%Z with (2 + -150)%Z; rewrite bpow_plus; reflexivity).
    assert (E21 : bpow radix2 (-21) = / 2097152) by (cbn; lra).
    rewrite E148, E21. clear - K N4 N1 N2 N3 M1 M2 M3 Q1 Q2 Q3 EP.
    apply Rabs_le. split; lra.
  Qed.
End Area.

(** ** The cost of a node *)
Lemma ofInt_accuracy : forall n, (1 <= n < 2 ^ 32)%Z ->
  fin (ofInt n) /\ Rabs (val (ofInt n) - IZR n) <= 2 * u24 * IZR n.
Proof.
  intros n Hn. unfold ofInt.
  assert (S : small (IZR n)).
  { unfold small. rewrite Rabs_pos_eq by (apply IZR_le; lia). apply Rle_trans with (bpow radix2 32).
    - change (bpow radix2 32) with (IZR (2 ^ 32)). apply IZR_le. lia.
    - apply bpow_le. lia. }
  assert (H : fin (slit n 0 : f32) /\ val (slit n 0 : f32) = rnd (IZR n)).
  { cbn [slit ScalarF32]. unfold b32_lit.
    pose proof (binary_normalize_correct 24 128 eq_refl eq_refl mode_NE n 0 false) as C.
    assert (E : F2R (Float radix2 n 0) = IZR n) by (unfold F2R; cbn; ring).
    rewrite E in C. rewrite Rlt_bool_true in C by (apply small_rnd, S).
    destruct C as (C1 & C2 & _). split; [exact C2|exact C1]. }
  destruct H as [F V]. split; [exact F|]. rewrite V.
  pose proof (rnd_err (IZR n)) as R. assert (N1 : 1 <= IZR n) by (apply IZR_le; lia).
  rewrite (Rabs_pos_eq (IZR n)) in R by lra. pose proof eta0_small. pose proof u24_val as U. rewrite U in *.
  assert (eta0 <= / 16777216 * IZR n) by lra. lra.
Qed.

Lemma nodeCost_accuracy : forall p b n, boundedBox b ->
  (forall x, x = vx (bmin b) \/ x = vy (bmin b) \/ x = vz (bmin b) \/ x = vx (bmax b) \/ x = vy (bmax b) \/ x = vz (bmax b) ->
     Rabs (val x) <= bpow radix2 40) ->
  (1 <= n < 2 ^ 32)%Z ->
  let '(X, Y, Z) := extents b in
  let E := X * Y + X * Z + Y * Z in
  fin (nodeCostF p b n) /\
  Rabs (val (nodeCostF p b n) - E * IZR n) <= bpow radix2 (-20) * (E * IZR n) + bpow radix2 (-147) * IZR n.
Proof.
  intros p b n HB H40 Hn. pose proof (area_accuracy p b HB) as HA. unfold extents in *.
  destruct HA as [FA HA]. destruct (ofInt_accuracy n Hn) as [FN HN].
  destruct HB as (_ & Ox & Oy & Oz & _).
  assert (B : forall x y : f32, (x = vx (bmin b) \/ x = vy (bmin b) \/ x = vz (bmin b) \/ x = vx (bmax b) \/ x = vy (bmax b) \/ x = vz (bmax b)) ->
    (y = vx (bmin b) \/ y = vy (bmin b) \/ y = vz (bmin b) \/ y = vx (bmax b) \/ y = vy (bmax b) \/ y = vz (bmax b)) ->
    val x - val y <= bpow radix2 41).
  { intros x y Hx Hy. apply H40 in Hx, Hy. apply Rabs_le_inv in Hx, Hy.
    assert (bpow radix2 41 = 2 * bpow radix2 40) by (change 41%Z with (1 + 40)%Z; rewrite bpow_plus; reflexivity). lra. }
  pose proof (B (vx (bmax b)) (vx (bmin b)) ltac:(auto 7) ltac:(auto 7)) as BX.
  pose proof (B (vy (bmax b)) (vy (bmin b)) ltac:(auto 7) ltac:(auto 7)) as BY.
  pose proof (B (vz (bmax b)) (vz (bmin b)) ltac:(auto 7) ltac:(auto 7)) as BZ. clear B.
  set (X := val (vx (bmax b)) - val (vx (bmin b))) in *. set (Y := val (vy (bmax b)) - val (vy (bmin b))) in *.
  set (Z := val (vz (bmax b)) - val (vz (bmin b))) in *.
  assert (HX : 0 <= X) by (unfold X; lra). assert (HY : 0 <= Y) by (unfold Y; lra). assert (HZ : 0 <= Z) by (unfold Z; lra).
  clearbody X Y Z.
  assert (HE : 0 <= X * Y + X * Z + Y * Z <= 3 * bpow radix2 82).
  { assert (Q : forall a b, 0 <= a <= bpow radix2 41 -> 0 <= b <= bpow radix2 41 -> 0 <= a * b <= bpow radix2 82).
    { intros a c Ha Hc. change 82%Z with (41 + 41)%Z. rewrite bpow_plus.
      split; [apply Rmult_le_pos; lra|apply Rmult_le_compat; lra]. }
    pose proof (Q X Y ltac:(lra) ltac:(lra)). pose proof (Q X Z ltac:(lra) ltac:(lra)). pose proof (Q Y Z ltac:(lra) ltac:(lra)). lra. }
  set (E := X * Y + X * Z + Y * Z) in *. clearbody E.
  assert (E148 : bpow radix2 (-148) = 4 * eta0) by (unfold eta0; change (-148)%Z with (2 + -150)%Z; rewrite bpow_plus; reflexivity).
  assert (E147 : bpow radix2 (-147) = 8 * eta0) by (unfold eta0; change (-147)%Z with (3 + -150)%Z; rewrite bpow_plus; reflexivity).
  assert (E21 : bpow radix2 (-21) = / 2097152) by (cbn; lra).
  assert (E20 : bpow radix2 (-20) = / 1048576) by (cbn; lra).
  rewrite E148, E21 in HA. rewrite E147, E20. pose proof u24_val as U. rewrite U in HN.
  assert (N1 : 1 <= IZR n) by (apply IZR_le; lia).
  assert (N32 : IZR n <= bpow radix2 32) by (change (bpow radix2 32) with (IZR (2 ^ 32)); apply IZR_le; lia).
  unfold nodeCostF. set (A := calcAreaHalf p b) in *. set (N := ofInt n) in *.
  set (m := IZR n) in *. pose proof eta0_pos as EP.
  assert (EN0 : 0 <= E * m) by (apply Rmult_le_pos; lra).
  assert (P : Rabs (val A * val N - E * m) <= (/ 2097152 * (1 + 2 * / 16777216) + 2 * / 16777216) * (E * m) + 4 * (1 + 2 * / 16777216) * eta0 * m).
  { replace (val A * val N - E * m) with ((val A - E) * val N + E * (val N - m)) by ring.
    eapply Rle_trans; [apply Rabs_triang|]. rewrite !Rabs_mult. rewrite (Rabs_pos_eq E) by lra.
    assert (HN' : Rabs (val N) <= (1 + 2 * / 16777216) * m) by (apply Rabs_le_inv in HN; apply Rabs_le; lra).
    assert (T1 : Rabs (val A - E) * Rabs (val N) <= (/ 2097152 * E + 4 * eta0) * ((1 + 2 * / 16777216) * m))
      by (apply Rmult_le_compat; try apply Rabs_pos; assumption).
    assert (T2 : E * Rabs (val N - m) <= E * (2 * / 16777216 * m)) by (apply Rmult_le_compat_l; lra).
    lra. }
  assert (EM : E * m <= 3 * bpow radix2 114).
  { replace (3 * bpow radix2 114) with ((3 * bpow radix2 82) * bpow radix2 32) by (change 114%Z with (82 + 32)%Z; rewrite bpow_plus; ring).
    apply Rmult_le_compat; lra. }
  assert (B116 : bpow radix2 116 = 4 * bpow radix2 114) by (change 116%Z with (2 + 114)%Z; rewrite bpow_plus; reflexivity).
  assert (B114 : bpow radix2 32 <= bpow radix2 114) by (apply bpow_le; lia).
  pose proof eta0_small as ES.
  assert (EmS : eta0 * m <= / 1000000000000 * m) by (apply Rmult_le_compat_r; lra).
  destruct (mul_small A N FA FN) as [F V].
  { unfold small. apply Rle_trans with (bpow radix2 116); [|apply bpow_le; lia].
    replace (val A * val N) with ((val A * val N - E * m) + E * m) by ring.
    eapply Rle_trans; [apply Rabs_triang|]. rewrite (Rabs_pos_eq (E * m)) by exact EN0. lra. }
  split; [exact F|]. rewrite V.
  pose proof (rnd_err (val A * val N)) as R. rewrite U in R.
  assert (T : Rabs (val A * val N) <= Rabs (val A * val N - E * m) + E * m).
  { replace (val A * val N) with ((val A * val N - E * m) + E * m) at 1 by ring.
    eapply Rle_trans; [apply Rabs_triang|]. rewrite (Rabs_pos_eq (E * m)) by exact EN0. lra. }
  replace (rnd (val A * val N) - E * m) with ((rnd (val A * val N) - val A * val N) + (val A * val N - E * m)) by ring.
  eapply Rle_trans; [apply Rabs_triang|].
  assert (eta0 <= eta0 * m) by (rewrite <- (Rmult_1_r eta0) at 1; apply Rmult_le_compat_l; lra).
  lra.
Qed.

(** ** Bounds of the centroids *)
Lemma stdmin_num : forall a b : f32, num a -> num b ->
  num (stdmin a b) /\ ext (stdmin a b) = Rmin (ext a) (ext b) /\ (stdmin a b = a \/ stdmin a b = b).
Proof.
  intros a b Na Nb. unfold stdmin. rewrite slt_ext by assumption.
  destruct (Rlt_bool_spec (ext b) (ext a)); (split; [assumption|]); split; auto; unfold Rmin; destruct (Rle_dec _ _); lra.
Qed.
Lemma stdmax_num : forall a b : f32, num a -> num b ->
  num (stdmax a b) /\ ext (stdmax a b) = Rmax (ext a) (ext b) /\ (stdmax a b = a \/ stdmax a b = b).
Proof.
  intros a b Na Nb. unfold stdmax. rewrite slt_ext by assumption.
  destruct (Rlt_bool_spec (ext a) (ext b)); (split; [assumption|]); split; auto; unfold Rmax; destruct (Rle_dec _ _); lra.
Qed.
Lemma fold_min : forall vs m, num m -> Forall (fun v : f32 => num v) vs ->
  let r := fold_left stdmin vs m in
  num r /\ In r (m :: vs) /\ forall v, In v (m :: vs) -> ext r <= ext v.
Proof.
  induction vs as [|v vs IH]; intros m Nm Nv; cbv zeta.
  - cbn. split; [exact Nm|]. split; [auto|]. intros v [<-|[]]. lra.
  - inversion Nv; subst. destruct (stdmin_num m v Nm H1) as (N & E & C). cbn [fold_left].
    destruct (IH _ N H2) as (A1 & A2 & A3). split; [exact A1|]. split.
    + destruct A2 as [A2|A2]; [|cbn; auto]. rewrite <- A2. destruct C as [-> | ->]; cbn; auto.
    + assert (L := A3 _ (or_introl eq_refl)). rewrite E in L. pose proof (Rmin_l (ext m) (ext v)).
      pose proof (Rmin_r (ext m) (ext v)). intros w [<-|[<-|Hw]]; [lra|lra|]. apply A3. cbn; auto.
Qed.
Lemma fold_max : forall vs m, num m -> Forall (fun v : f32 => num v) vs ->
  let r := fold_left stdmax vs m in
  num r /\ In r (m :: vs) /\ forall v, In v (m :: vs) -> ext v <= ext r.
Proof.
  induction vs as [|v vs IH]; intros m Nm Nv; cbv zeta.
  - cbn. split; [exact Nm|]. split; [auto|]. intros v [<-|[]]. lra.
  - inversion Nv; subst. destruct (stdmax_num m v Nm H1) as (N & E & C). cbn [fold_left].
    destruct (IH _ N H2) as (A1 & A2 & A3). split; [exact A1|]. split.
    + destruct A2 as [A2|A2]; [|cbn; auto]. rewrite <- A2. destruct C as [-> | ->]; cbn; auto.
    + assert (L := A3 _ (or_introl eq_refl)). rewrite E in L. pose proof (Rmax_l (ext m) (ext v)).
      pose proof (Rmax_r (ext m) (ext v)). intros w [<-|[<-|Hw]]; [lra|lra|]. apply A3. cbn; auto.
Qed.

Lemma fin_eq : forall a b : f32, fin a -> fin b -> val a = val b -> val a <> 0 -> a = b.
Proof.
  intros a b Fa Fb E N. apply B2R_inj; [| |exact E].
  - destruct a; try discriminate; [cbn in N; lra|reflexivity].
  - rewrite E in N. destruct b; try discriminate; [cbn in N; lra|reflexivity].
Qed.
Lemma bounds_exact : forall vs : list f32, vs <> [] -> Forall (fun v : f32 => fin v) vs ->
  (In (least vs) vs /\ forall v, In v vs -> val (least vs) <= val v) /\
  (In (greatest vs) vs /\ forall v, In v vs -> val v <= val (greatest vs)).
Proof.
  intros vs Hne Hf.
  assert (Nv : Forall (fun v : f32 => num v) vs) by (eapply Forall_impl; [|exact Hf]; intros v; apply fin_num).
  assert (FM : fin (fltMax : f32)) by reflexivity.
  assert (Fm : fin (- fltMax : f32)%sc) by reflexivity.
  assert (HM : forall v, In v vs -> ext (- fltMax : f32)%sc <= ext v <= ext (fltMax : f32)).
  { intros v Hv. rewrite Forall_forall in Hf. rewrite BvhBoxes.mfltMax_ext.
    destruct (BvhBoxes.finite_ext v (Hf v Hv)) as [_ H]. lra. }
  assert (MP : 0 < ext (fltMax : f32)).
  { rewrite BvhBoxes.fltMax_ext. pose proof (bpow_lt radix2 104 128 ltac:(lia)). lra. }
  assert (Hin : forall x (w : f32), fin w -> ext w <> 0 -> In x vs -> ext x = ext w -> In w vs).
  { intros x w Fw Nw Hx E. rewrite Forall_forall in Hf. rewrite (fin_ext _ Fw) in *. rewrite (fin_ext _ (Hf x Hx)) in E.
    rewrite <- (fin_eq x w (Hf x Hx) Fw E ltac:(lra)). exact Hx. }
  destruct vs as [|v0 vs0] eqn:Evs; [congruence|]. rewrite <- Evs in *.
  assert (Hv0 : In v0 vs) by (rewrite Evs; cbn; auto).
  destruct (fold_min vs fltMax (fin_num _ FM) Nv) as (A1 & A2 & A3).
  destruct (fold_max vs (- fltMax)%sc (fin_num _ Fm) Nv) as (B1 & B2 & B3).
  fold (least vs) in *. fold (greatest vs) in *.
  assert (I1 : In (least vs) vs).
  { destruct A2 as [A2|A2]; [|exact A2]. rewrite <- A2 in A3 |- *.
    apply (Hin v0); auto; [lra|]. specialize (A3 v0 (or_intror Hv0)). specialize (HM v0 Hv0). lra. }
  assert (I2 : In (greatest vs) vs).
  { destruct B2 as [B2|B2]; [|exact B2]. rewrite <- B2 in B3 |- *.
    assert (ext (- fltMax : f32)%sc = - ext (fltMax : f32)) by apply BvhBoxes.mfltMax_ext.
    apply (Hin v0); auto; [lra|]. specialize (B3 v0 (or_intror Hv0)). specialize (HM v0 Hv0). lra. }
  rewrite Forall_forall in Hf.
  split; (split; [assumption|]); intros v Hv.
  - rewrite <- (fin_ext _ (Hf _ I1)), <- (fin_ext _ (Hf _ Hv)). apply A3. cbn; auto.
  - rewrite <- (fin_ext _ (Hf _ I2)), <- (fin_ext _ (Hf _ Hv)). apply B3. cbn; auto.
Qed.

(** ** The counters of the bins *)
Local Open Scope Z_scope.
Lemma bits_back : forall z, 0 <= z < 2 ^ 32 -> bits_of_b32 (b32_of_bits z) = z.
Proof. intros z Hz. apply (bits_of_binary_float_of_bits 23 8); [reflexivity..|]. exact Hz. Qed.
Lemma intView_range : forall x : f32, - 2 ^ 31 <= intView x < 2 ^ 31 /\ (intView x - bits_of_b32 x) mod 2 ^ 32 = 0.
Proof.
  intros x. pose proof (LaneProofs.bits_range x) as B. unfold intView, signed32.
  destruct (Z.ltb_spec (bits_of_b32 x) (2 ^ 31)).
  - split; [lia|]. rewrite Z.sub_diag. reflexivity.
  - split; [lia|]. replace (bits_of_b32 x - 2 ^ 32 - bits_of_b32 x) with (- 1 * 2 ^ 32) by ring. apply Z.mod_mul. lia.
Qed.
Lemma intView_back : forall z, - 2 ^ 31 <= z < 2 ^ 31 -> intView (ofIntView z) = z.
Proof.
  intros z Hz. unfold intView, ofIntView. rewrite bits_back by (apply Z.mod_pos_bound; lia). unfold signed32.
  destruct (Z.lt_ge_cases z 0).
  - rewrite <- (Z.mod_unique z (2 ^ 32) (-1) (z + 2 ^ 32)) by lia.
    destruct (Z.ltb_spec (z + 2 ^ 32) (2 ^ 31)); lia.
  - rewrite Z.mod_small by lia. destruct (Z.ltb_spec z (2 ^ 31)); lia.
Qed.

Lemma counter_pos : forall k, 1 <= k < 255 * 2 ^ 23 ->
  let x := (b32_of_bits k : f32) in num x /\ (0 < ext x)%R.
Proof.
  intros k Hk x. assert (E : bits_of_b32 x = k) by (apply bits_back; lia).
  pose proof (LaneProofs.bits_sign x) as S. rewrite E in S.
  destruct (Z.leb_spec (2 ^ 31) k) as [?|_]; [lia|].
  destruct x as [s|s|s pl Hp|s m e He]; cbn [Bsign] in S; subst s.
  - exfalso. vm_compute in E. lia.
  - exfalso. vm_compute in E. lia.
  - exfalso. unfold bits_of_b32, bits_of_binary_float, join_bits in E.
    rewrite Z.shiftl_mul_pow2 in E by lia. cbn -[Z.mul Z.add Z.pow] in E. lia.
  - split; [reflexivity|]. cbn. apply F2R_gt_0. reflexivity.
Qed.

Lemma simdmax_counter : forall p k, 1 <= k < 255 * 2 ^ 23 -> simdmax p (b32_of_bits k : f32) f0 = b32_of_bits k.
Proof.
  intros p k Hk. destruct (counter_pos k Hk) as [N P].
  assert (N0 : num (f0 : f32)) by (apply fin_num, f0_f).
  destruct (simdmax_cases p (b32_of_bits k) (f0 : f32) N N0) as [[E _]|[E H]]; [exact E|].
  exfalso. assert (E0 : ext (f0 : f32) = 0%R) by (rewrite (fin_ext _ (proj1 f0_f)); exact (proj2 f0_f)).
  change (0 < ext (b32_of_bits k : f32))%R in P. change (ext (b32_of_bits k : f32) <= ext (f0 : f32))%R in H. lra.
Qed.

Section Counters.
  Variable p : path.
  Variable boxes : list (aabb f32).
  (** boxes whose unused lane is zero, as made by the constructors from float3 *)
  Hypothesis Hw : Forall (fun b => vw (bmax b) = f0) boxes.

  Lemma addBox_w : forall b q b', addBox p boxes b q = Ok b' -> vw (bmax b') = simdmax p (vw (bmax b)) f0.
  Proof.
    intros b q b' H. unfold addBox in H. apply bind_Ok in H. destruct H as (o & Ho & H). inversion H; subst b'.
    cbn. f_equal. rewrite Forall_forall in Hw. apply Hw. apply readAt_Ok in Ho. apply In_at. eauto.
  Qed.
  Lemma increment_w : forall (b b' : aabb f32) k, vw (bmax b) = (b32_of_bits k : f32) -> 0 <= k < 2 ^ 31 - 1 ->
    binIncrement b = Ok b' -> vw (bmax b') = b32_of_bits (k + 1).
  Proof.
    intros b b' k E Hk H. unfold binIncrement in H. apply bind_Ok in H. destruct H as (c & Hc & H).
    inversion H; subst b'. cbn [bmax withW vw]. apply int32Ok_Ok in Hc. destruct Hc as [-> _].
    unfold binCount, intView. rewrite E, bits_back by lia. unfold signed32.
    destruct (Z.ltb_spec k (2 ^ 31)); [|lia]. unfold ofIntView. rewrite Z.mod_small by lia. reflexivity.
  Qed.
  Lemma boxOf_w : forall qs (b : aabb f32) k b', vw (bmax b) = (b32_of_bits k : f32) -> 1 <= k -> k + Z.of_nat (length qs) < 255 * 2 ^ 23 ->
    boxOf (addBox p boxes) qs b = Ok b' -> vw (bmax b') = b32_of_bits (k + Z.of_nat (length qs)).
  Proof.
    induction qs as [|q qs IH]; intros b k b' E Hk Hl H; cbn [boxOf length] in *.
    - inversion H; subst. rewrite Z.add_0_r. exact E.
    - apply bind_Ok in H. destruct H as (b1 & H1 & H). apply bind_Ok in H. destruct H as (b2 & H2 & H).
      apply addBox_w in H1. rewrite E, simdmax_counter in H1 by lia.
      apply (increment_w _ _ k) in H2; [|exact H1|lia].
      apply (IH _ (k + 1)) in H; [|exact H2|lia|lia]. rewrite H. f_equal. lia.
  Qed.
  Lemma boxOf_count : forall qs b, qs <> [] -> Z.of_nat (length qs) < 255 * 2 ^ 23 ->
    boxOf (addBox p boxes) qs emptyBox = Ok b -> binCount b = Z.of_nat (length qs).
  Proof.
    intros [|q qs] b Hne Hl H; [congruence|]. cbn [boxOf length] in *.
    apply bind_Ok in H. destruct H as (b1 & H1 & H). apply bind_Ok in H. destruct H as (b2 & H2 & H).
    apply addBox_w in H1.
    assert (E0 : simdmax p (vw (bmax emptyBox)) (f0 : f32) = b32_of_bits 0).
    { destruct p; apply Binary.B2FF_inj; vm_compute; reflexivity. }
    rewrite E0 in H1. apply (increment_w _ _ 0) in H2; [|exact H1|lia].
    apply (boxOf_w _ _ 1) in H; [|exact H2|lia|lia].
    unfold binCount, intView. rewrite H, bits_back by lia. unfold signed32.
    destruct (Z.ltb_spec (1 + Z.of_nat (length qs)) (2 ^ 31)); lia.
  Qed.

  Variable cen : Z -> outcome (vec4 f32).
  Lemma upTo_step : forall mn mx a i qs,
    length (filter (upToBin cen mn mx a i) qs) =
    (length (filter (upToBin cen mn mx a (i - 1)) qs) + length (filter (inBin cen mn mx a i) qs))%nat.
  Proof.
    intros mn mx a i. induction qs as [|q qs IH]; [reflexivity|]. cbn [filter]. unfold upToBin, inBin in *.
    destruct (cen q) as [w| | |]; [|exact IH..]. destruct (binNumber mn mx (lane w a)) as [t| | |]; [|exact IH..].
    destruct (Z.leb_spec t i), (Z.leb_spec t (i - 1)), (Z.eqb_spec t i); try lia; cbn [length]; lia.
  Qed.
  Lemma upTo_neg : forall mn mx a qs, (forall q, In q qs -> exists w t, cen q = Ok w /\ binNumber mn mx (lane w a) = Ok t /\ 0 <= t) ->
    filter (upToBin cen mn mx a (-1)) qs = [].
  Proof.
    intros mn mx a. induction qs as [|q qs IH]; intros H; [reflexivity|]. cbn [filter].
    destruct (H q (or_introl eq_refl)) as (w & t & E1 & E2 & E3). unfold upToBin at 1. rewrite E1, E2.
    destruct (Z.leb_spec t (-1)); [lia|]. apply IH. intros q' Hq. apply H. now right.
  Qed.
  Lemma firstn_snoc : forall A (l : list A) m x, nth_error l m = Some x -> firstn (S m) l = firstn m l ++ [x].
  Proof.
    induction l; intros [|m] x H; cbn in *; try discriminate; [congruence|]. f_equal. now apply IHl.
  Qed.
  Lemma filter_le : forall A (f : A -> bool) l, (length (filter f l) <= length l)%nat.
  Proof. induction l; cbn; [lia|]. destruct (f a); cbn; lia. Qed.
  Lemma filter_neg : forall A (f : A -> bool) l,
    (length (filter f l) + length (filter (fun x => negb (f x)) l) = length l)%nat.
  Proof. induction l; cbn; [lia|]. destruct (f a); cbn; lia. Qed.

  Lemma full_bins_count : forall qs a mn mx bins,
    Z.of_nat (length qs) < 255 * 2 ^ 23 -> binsOf cen (addBox p boxes) qs a mn mx bins ->
    (forall j, 0 <= j < 8 -> exists q, In q qs /\ inBin cen mn mx a j q = true) ->
    forall i, 0 <= i < 7 ->
      counters (firstn (Z.to_nat (i + 1)) bins) = Z.of_nat (length (filter (upToBin cen mn mx a i) qs)) /\
      counters (skipn (Z.to_nat (i + 1)) bins) =
        Z.of_nat (length (filter (fun q => negb (upToBin cen mn mx a i q)) qs)).
  Proof.
    intros qs a mn mx bins Hl (L & HQ & HB) Hne i Hi.
    assert (C : forall m, (m <= 8)%nat -> counters (firstn m bins) = Z.of_nat (length (filter (upToBin cen mn mx a (Z.of_nat m - 1)) qs))).
    { induction m as [|m IH]; intros Hm.
      - cbn [firstn]. rewrite upTo_neg by exact HQ. reflexivity.
      - destruct (HB (Z.of_nat m) ltac:(lia)) as (b & [_ Hb] & Hbox). rewrite Nat2Z.id in Hb.
        rewrite (firstn_snoc _ _ _ _ Hb), counters_app, IH by lia.
        rewrite (upTo_step mn mx a (Z.of_nat (S m) - 1)).
        replace (Z.of_nat (S m) - 1) with (Z.of_nat m) by lia.
        apply boxOf_count in Hbox.
        + unfold counters. cbn [fold_right]. rewrite Hbox. lia.
        + destruct (Hne (Z.of_nat m) ltac:(lia)) as (q & Hq & Hin). intros E0.
          assert (In q (filter (inBin cen mn mx a (Z.of_nat m)) qs)) by (apply filter_In; auto).
          rewrite E0 in H. destruct H.
        + pose proof (filter_le _ (inBin cen mn mx a (Z.of_nat m)) qs). lia. }
    assert (C1 := C (Z.to_nat (i + 1)) ltac:(lia)). replace (Z.of_nat (Z.to_nat (i + 1)) - 1) with i in C1 by lia.
    split; [exact C1|].
    assert (C8 := C 8%nat ltac:(lia)). rewrite firstn_all2 in C8 by lia.
    rewrite <- (firstn_skipn (Z.to_nat (i + 1)) bins), counters_app, C1 in C8.
    assert (A8 : filter (upToBin cen mn mx a (Z.of_nat 8 - 1)) qs = qs).
    { clear - HQ. induction qs as [|q qs IH]; [reflexivity|]. cbn [filter].
      destruct (HQ q (or_introl eq_refl)) as (w & t & E1 & E2 & E3). unfold upToBin at 1. rewrite E1, E2.
      assert (t <= 7).
      { unfold binNumber in E2. apply bind_Ok in E2. destruct E2 as (z & _ & E2). inversion E2.
        destruct (Z.ltb_spec z 7); lia. }
      destruct (Z.leb_spec t (Z.of_nat 8 - 1)); [|lia]. rewrite IH; [reflexivity|]. intros q' Hq. apply HQ. now right. }
    rewrite A8 in C8. pose proof (filter_neg _ (upToBin cen mn mx a i) qs). lia.
  Qed.
End Counters.

(** ** Centroids of triangles *)
Local Open Scope R_scope.
Lemma third_of_sum : forall a b c : f32, fin a -> fin b -> fin c ->
  Rabs (val a) <= bpow radix2 120 -> Rabs (val b) <= bpow radix2 120 -> Rabs (val c) <= bpow radix2 120 ->
  let m := ((a + b + c) * (f1 / slit 3 0))%sc in
  fin m /\ Rabs (val m - (val a + val b + val c) / 3) <=
    bpow radix2 (-23) * (Rabs (val a) + Rabs (val b) + Rabs (val c)) + bpow radix2 (-150).
Proof.
  intros a b c Fa Fb Fc Ba Bb Bc. cbv zeta.
  assert (B124 : bpow radix2 124 = 16 * bpow radix2 120) by (change 124%Z with (4 + 120)%Z; rewrite bpow_plus; reflexivity).
  assert (BP : 0 < bpow radix2 120) by apply bpow_gt_0.
  assert (SM : forall x, Rabs x <= 16 * bpow radix2 120 -> small x).
  { intros x Hx. unfold small. apply Rle_trans with (bpow radix2 124); [lra|apply bpow_le; lia]. }
  pose proof u24_val as U. pose proof eta0_pos as EP. pose proof eta0_small as ES.
  destruct (lit_Z 3 ltac:(reflexivity)) as [F3 V3]. destruct f1_f as [F1 V1].
  destruct (div_small f1 (slit 3 0 : f32) F1 F3) as [Ft Vt].
  { rewrite V3. lra. }
  { rewrite V1, V3. unfold small. rewrite Rabs_pos_eq by lra. apply Rle_trans with (bpow radix2 0); [cbn; lra|apply bpow_le; lia]. }
  rewrite V1, V3 in Vt. set (t := (f1 / slit 3 0 : f32)%sc) in *.
  assert (T : Rabs (val t - 1 / 3) <= / 16777216 / 3 + eta0).
  { rewrite Vt. pose proof (rnd_err (1 / 3)) as R. rewrite (Rabs_pos_eq (1 / 3)), U in R by lra. lra. }
  assert (Tp : Rabs (val t) <= 34 / 100) by (apply Rabs_le_inv in T; apply Rabs_le; lra).
  pose proof (Rabs_pos (val a)) as Pa. pose proof (Rabs_pos (val b)) as Pb. pose proof (Rabs_pos (val c)) as Pc.
  pose proof (Rabs_triang (val a) (val b)) as Tab.
  destruct (add_small a b Fa Fb) as [F4 V4]; [apply SM; lra|].
  pose proof (rnd_add_rel a b) as R1. rewrite <- V4, U in R1.
  set (s1 := (a + b)%sc) in *.
  assert (E1 : Rabs (val s1 - (val a + val b)) <= / 16777216 * (Rabs (val a) + Rabs (val b))) by lra.
  assert (S1 : Rabs (val s1) <= (1 + / 16777216) * (Rabs (val a) + Rabs (val b))).
  { replace (val s1) with ((val s1 - (val a + val b)) + (val a + val b)) by ring.
    eapply Rle_trans; [apply Rabs_triang|]. lra. }
  pose proof (Rabs_triang (val s1) (val c)) as Tsc.
  destruct (add_small s1 c F4 Fc) as [F5 V5]; [apply SM; lra|].
  pose proof (rnd_add_rel s1 c) as R2. rewrite <- V5, U in R2. set (s2 := (s1 + c)%sc) in *.
  set (M := Rabs (val a) + Rabs (val b) + Rabs (val c)) in *. set (S := val a + val b + val c) in *.
  assert (MP : 0 <= M) by (unfold M; lra).
  assert (E2 : Rabs (val s2 - S) <= 3 * / 16777216 * M).
  { replace (val s2 - S) with ((val s2 - (val s1 + val c)) + (val s1 - (val a + val b))) by (unfold S; ring).
    eapply Rle_trans; [apply Rabs_triang|]. unfold M. lra. }
  assert (SA : Rabs S <= M).
  { unfold S, M. eapply Rle_trans; [apply Rabs_triang|]. lra. }
  assert (S2 : Rabs (val s2) <= (1 + 3 * / 16777216) * M).
  { replace (val s2) with ((val s2 - S) + S) by ring. eapply Rle_trans; [apply Rabs_triang|]. lra. }
  assert (P1 : Rabs (val s2) * Rabs (val t) <= (1 + 3 * / 16777216) * M * (34 / 100))
    by (apply Rmult_le_compat; try apply Rabs_pos; assumption).
  destruct (mul_small s2 t F5 Ft) as [F6 V6].
  { apply SM. rewrite Rabs_mult. eapply Rle_trans; [exact P1|]. unfold M. lra. }
  split; [exact F6|]. rewrite V6. fold M. fold S.
  pose proof (rnd_err (val s2 * val t)) as R3. rewrite U, Rabs_mult in R3.
  assert (E3 : Rabs (val s2 * val t - S / 3) <= 3 * / 16777216 * M * (34 / 100) + M * (/ 16777216 / 3 + eta0)).
  { replace (val s2 * val t - S / 3) with ((val s2 - S) * val t + S * (val t - 1 / 3)) by field.
    eapply Rle_trans; [apply Rabs_triang|]. rewrite !Rabs_mult. apply Rplus_le_compat.
    - apply Rmult_le_compat; try apply Rabs_pos; assumption.
    - apply Rmult_le_compat; try apply Rabs_pos; assumption. }
  replace (rnd (val s2 * val t) - S / 3) with ((rnd (val s2 * val t) - val s2 * val t) + (val s2 * val t - S / 3)) by ring.
  eapply Rle_trans; [apply Rabs_triang|].
  change (bpow radix2 (-150)) with eta0. assert (E23 : bpow radix2 (-23) = / 8388608) by (cbn; lra). rewrite E23.
  assert (M * eta0 <= / 1000000000000 * M) by (rewrite Rmult_comm; apply Rmult_le_compat_r; lra).
  lra.
Qed.

Lemma triangle_centroid : forall im vm vs is n q a b c,
  (0 <= q < n)%Z -> offsetsFit im n vs is -> (1 <= is)%Z ->
  triVertex im vm vs is q 0 a -> triVertex im vm vs is q 1 b -> triVertex im vm vs is q 2 c ->
  (forall x, x = x3 a \/ x = y3 a \/ x = z3 a \/ x = x3 b \/ x = y3 b \/ x = z3 b \/ x = x3 c \/ x = y3 c \/ x = z3 c ->
     fin x /\ Rabs (val x) <= bpow radix2 120) ->
  exists m, triangleCentroid im vm vs is q = Ok m /\
    meanOf (x3 a) (x3 b) (x3 c) (vx m) /\ meanOf (y3 a) (y3 b) (y3 c) (vy m) /\ meanOf (z3 a) (z3 b) (z3 c) (vz m).
Proof.
  intros im vm vs is n q a b c Hq (Ho & Hi) His Ta Tb Tc HB.
  assert (K : forall j v, (0 <= j < 3)%Z -> triVertex im vm vs is q j v -> vertexOf im vm vs is q j = Ok (ofFloat3 v)).
  { intros j v Hj Tv. apply (vertexOf_spec im vm vs is q j (ofFloat3 v) n); try assumption. eauto. }
  unfold triangleCentroid. rewrite (K 0%Z a), (K 1%Z b), (K 2%Z c) by (assumption || lia). cbn [bind].
  eexists. split; [reflexivity|].
  split; [|split]; apply third_of_sum; apply HB; auto 10.
Qed.
