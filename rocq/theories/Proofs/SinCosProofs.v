(** Accuracy of the SIMD sine and cosine. *)
From Coq Require Import ZArith Bool Reals Lra Lia Psatz List.
From Flocq Require Import Core.Core IEEE754.BinarySingleNaN IEEE754.Binary IEEE754.Bits.
From Verif.Model Require Import Outcome Scalar Vec Simd IntVec SimdInt Lanes Transc.
From Verif.Proofs Require Import OrdScalar F32Round F32Err NumericProofs LaneProofs IntConv PiBounds Approx RealTrans ExpProofs LogProofs.
Local Open Scope R_scope.

(** ** The two polynomials *)
Definition cosP (x : R) : R := (11184805 / 268435456 + (6716135 / 274877906944 * (x * x) - 5964557 / 4294967296) * (x * x)) * (x * x) * (x * x) - / 2 * (x * x) + 1.
Definition sinP (x : R) : R := ((4473295 / 536870912 + -13410809 / 68719476736 * (x * x)) * (x * x) - 11184803 / 67108864) * (x * x) * x + x.
Lemma polyCos_near : forall p (x : f32), fin x -> Rabs (val x) <= 0.788 -> ap (polyCos p x) (cosP (val x)) 0.0000001406 1.32688.
Proof.
  intros p x Fx Bx. pose proof u24_val as Hu. pose proof eta0_small as He.
  assert (AX : ap x (val x) 0 0.788) by (apply ap_bnd with (Rabs (val x)); [apply ap_exact, Fx|exact Bx]).
  assert (A2 : ap _ (val x * val x) 0.00000003702 0.620944) by (refine (ap_mul' _ _ _ _ _ _ _ _ _ _ AX AX _ _ _); rewrite ?Hu; lra).
  assert (K3 : ap (slit 6716135 (-38)) (6716135 / 274877906944) 0 0.000024434) by (apply ap_const; [lia|lia|cbn; lra|lra|lra]).
  assert (K2 : ap (slit 5964557 (-32)) (5964557 / 4294967296) 0 0.0013888) by (apply ap_const; [lia|lia|cbn; lra|lra|lra]).
  assert (K1 : ap (slit 11184805 (-28)) (11184805 / 268435456) 0 0.041667) by (apply ap_const; [lia|lia|cbn; lra|lra|lra]).
  assert (KH : ap fhalf (/ 2) 0 0.5) by (apply ap_const; [lia|lia|cbn; lra|lra|lra]).
  assert (KO : ap f1 1 0 1) by (apply ap_const; [lia|lia|cbn; lra|lra|lra]).
  assert (B1 : ap _ (6716135 / 274877906944 * (val x * val x)) 0.000000000002809 0.0000151722) by (refine (ap_mul' _ _ _ _ _ _ _ _ _ _ K3 A2 _ _ _); rewrite ?Hu; lra).
  assert (B2 : ap _ (6716135 / 274877906944 * (val x * val x) - 5964557 / 4294967296) 0.00000000008750 0.00140398) by (refine (ap_sub' _ _ _ _ _ _ _ _ _ _ B1 K2 _ _ _); rewrite ?Hu; lra).
  assert (B3 : ap _ (11184805 / 268435456 + (6716135 / 274877906944 * (val x * val x) - 5964557 / 4294967296) * (val x * val x)) 0.000000002696 0.0425388) by (refine (ap_fma' p _ _ _ _ _ _ _ _ _ _ _ _ 0.00087180 0.0000000001593 _ _ B2 A2 K1 _ _ _ _ _ _); rewrite ?Hu; lra).
  assert (B4 : ap _ ((11184805 / 268435456 + (6716135 / 274877906944 * (val x * val x) - 5964557 / 4294967296) * (val x * val x)) * (val x * val x)) 0.000000004825 0.0264143) by (refine (ap_mul' _ _ _ _ _ _ _ _ _ _ B3 A2 _ _ _); rewrite ?Hu; lra).
  assert (B5 : ap _ ((11184805 / 268435456 + (6716135 / 274877906944 * (val x * val x) - 5964557 / 4294967296) * (val x * val x)) * (val x * val x) * (val x * val x)) 0.000000004953 0.0164019) by (refine (ap_mul' _ _ _ _ _ _ _ _ _ _ B4 A2 _ _ _); rewrite ?Hu; lra).
  assert (B6 : ap _ (/ 2 * (val x * val x)) 0.00000003702 0.310472) by (refine (ap_mul' _ _ _ _ _ _ _ _ _ _ KH A2 _ _ _); rewrite ?Hu; lra).
  assert (B7 : ap _ ((11184805 / 268435456 + (6716135 / 274877906944 * (val x * val x) - 5964557 / 4294967296) * (val x * val x)) * (val x * val x) * (val x * val x) - / 2 * (val x * val x)) 0.00000006146 0.326874) by (refine (ap_sub' _ _ _ _ _ _ _ _ _ _ B5 B6 _ _ _); rewrite ?Hu; lra).
  assert (B8 : ap _ ((11184805 / 268435456 + (6716135 / 274877906944 * (val x * val x) - 5964557 / 4294967296) * (val x * val x)) * (val x * val x) * (val x * val x) - / 2 * (val x * val x) + 1) 0.0000001406 1.32688) by (refine (ap_add' _ _ _ _ _ _ _ _ _ _ B7 KO _ _ _); rewrite ?Hu; lra).
  exact B8.
Qed.
Lemma polySin_near : forall p (x : f32), fin x -> Rabs (val x) <= 0.788 -> ap (polySin p x) (sinP (val x)) 0.00000007253 0.872122.
Proof.
  intros p x Fx Bx. pose proof u24_val as Hu. pose proof eta0_small as He.
  assert (AX : ap x (val x) 0 0.788) by (apply ap_bnd with (Rabs (val x)); [apply ap_exact, Fx|exact Bx]).
  assert (A2 : ap _ (val x * val x) 0.00000003702 0.620944) by (refine (ap_mul' _ _ _ _ _ _ _ _ _ _ AX AX _ _ _); rewrite ?Hu; lra).
  assert (K3 : ap (slit (-13410809) (-36)) (-13410809 / 68719476736) 0 0.00019516) by (apply ap_const; [lia|lia|cbn; lra|lra|lra]).
  assert (K2 : ap (slit 4473295 (-29)) (4473295 / 536870912) 0 0.0083322) by (apply ap_const; [lia|lia|cbn; lra|lra|lra]).
  assert (K1 : ap (slit 11184803 (-26)) (11184803 / 67108864) 0 0.16667) by (apply ap_const; [lia|lia|cbn; lra|lra|lra]).
  assert (B3 : ap _ (4473295 / 536870912 + -13410809 / 68719476736 * (val x * val x)) 0.0000000005204 0.00845339) by (refine (ap_fma' p _ _ _ _ _ _ _ _ _ _ _ _ 0.00012119 0.00000000001545 _ _ K3 A2 K2 _ _ _ _ _ _); rewrite ?Hu; lra).
  assert (B4 : ap _ ((4473295 / 536870912 + -13410809 / 68719476736 * (val x * val x)) * (val x * val x)) 0.0000000009500 0.00524909) by (refine (ap_mul' _ _ _ _ _ _ _ _ _ _ B3 A2 _ _ _); rewrite ?Hu; lra).
  assert (B5 : ap _ ((4473295 / 536870912 + -13410809 / 68719476736 * (val x * val x)) * (val x * val x) - 11184803 / 67108864) 0.00000001120 0.171920) by (refine (ap_sub' _ _ _ _ _ _ _ _ _ _ B4 K1 _ _ _); rewrite ?Hu; lra).
  assert (B6 : ap _ (((4473295 / 536870912 + -13410809 / 68719476736 * (val x * val x)) * (val x * val x) - 11184803 / 67108864) * (val x * val x)) 0.00000001969 0.106753) by (refine (ap_mul' _ _ _ _ _ _ _ _ _ _ B5 A2 _ _ _); rewrite ?Hu; lra).
  assert (B7 : ap _ (((4473295 / 536870912 + -13410809 / 68719476736 * (val x * val x)) * (val x * val x) - 11184803 / 67108864) * (val x * val x) * val x) 0.00000002054 0.0841214) by (refine (ap_mul' _ _ _ _ _ _ _ _ _ _ B6 AX _ _ _); rewrite ?Hu; lra).
  assert (B8 : ap _ (((4473295 / 536870912 + -13410809 / 68719476736 * (val x * val x)) * (val x * val x) - 11184803 / 67108864) * (val x * val x) * val x + val x) 0.00000007253 0.872122) by (refine (ap_add' _ _ _ _ _ _ _ _ _ _ B7 AX _ _ _); rewrite ?Hu; lra).
  exact B8.
Qed.
Lemma cosP_near : forall x, Rabs x <= 0.788 -> Rabs (cosP x - cos x) <= 0.00000015.
Proof.
  intros x H. pose proof (cos_poly2 x ltac:(lra)) as T.
  pose proof (pow_bound x _ 12 0.0574 H ltac:(cbn [pow]; lra)) as P12. 
  pose proof (pow_bound x _ 10 0.0924 H ltac:(cbn [pow]; lra)) as P10. pose proof (pow_bound x _ 8 0.1487 H ltac:(cbn [pow]; lra)) as P8.
  pose proof (pow_bound x _ 6 0.2395 H ltac:(cbn [pow]; lra)) as P6. pose proof (pow_bound x _ 4 0.3856 H ltac:(cbn [pow]; lra)) as P4.
  assert (D : Rabs (cosP x - cosT x) <= 0.000000149).
  { replace (cosP x - cosT x) with ((11184805 / 268435456 - 1/24) * x^4 - (5964557 / 4294967296 - 1/720) * x^6
      + (6716135 / 274877906944 - 1/40320) * x^8 + x^10/3628800) by (unfold cosP, cosT; field).
    apply Rabs_le. lra. }
  replace (cosP x - cos x) with ((cosP x - cosT x) + - (cos x - cosT x)) by ring.
  eapply Rle_trans; [apply Rabs_triang|]. rewrite Rabs_Ropp. lra.
Qed.
Lemma sinP_near : forall x, Rabs x <= 0.788 -> Rabs (sinP x - sin x) <= 0.00000007.
Proof.
  intros x H. pose proof (sin_poly2 x ltac:(lra)) as T.
  assert (P13 : Rabs x ^ 13 <= 0.0453).
  { eapply Rle_trans; [apply pow_incr; split; [apply Rabs_pos|exact H]|]. cbn [pow]. lra. }
  pose proof (pow_bound x _ 3 0.4894 H ltac:(cbn [pow]; lra)) as P3.
  set (y := x ^ 2).
  assert (Y : 0 <= y <= 0.621).
  { pose proof (pow_bound x _ 2 0.621 H ltac:(cbn [pow]; lra)). unfold y in *. split; [cbn; nra|lra]. }
  set (g := (1/6 - 11184803 / 67108864) + (4473295 / 536870912 - 1/120) * y + (1/5040 - 13410809 / 68719476736) * y^2
            - y^3/362880 + y^4/39916800).
  assert (G : Rabs g <= 0.000000125).
  { assert (Y4 : 0 <= y^4 <= 0.15).
    { destruct (pow_bound y 0.621 4 0.15) as [_ U]; [apply Rabs_le; lra|cbn [pow]; lra|]. split; [apply pow_le; lra|exact U]. }
    assert (U : 0 <= y * (1.17 - 3.26 * y + 2.75 * y^2)) by (apply Rmult_le_pos; [lra|cbn [pow]; nra]).
    assert (L : 0 <= 0.234 - 1.173 * y + 3.259 * y^2 - 2.756 * y^3) by (cbn [pow]; nra).
    assert (y^2 <= 0.4) by (cbn [pow]; nra). assert (0 <= y^2) by (apply pow_le; lra).
    assert (0 <= y^3) by (apply pow_le; lra). assert (y^3 <= 0.25) by (cbn [pow]; nra).
    unfold g. apply Rabs_le. split; [lra|].
    assert (U' : 0 <= 1.17 * y - 3.26 * y^2 + 2.75 * y^3) by (replace (1.17 * y - 3.26 * y^2 + 2.75 * y^3) with (y * (1.17 - 3.26 * y + 2.75 * y^2)) by ring; exact U).
    lra. }
  assert (D : Rabs (sinP x - sinT x) <= 0.0000000615).
  { replace (sinP x - sinT x) with (x^3 * g) by (unfold sinP, sinT, g, y; field).
    rewrite Rabs_mult. apply Rle_trans with (0.4894 * 0.000000125); [|lra].
    apply Rmult_le_compat; try apply Rabs_pos; [apply Rabs_le; exact P3|exact G]. }
  replace (sinP x - sin x) with ((sinP x - sinT x) + - (sin x - sinT x)) by ring.
  eapply Rle_trans; [apply Rabs_triang|]. rewrite Rabs_Ropp. lra.
Qed.

(** ** Sign bits *)
Lemma bits_opp : forall x : f32, fin x ->
  bits_of_b32 (b32_opp x) = Z.lxor (bits_of_b32 x) (2 ^ 31).
Proof.
  intros x Fx.
  assert (D : (bits_of_b32 (b32_opp x) = bits_of_b32 x + 2 ^ 31 /\ bits_of_b32 x < 2 ^ 31)%Z \/
              (bits_of_b32 x = bits_of_b32 (b32_opp x) + 2 ^ 31 /\ bits_of_b32 (b32_opp x) < 2 ^ 31)%Z).
  { pose proof (bits_range x) as R1. pose proof (bits_range (b32_opp x)) as R2.
    assert (K : (bits_of_b32 (b32_opp x) = bits_of_b32 x + 2 ^ 31 \/ bits_of_b32 x = bits_of_b32 (b32_opp x) + 2 ^ 31)%Z).
    { destruct x as [s|s|s pl E|s m e E]; try discriminate; destruct s; auto.
      - right. unfold bits_of_b32, b32_opp, Bopp, bits_of_binary_float, join_bits. cbn [negb]. destruct (0 <=? _)%Z; rewrite !Z.shiftl_mul_pow2 by lia; lia.
      - left. unfold bits_of_b32, b32_opp, Bopp, bits_of_binary_float, join_bits. cbn [negb]. destruct (0 <=? _)%Z; rewrite !Z.shiftl_mul_pow2 by lia; lia. }
    lia. }
  assert (A : forall a, (0 <= a < 2 ^ 31)%Z -> Z.lxor a (2 ^ 31) = (a + 2 ^ 31)%Z).
  { intros a Ha. symmetry. apply Z.add_nocarry_lxor. apply Z.bits_inj'. intros n Hn.
    rewrite Z.land_spec, Z.pow2_bits_eqb, Z.bits_0 by lia. destruct (Z.eqb_spec 31 n) as [<-|Ne]; [|apply andb_false_r].
    rewrite andb_true_r. destruct (Z.eq_dec a 0) as [->|Nz]; [apply Z.bits_0|].
    apply Z.bits_above_log2; [lia|]. apply Z.log2_lt_pow2; lia. }
  pose proof (bits_range x) as R1. pose proof (bits_range (b32_opp x)) as R2.
  destruct D as [[E L]|[E L]].
  - rewrite A by lia. exact E.
  - rewrite E. rewrite <- A by lia. rewrite Z.lxor_assoc, Z.lxor_nilpotent, Z.lxor_0_r. reflexivity.
Qed.
Lemma of_bits : forall x : f32, b32_of_bits (bits_of_b32 x) = x.
Proof. intros x. unfold b32_of_bits, bits_of_b32. apply (binary_float_of_bits_of_binary_float 23 8 eq_refl eq_refl eq_refl). Qed.
Definition sgnMask (b : bool) : Z := if b then (2 ^ 31)%Z else 0%Z.
Lemma flip_sign : forall (x : f32) b, fin x ->
  fin (b32_of_bits (Z.lxor (bits_of_b32 x) (sgnMask b))) /\
  val (b32_of_bits (Z.lxor (bits_of_b32 x) (sgnMask b))) = (if b then - val x else val x).
Proof.
  intros x b Fx. destruct b; cbn [sgnMask].
  - rewrite <- bits_opp by exact Fx. rewrite of_bits. unfold b32_opp. rewrite is_finite_Bopp, B2R_Bopp. split; [exact Fx|reflexivity].
  - rewrite Z.lxor_0_r, of_bits. split; [exact Fx|reflexivity].
Qed.
Lemma sgnMask_xor : forall a b, Z.lxor (sgnMask a) (sgnMask b) = sgnMask (xorb a b).
Proof. intros [] []; reflexivity. Qed.
Lemma scSign_val : forall v : f32, scSign v = sgnMask (Bsign 24 128 v).
Proof.
  intros v. unfold scSign, signMask. rewrite <- bits_top. apply Z.bits_inj'. intros n Hn. rewrite Z.land_spec, (Z.pow2_bits_eqb 31) by lia.
  destruct (Z.eqb_spec 31 n) as [<-|Ne].
  - destruct (Z.testbit (bits_of_b32 v) 31); reflexivity.
  - rewrite andb_false_r. unfold sgnMask. destruct (Z.testbit (bits_of_b32 v) 31); [|now rewrite Z.bits_0].
    rewrite Z.pow2_bits_eqb by lia. symmetry. apply Z.eqb_neq. exact Ne.
Qed.
Lemma scAbs_val : forall v : f32, fin v -> fin (scAbs v) /\ val (scAbs v) = Rabs (val v).
Proof.
  intros v Fv. unfold scAbs. rewrite scSign_val. destruct (flip_sign v (Bsign 24 128 v) Fv) as [F V]. split; [exact F|].
  rewrite V. pose proof (sign_val v Fv) as S. destruct (Bsign 24 128 v).
  - rewrite Rabs_left1 by lra. reflexivity.
  - rewrite Rabs_right by lra. reflexivity.
Qed.
(** ** Quadrant bits *)
Lemma quad_bits : forall q, (0 <= q < 2 ^ 31)%Z ->
  Z.testbit (toU32 (Z.shiftl q 31)) 31 = Z.odd q /\ toU32 (Z.shiftl q 31) = sgnMask (Z.odd q) /\
  Z.land (toU32 (Z.shiftl q 30)) signMask = sgnMask (Z.odd (q / 2)).
Proof.
  intros q Hq. assert (E : exists j i, (q = 4 * j + i /\ 0 <= i < 4)%Z).
  { exists (q / 4)%Z, (q mod 4)%Z. split; [apply Z.div_mod; lia|apply Z.mod_pos_bound; lia]. }
  destruct E as (j & i & -> & Hi). rewrite !Z.shiftl_mul_pow2 by lia. unfold toU32.
  replace ((4 * j + i) * 2 ^ 31)%Z with (i * 2 ^ 31 + (2 * j) * 2 ^ 32)%Z by lia.
  replace ((4 * j + i) * 2 ^ 30)%Z with (i * 2 ^ 30 + j * 2 ^ 32)%Z by lia.
  rewrite !Z.mod_add by lia.
  assert (O1 : Z.odd (4 * j + i) = Z.odd i) by (rewrite Z.add_comm; replace (4 * j)%Z with (2 * (2 * j))%Z by lia; apply Z.odd_add_mul_2).
  assert (O2 : Z.odd ((4 * j + i) / 2) = Z.odd (i / 2)).
  { replace (4 * j + i)%Z with (i + (2 * j) * 2)%Z by lia. rewrite Z.div_add by lia. apply Z.odd_add_mul_2. }
  rewrite O1, O2. assert (C : (i = 0 \/ i = 1 \/ i = 2 \/ i = 3)%Z) by lia.
  destruct C as [->|[->|[->| ->]]]; repeat split.
Qed.
Lemma sin_quad : forall q r, (0 <= q)%Z ->
  sin (r + IZR q * (PI / 2)) = (let t := if Z.odd q then cos r else sin r in if Z.odd (q / 2) then - t else t) /\
  cos (r + IZR q * (PI / 2)) = (let t := if Z.odd q then sin r else cos r in if xorb (Z.odd q) (Z.odd (q / 2)) then - t else t).
Proof.
  intros q r Hq. assert (E : exists j i, (q = 4 * j + i /\ 0 <= i < 4 /\ 0 <= j)%Z).
  { exists (q / 4)%Z, (q mod 4)%Z. split; [apply Z.div_mod; lia|]. split; [apply Z.mod_pos_bound; lia|]. apply Z.div_pos; lia. }
  destruct E as (j & i & -> & Hi & Hj).
  assert (O1 : Z.odd (4 * j + i) = Z.odd i) by (rewrite Z.add_comm; replace (4 * j)%Z with (2 * (2 * j))%Z by lia; apply Z.odd_add_mul_2).
  assert (O2 : Z.odd ((4 * j + i) / 2) = Z.odd (i / 2)).
  { replace (4 * j + i)%Z with (i + (2 * j) * 2)%Z by lia. rewrite Z.div_add by lia. apply Z.odd_add_mul_2. }
  rewrite O1, O2. replace (r + IZR (4 * j + i) * (PI / 2)) with (r + IZR i * (PI / 2) + 2 * INR (Z.to_nat j) * PI).
  2:{ rewrite INR_IZR_INZ, Z2Nat.id by lia. rewrite plus_IZR, mult_IZR. field. }
  rewrite sin_period, cos_period. assert (C : (i = 0 \/ i = 1 \/ i = 2 \/ i = 3)%Z) by lia.
  destruct C as [->|[->|[->| ->]]]; cbn -[PI sin cos].
  - replace (r + 0 * (PI / 2)) with r by ring. split; reflexivity.
  - replace (r + 1 * (PI / 2)) with (PI / 2 + r) by ring. rewrite <- cos_sin, cos_plus, cos_PI2, sin_PI2. split; ring.
  - replace (r + 2 * (PI / 2)) with (r + PI) by field. rewrite neg_sin, neg_cos. split; reflexivity.
  - replace (r + 3 * (PI / 2)) with (PI / 2 + r + PI) by field. rewrite neg_sin, neg_cos, <- cos_sin, cos_plus, cos_PI2, sin_PI2. split; ring.
Qed.

(** ** The quadrant and the reduced argument *)
Lemma quad_near : forall p (v : f32), fin v -> Rabs (val v) <= 8192 ->
  (0 <= scQuad p v <= 5217)%Z /\ Rabs (Rabs (val v) - IZR (scQuad p v) * (PI / 2)) <= 0.7872.
Proof.
  intros p v Fv Bv. destruct (scAbs_val v Fv) as [Fa Va]. pose proof u24_val as Hu. pose proof eta0_small as He.
  pose proof (Rabs_pos (val v)) as Pv.
  assert (A2 : ap twoOverPi (10680707 / 16777216) 0 0.63662) by (apply ap_const; [lia|lia|cbn; lra|lra|lra]).
  assert (AA : ap (scAbs v) (val (scAbs v)) 0 8192).
  { apply ap_bnd with (Rabs (val (scAbs v))); [apply ap_exact, Fa|]. rewrite Va, Rabs_Rabsolu. exact Bv. }
  assert (AH : ap fhalf (/ 2) 0 0.5) by (apply ap_const; [lia|lia|cbn; lra|lra|lra]).
  assert (T : ap (simdfma p twoOverPi (scAbs v) fhalf) (/ 2 + 10680707 / 16777216 * val (scAbs v)) 0.000623 5216).
  { refine (ap_fma' p _ _ _ _ _ _ _ _ _ _ _ _ 5215.2 0.000311 _ _ A2 AA AH _ _ _ _ _ _); rewrite ?Hu; lra. }
  destruct T as (Ft & Et & _). unfold scQuad, u32ofF32s. set (t := simdfma p twoOverPi (scAbs v) fhalf) in *.
  rewrite Va in Et. set (a := Rabs (val v)) in *. apply Rabs_le_inv in Et.
  destruct (u32ofF32_right p t Ft) as (q & -> & Q1 & Q2); [lra|destruct p; lra|].
  rewrite plus_IZR in Q2.
  assert (Hq : (0 <= q <= 5217)%Z).
  { assert ((-1 < q)%Z) by (apply lt_IZR; lra). assert ((q < 5218)%Z) by (apply lt_IZR; lra). lia. }
  split; [exact Hq|]. pose proof PI_lower. pose proof PI_upper.
  assert (Iq : 0 <= IZR q <= 5217) by (split; apply IZR_le; lia).
  apply Rabs_le. 
  assert (M1 : IZR q * (PI / 2) <= IZR q * (314159265359 / 200000000000)) by (apply Rmult_le_compat_l; lra).
  assert (M2 : IZR q * (314159265358 / 200000000000) <= IZR q * (PI / 2)) by (apply Rmult_le_compat_l; lra).
  lra.
Qed.
Lemma u32q_val : forall p q, p <> GEN -> (0 <= q <= 5217)%Z ->
  fin (f32ofU32 p q) /\ val (f32ofU32 p q) = IZR q.
Proof.
  intros p q Hp Hq. assert (E : f32ofU32 p q = slit q 0).
  { destruct p; try congruence; cbn [f32ofU32]; rewrite ?toI32_small by lia; reflexivity. }
  rewrite E. apply lit_Z. lia.
Qed.
Lemma red_near : forall p (v : f32), p <> GEN -> fin v -> Rabs (val v) <= 8192 ->
  fin (scRed p v) /\ Rabs (val (scRed p v) - (Rabs (val v) - IZR (scQuad p v) * (PI / 2))) <= 0.00000033.
Proof.
  intros p v Hp Fv Bv. destruct (quad_near p v Fv Bv) as [Hq Rq]. destruct (scAbs_val v Fv) as [Fa Va].
  pose proof u24_val as Hu. pose proof eta0_small as He.
  unfold scRed. set (q := scQuad p v) in *. destruct (u32q_val p q Hp Hq) as [Fq Vq]. set (f := f32ofU32 p q) in *.
  pose proof PI_lower as PL. pose proof PI_upper as PU. assert (Iq : 0 <= IZR q <= 5217) by (split; apply IZR_le; lia).
  set (a := Rabs (val v)) in *.
  assert (M1 : IZR q * (PI / 2) <= IZR q * (314159265359 / 200000000000)) by (apply Rmult_le_compat_l; lra).
  assert (M2 : IZR q * (314159265358 / 200000000000) <= IZR q * (PI / 2)) by (apply Rmult_le_compat_l; lra).
  apply Rabs_le_inv in Rq.
  (* exact products *)
  assert (EA : ap (f * piA)%sc (IZR q * (201 / 128)) 0 8200).
  { destruct (lit_val 201 (-7) ltac:(lia) ltac:(lia)) as [F V]. change (fin piA) in F. change (val piA = 201 * bpow radix2 (-7)) in V.
    assert (X : val f * val piA = IZR (q * 201) * bpow radix2 (-7)) by (rewrite Vq, V, mult_IZR; ring).
    assert (B : 0 <= IZR (q * 201) * bpow radix2 (-7) <= 8200) by (rewrite mult_IZR; cbn; lra).
    destruct (mul_small f piA Fq F) as [G H]; [rewrite X; apply small_le with 8200; [rewrite Rabs_right by lra|]; lra|].
    split; [exact G|]. rewrite H, X, rnd_lit by lia. rewrite mult_IZR in *. change (bpow radix2 (-7)) with (/ 128) in *.
    split; [replace (IZR q * 201 * / 128 - IZR q * (201 / 128)) with 0 by field; rewrite Rabs_R0; lra|apply Rabs_le; lra]. }
  assert (EB : ap (f * piB)%sc (IZR q * (2029 / 4194304)) 0 2.524).
  { destruct (lit_val 2029 (-22) ltac:(lia) ltac:(lia)) as [F V]. change (fin piB) in F. change (val piB = 2029 * bpow radix2 (-22)) in V.
    assert (X : val f * val piB = IZR (q * 2029) * bpow radix2 (-22)) by (rewrite Vq, V, mult_IZR; ring).
    assert (B : 0 <= IZR (q * 2029) * bpow radix2 (-22) <= 8200) by (rewrite mult_IZR; cbn; lra).
    destruct (mul_small f piB Fq F) as [G H]; [rewrite X; apply small_le with 8200; [rewrite Rabs_right by lra|]; lra|].
    split; [exact G|]. rewrite H, X, rnd_lit by lia. rewrite mult_IZR in *. change (bpow radix2 (-22)) with (/ 4194304) in *.
    split; [replace (IZR q * 2029 * / 4194304 - IZR q * (2029 / 4194304)) with 0 by field; rewrite Rabs_R0; lra|apply Rabs_le; lra]. }
  assert (AQ : ap f (IZR q) 0 5217).
  { rewrite <- Vq. apply ap_bnd with (Rabs (val f)); [apply ap_exact, Fq|]. rewrite Vq. apply Rabs_le. lra. }
  assert (KC : ap piC (10625385 / 140737488355328) 0 0.0000000755) by (apply ap_const; [lia|lia|cbn; lra|lra|lra]).
  assert (EC : ap (f * piC)%sc (IZR q * (10625385 / 140737488355328)) 0.00000000003 0.000394).
  { refine (ap_mul' _ _ _ _ _ _ _ _ _ _ AQ KC _ _ _); rewrite ?Hu; lra. }
  assert (AV : ap (scAbs v) a 0 8192).
  { rewrite <- Va. apply ap_bnd with (Rabs (val (scAbs v))); [apply ap_exact, Fa|]. rewrite Va. unfold a. rewrite Rabs_Rabsolu. exact Bv. }
  assert (S1 : ap (scAbs v - f * piA)%sc (a - IZR q * (201 / 128)) 0.0000001975 3.313).
  { refine (ap_sub _ _ _ _ _ _ _ _ _ _ AV EA _ _ _); [apply Rabs_le|rewrite ?Hu..]; lra. }
  assert (S2 : ap (scAbs v - f * piA - f * piB)%sc (a - IZR q * (201 / 128) - IZR q * (2029 / 4194304)) 0.000000247 0.788).
  { refine (ap_sub _ _ _ _ _ _ _ _ _ _ S1 EB _ _ _); [apply Rabs_le|rewrite ?Hu..]; lra. }
  assert (S3 : ap (scAbs v - f * piA - f * piB - f * piC)%sc (a - IZR q * (201 / 128) - IZR q * (2029 / 4194304) - IZR q * (10625385 / 140737488355328)) 0.000000296 0.7874).
  { refine (ap_sub _ _ _ _ _ _ _ _ _ _ S2 EC _ _ _); [apply Rabs_le|rewrite ?Hu..]; lra. }
  destruct S3 as (F3 & E3 & _). split; [exact F3|].
  set (x := (scAbs v - f * piA - f * piB - f * piC)%sc) in *. apply Rabs_le_inv in E3. apply Rabs_le. lra.
Qed.
Lemma sin_lip : forall a b, Rabs (sin a - sin b) <= Rabs (a - b).
Proof.
  intros a b. destruct (MVT_abs sin cos b a) as (c & E & _).
  - intros x _. apply derivable_pt_lim_sin.
  - rewrite E. rewrite <- (Rmult_1_l (Rabs (a - b))) at 2. apply Rmult_le_compat_r; [apply Rabs_pos|].
    apply Rabs_le. apply COS_bound.
Qed.
Lemma cos_lip : forall a b, Rabs (cos a - cos b) <= Rabs (a - b).
Proof.
  intros a b. destruct (MVT_abs cos (fun x => - sin x) b a) as (c & E & _).
  - intros x _. apply derivable_pt_lim_cos.
  - rewrite E. rewrite <- (Rmult_1_l (Rabs (a - b))) at 2. apply Rmult_le_compat_r; [apply Rabs_pos|].
    rewrite Rabs_Ropp. apply Rabs_le. apply SIN_bound.
Qed.

Lemma flip_close : forall (b : bool) x y e, Rabs (x - y) <= e -> Rabs ((if b then - x else x) - (if b then - y else y)) <= e.
Proof. intros [] x y e H; [|exact H]. replace (- x - - y) with (- (x - y)) by ring. rewrite Rabs_Ropp. exact H. Qed.
Lemma sinCos_accurate : forall p (v : f32), p <> GEN -> fin v -> Rabs (val v) <= 8192 ->
  let '(s, c) := sinCosLane p v in
  fin s /\ fin c /\ Rabs (val s - sin (val v)) <= 0.00000065 /\ Rabs (val c - cos (val v)) <= 0.00000065.
Proof.
  intros p v Hp Fv Bv. destruct (quad_near p v Fv Bv) as [Hq Rq]. destruct (red_near p v Hp Fv Bv) as [Fx Ex].
  unfold sinCosLane. cbv zeta. set (q := scQuad p v) in *. set (x := scRed p v) in *.
  set (r := Rabs (val v) - IZR q * (PI / 2)) in *.
  destruct (quad_bits q ltac:(lia)) as (B0 & B1 & B2). rewrite B0, B1, B2, scSign_val, !sgnMask_xor.
  assert (Bx : Rabs (val x) <= 0.788) by (pose proof (abs_near _ _ _ _ Ex Rq); lra).
  destruct (polyCos_near p x Fx Bx) as (Fc & Ec & _). destruct (polySin_near p x Fx Bx) as (Fs & Es & _).
  pose proof (cosP_near _ Bx) as Cn. pose proof (sinP_near _ Bx) as Sn.
  assert (DC : Rabs (val (polyCos p x) - cos r) <= 0.00000065).
  { replace (val (polyCos p x) - cos r) with ((val (polyCos p x) - cosP (val x)) + ((cosP (val x) - cos (val x)) + (cos (val x) - cos r))) by ring.
    pose proof (cos_lip (val x) r).
    eapply Rle_trans; [apply Rabs_triang|]. eapply Rle_trans; [apply Rplus_le_compat_l, Rabs_triang|]. lra. }
  assert (DS : Rabs (val (polySin p x) - sin r) <= 0.00000065).
  { replace (val (polySin p x) - sin r) with ((val (polySin p x) - sinP (val x)) + ((sinP (val x) - sin (val x)) + (sin (val x) - sin r))) by ring.
    pose proof (sin_lip (val x) r).
    eapply Rle_trans; [apply Rabs_triang|]. eapply Rle_trans; [apply Rplus_le_compat_l, Rabs_triang|]. lra. }
  destruct (sin_quad q r ltac:(lia)) as [SQ CQ].
  replace (r + IZR q * (PI / 2)) with (Rabs (val v)) in SQ, CQ by (unfold r; ring).
  assert (SV : sin (val v) = if Bsign 24 128 v then - sin (Rabs (val v)) else sin (Rabs (val v))).
  { pose proof (sign_val v Fv) as S. destruct (Bsign 24 128 v).
    - rewrite Rabs_left1 by lra. rewrite sin_neg. ring.
    - rewrite Rabs_right by lra. reflexivity. }
  assert (CV : cos (val v) = cos (Rabs (val v))).
  { destruct (Rle_dec 0 (val v)); [rewrite Rabs_right by lra; reflexivity|]. rewrite Rabs_left by lra. rewrite cos_neg. reflexivity. }
  set (ps := if Z.odd q then polyCos p x else polySin p x). set (pc := if Z.odd q then polySin p x else polyCos p x).
  assert (Fps : fin ps) by (unfold ps; destruct (Z.odd q); assumption).
  assert (Fpc : fin pc) by (unfold pc; destruct (Z.odd q); assumption).
  destruct (flip_sign ps (xorb (Bsign 24 128 v) (Z.odd (q / 2))) Fps) as [F1 V1].
  destruct (flip_sign pc (xorb (Z.odd q) (Z.odd (q / 2))) Fpc) as [F2 V2].
  split; [exact F1|]. split; [exact F2|]. rewrite V1, V2, SV, CV, SQ, CQ. split.
  - cbv zeta. set (t := if Z.odd q then cos r else sin r).
    assert (D : Rabs (val ps - t) <= 0.00000065) by (unfold ps, t; destruct (Z.odd q); assumption).
    replace (if Bsign 24 128 v then - (if Z.odd (q / 2) then - t else t) else if Z.odd (q / 2) then - t else t)
      with (if xorb (Bsign 24 128 v) (Z.odd (q / 2)) then - t else t) by (destruct (Bsign 24 128 v), (Z.odd (q / 2)); cbn [xorb]; ring).
    apply flip_close, D.
  - cbv zeta. apply flip_close. unfold pc. destruct (Z.odd q); assumption.
Qed.
