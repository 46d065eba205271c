(** Accuracy of the SIMD exponential. *)
From Coq Require Import ZArith Bool Reals Lra Lia Psatz List.
From Flocq Require Import Core.Core IEEE754.BinarySingleNaN IEEE754.Binary IEEE754.Bits.
From Verif.Model Require Import Outcome Scalar Vec Simd IntVec SimdInt Lanes Transc.
From Verif.Proofs Require Import OrdScalar F32Round F32Err NumericProofs IntConv Approx RealTrans.
From Flocq Require Mult_error.
Local Open Scope R_scope.

(** ** Comparisons of finite numbers *)
Lemma slt_fin : forall a b : f32, fin a -> fin b -> slt a b = Rlt_bool (val a) (val b).
Proof.
  intros a b Ha Hb. rewrite slt_ext by (apply fin_num; assumption). rewrite !fin_ext by assumption. reflexivity.
Qed.
Lemma sle_fin : forall a b : f32, fin a -> fin b -> sle a b = Rle_bool (val a) (val b).
Proof.
  intros a b Ha Hb. rewrite sle_ext by (apply fin_num; assumption). rewrite !fin_ext by assumption. reflexivity.
Qed.

(** ** Powers of two from exponent bits *)
Definition powBits (k : Z) : bool :=
  match b32_of_bits (k * 2 ^ 23) with
  | B754_finite false m e _ => (Zpos m =? 2 ^ 23)%Z && (e =? k - 150)%Z
  | _ => false
  end.
Lemma powBits_all : forallb (fun n => powBits (Z.of_nat n)) (List.seq 1 254) = true.
Proof. vm_compute. reflexivity. Qed.
Lemma pow_bits : forall k, (1 <= k <= 254)%Z ->
  fin (b32_of_bits (k * 2 ^ 23)) /\ val (b32_of_bits (k * 2 ^ 23)) = bpow radix2 (k - 127).
Proof.
  intros k Hk. pose proof (proj1 (forallb_forall _ _) powBits_all (Z.to_nat k)) as H.
  cbv beta in H. rewrite Z2Nat.id in H by lia.
  assert (I : In (Z.to_nat k) (List.seq 1 254)) by (apply in_seq; lia). specialize (H I). unfold powBits in H.
  destruct (b32_of_bits (k * 2 ^ 23)) as [s|s|s pl E|s m e E]; try discriminate. destruct s; [discriminate|].
  apply andb_prop in H. destruct H as [H1 H2]. apply Z.eqb_eq in H1, H2. subst e. split; [reflexivity|].
  unfold B2R, F2R, Fnum, Fexp. change (cond_Zopp false (Zpos m)) with (Zpos m). rewrite H1.
  change (IZR (2 ^ 23)) with (bpow radix2 23). rewrite <- bpow_plus. f_equal. lia.
Qed.
Lemma intAsF_pow : forall a, (-126 <= a <= 127)%Z ->
  fin (intAsF (ishl (iadd a 127) 23)) /\ val (intAsF (ishl (iadd a 127) 23)) = bpow radix2 a.
Proof.
  intros a Ha.
  assert (E : intAsF (ishl (iadd a 127) 23) = b32_of_bits ((a + 127) * 2 ^ 23)).
  { unfold intAsF. f_equal. unfold iadd, ishl, toU32, toI32.
    rewrite (Z.mod_small (a + 127)) by lia. destruct (Z.ltb_spec (a + 127) (2 ^ 31)); [|lia].
    rewrite Z.shiftl_mul_pow2 by lia. rewrite (Z.mod_small ((a + 127) * 2 ^ 23)) by lia.
    destruct (Z.ltb_spec ((a + 127) * 2 ^ 23) (2 ^ 31)); [rewrite Z.mod_small by lia; reflexivity | lia]. }
  rewrite E. destruct (pow_bits (a + 127) ltac:(lia)) as [F V]. split; [exact F|]. rewrite V. f_equal. lia.
Qed.

(** ** Multiply-add with an exact product *)
Lemma simdfma_exact : forall p (a b c : f32), fin a -> fin b -> fin c ->
  Rabs (val a * val b) <= 500000 -> Rabs (val c) <= 400000 -> rnd (val a * val b) = val a * val b ->
  fin (simdfma p a b c) /\ val (simdfma p a b c) = rnd (val c + val a * val b).
Proof.
  intros p a b c Ha Hb Hc Hm Hs He.
  assert (S : small (val a * val b + val c)).
  { apply small_le with 900000; [|lra]. eapply Rle_trans; [apply Rabs_triang|]. lra. }
  assert (F : fin (sfma a b c) /\ val (sfma a b c) = rnd (val c + val a * val b)).
  { rewrite (Rplus_comm (val c)). apply fma_small; assumption. }
  assert (G : fin (c + a * b)%sc /\ val (c + a * b)%sc = rnd (val c + val a * val b)).
  { destruct (mul_small a b Ha Hb) as [M1 M2]; [apply small_le with 500000; lra|]. rewrite He in M2.
    rewrite <- M2. apply add_small; [assumption..|]. rewrite M2, Rplus_comm. exact S. }
  destruct p; assumption.
Qed.

(** ** Literals *)
Lemma lit_val : forall m e, (Z.abs m < 2 ^ 24)%Z -> (-149 <= e <= 100)%Z ->
  fin (slit m e : f32) /\ val (slit m e : f32) = IZR m * bpow radix2 e.
Proof. intros m e Hm He. apply lit_exact; lia. Qed.
Ltac litval L m e :=
  let A := fresh "F" in let B := fresh "V" in
  destruct (lit_val m e ltac:(lia) ltac:(lia)) as [A B];
  change (fin L) in A; change (val L = IZR m * bpow radix2 e) in B.

(** ** The quotient *)
Lemma Ztrunc_bounds : forall x : R,
  (0 <= x -> IZR (Ztrunc x) <= x < IZR (Ztrunc x) + 1) /\ (x <= 0 -> IZR (Ztrunc x) - 1 < x <= IZR (Ztrunc x)).
Proof.
  intros x. split; intros H.
  - rewrite Ztrunc_floor by exact H. split; [apply Zfloor_lb | apply Zfloor_ub].
  - rewrite Ztrunc_ceil by exact H. split; [|apply Zceil_ub].
    pose proof (Zceil_lb x). lra.
Qed.
Lemma i32ofF32_val : forall p x, fin x -> Rabs (val x) <= 1000000 -> i32ofF32 p x = Ztrunc (val x).
Proof.
  intros p x Hx Hb. unfold i32ofF32. rewrite strunc_val by exact Hx.
  assert (B : (- 1000001 <= Ztrunc (val x) <= 1000001)%Z).
  { apply Rabs_le_inv in Hb. destruct (Ztrunc_bounds (val x)) as [P N].
    destruct (Rle_dec 0 (val x)) as [H|H].
    - specialize (P H). split; apply le_IZR; lra.
    - specialize (N ltac:(lra)). split; apply le_IZR; lra. }
  assert (I : inI32 (Ztrunc (val x)) = true) by (unfold inI32; apply andb_true_intro; split; [apply Z.leb_le|apply Z.ltb_lt]; lia).
  destruct p; rewrite ?I; try reflexivity. lia.
Qed.

Definition expRange (v : f32) : Prop := fin v /\ -87 <= val v <= 88.

Definition L2 : R := 12102203 * / 8388608.
Lemma log2eF_val : fin log2eF /\ val log2eF = L2.
Proof.
  destruct (lit_val 12102203 (-23) ltac:(lia) ltac:(lia)) as [F V]. split; [exact F|].
  change (val log2eF = IZR 12102203 * bpow radix2 (-23)) in V. rewrite V. reflexivity.
Qed.

Lemma expQ_near : forall p v, expRange v ->
  Rabs (IZR (expQ p v) - L2 * val v) <= 0.50003 /\ (-126 <= expQ p v <= 127)%Z.
Proof.
  intros p v [Fv Hv]. destruct log2eF_val as [FL VL].
  assert (B : Rabs (val v * val log2eF) <= 127).
  { rewrite VL. unfold L2. apply Rabs_le. lra. }
  destruct (mul_small v log2eF Fv FL) as [Fs Vs]; [apply small_le with 127; lra|].
  pose proof (rnd_err (val v * val log2eF)) as R1. rewrite <- Vs in R1.
  pose proof u24_val as Hu. pose proof eta0_small as He. rewrite Hu in R1.
  assert (E1 : Rabs (val (v * log2eF)%sc - val v * L2) <= 0.000008) by (rewrite <- VL; lra).
  rewrite VL in B.
  unfold expQ. set (s := (v * log2eF)%sc) in *.
  destruct half_val as [Fh Vh]. destruct f0_f as [F0 V0].
  rewrite slt_fin by assumption. rewrite V0.
  apply Rabs_le_inv in E1. assert (Bs : -127.1 <= val s <= 127.1) by (apply Rabs_le_inv in B; lra).
  destruct (Rlt_bool_spec (val s) 0) as [Hn|Hp].
  - destruct (sub_small s fhalf Fs Fh) as [Ft Vt]; [apply small_le with 128; [rewrite Vh; apply Rabs_le; lra|lra]|].
    rewrite Vh in Vt. pose proof (rnd_ap (val s - / 2) (val s - / 2) 0 128) as R2.
    rewrite <- Vt in R2. rewrite Hu in R2.
    assert (E2 : Rabs (val (s - fhalf)%sc - (val s - / 2)) <= 0.000008).
    { eapply Rle_trans; [apply R2|]; [replace (_ - _) with 0 by ring; rewrite Rabs_R0; lra|apply Rabs_le; lra|lra]. }
    clear R2. apply Rabs_le_inv in E2. rewrite i32ofF32_val by (try exact Ft; apply Rabs_le; lra).
    destruct (Ztrunc_bounds (val (s - fhalf)%sc)) as [_ N]. specialize (N ltac:(lra)).
    set (q := Ztrunc (val (s - fhalf)%sc)) in *.
    assert (Q : Rabs (IZR q - L2 * val v) <= 0.50003) by (apply Rabs_le; lra).
    split; [exact Q|]. apply Rabs_le_inv in Q. unfold L2 in Q.
    assert ((-127 < q)%Z) by (apply lt_IZR; lra). assert ((q < 128)%Z) by (apply lt_IZR; lra). lia.
  - destruct (add_small s fhalf Fs Fh) as [Ft Vt]; [apply small_le with 128; [rewrite Vh; apply Rabs_le; lra|lra]|].
    rewrite Vh in Vt. pose proof (rnd_ap (val s + / 2) (val s + / 2) 0 128) as R2.
    rewrite <- Vt in R2. rewrite Hu in R2.
    assert (E2 : Rabs (val (s + fhalf)%sc - (val s + / 2)) <= 0.000008).
    { eapply Rle_trans; [apply R2|]; [replace (_ - _) with 0 by ring; rewrite Rabs_R0; lra|apply Rabs_le; lra|lra]. }
    clear R2. apply Rabs_le_inv in E2. rewrite i32ofF32_val by (try exact Ft; apply Rabs_le; lra).
    destruct (Ztrunc_bounds (val (s + fhalf)%sc)) as [P _]. specialize (P ltac:(lra)).
    set (q := Ztrunc (val (s + fhalf)%sc)) in *.
    assert (Q : Rabs (IZR q - L2 * val v) <= 0.50003) by (apply Rabs_le; lra).
    split; [exact Q|]. apply Rabs_le_inv in Q. unfold L2 in Q.
    assert ((-127 < q)%Z) by (apply lt_IZR; lra). assert ((q < 128)%Z) by (apply lt_IZR; lra). lia.
Qed.

(** ** The reduced argument *)
Lemma q_val : forall p q, p <> GEN -> (-1000000 <= q <= 1000000)%Z ->
  fin (f32ofI32 p q) /\ val (f32ofI32 p q) = IZR q.
Proof.
  intros p q Hp Hq. replace (f32ofI32 p q) with (slit q 0 : f32) by (destruct p; try reflexivity; congruence).
  apply lit_Z. lia.
Qed.
Definition red (p : path) (v : f32) : R := val v - IZR (expQ p v) * ln 2.
Lemma red_bound : forall p v, expRange v -> Rabs (red p v) <= 0.3468.
Proof.
  intros p v Hv. destruct (expQ_near p v Hv) as [Q _]. destruct Hv as [_ Hv]. unfold red.
  pose proof ln_2_bounds as [L U].
  replace (val v - IZR (expQ p v) * ln 2) with (val v * (1 - L2 * ln 2) + - ((IZR (expQ p v) - L2 * val v) * ln 2)) by ring.
  eapply Rle_trans; [apply Rabs_triang|]. rewrite Rabs_Ropp, !Rabs_mult.
  assert (A : Rabs (1 - L2 * ln 2) <= 0.0000001) by (unfold L2; apply Rabs_le; lra).
  assert (B : Rabs (val v) <= 88) by (apply Rabs_le; lra).
  assert (C : Rabs (ln 2) <= 0.69314718057) by (apply Rabs_le; lra).
  assert (Rabs (val v) * Rabs (1 - L2 * ln 2) <= 88 * 0.0000001) by (apply Rmult_le_compat; try apply Rabs_pos; assumption).
  assert (Rabs (IZR (expQ p v) - L2 * val v) * Rabs (ln 2) <= 0.50003 * 0.69314718057)
    by (apply Rmult_le_compat; try apply Rabs_pos; assumption).
  lra.
Qed.
Lemma expS_near : forall p v, p <> GEN -> expRange v ->
  fin (expS p v) /\ Rabs (val (expS p v) - red p v) <= 0.000000045.
Proof.
  intros p v Hp Hv. destruct (expQ_near p v Hv) as [_ Q]. pose proof (red_bound p v Hv) as RB.
  destruct Hv as [Fv Hv]. unfold expS.
  destruct (q_val p (expQ p v) Hp ltac:(lia)) as [Fq Vq]. unfold red in *. set (q := expQ p v) in *.
  assert (IQ : Rabs (IZR q) <= 127) by (rewrite <- abs_IZR; apply IZR_le; lia).
  destruct (lit_val (-22713) (-15) ltac:(lia) ltac:(lia)) as [Fh Vh]. change (fin ln2Hi) in Fh.
  change (val ln2Hi = IZR (-22713) * bpow radix2 (-15)) in Vh.
  assert (Eh : rnd (val (f32ofI32 p q) * val ln2Hi) = val (f32ofI32 p q) * val ln2Hi).
  { rewrite Vq, Vh, <- Rmult_assoc, <- mult_IZR. apply rnd_lit; lia. }
  assert (Vh' : val ln2Hi = - 22713 / 32768) by (rewrite Vh; cbn; lra). clear Vh.
  pose proof ln_2_bounds as [L U]. pose proof u24_val as Hu. pose proof eta0_small as He.
  assert (B1 : Rabs (val (f32ofI32 p q) * val ln2Hi) <= 100).
  { rewrite Rabs_mult, Vq, Vh'. rewrite (Rabs_left (-22713/32768)) by lra. nra. }
  destruct (simdfma_exact p (f32ofI32 p q) ln2Hi v Fq Fh Fv) as [F1 V1]; [lra|apply Rabs_le; lra|exact Eh|].
  set (s1 := simdfma p (f32ofI32 p q) ln2Hi v) in *.
  destruct (lit_val (-6283079) (-42) ltac:(lia) ltac:(lia)) as [Fl Vl]. change (fin ln2Lo) in Fl.
  change (val ln2Lo = IZR (-6283079) * bpow radix2 (-42)) in Vl.
  assert (Vl' : val ln2Lo = - 6283079 / 4398046511104) by (rewrite Vl; cbn; lra). clear Vl.
  (* first step *)
  set (X1 := val v + IZR q * (- 22713 / 32768)) in *.
  assert (BX : Rabs X1 <= 0.348).
  { unfold X1. replace (val v + IZR q * (-22713/32768)) with ((val v - IZR q * ln 2) + IZR q * (ln 2 - 22713/32768)) by lra.
    eapply Rle_trans; [apply Rabs_triang|]. rewrite (Rabs_mult (IZR q)).
    assert (Rabs (ln 2 - 22713/32768) <= 0.000002) by (apply Rabs_le; lra).
    assert (Rabs (IZR q) * Rabs (ln 2 - 22713/32768) <= 127 * 0.000002) by (apply Rmult_le_compat; try apply Rabs_pos; assumption).
    lra. }
  assert (A1 : ap s1 X1 0.0000000208 0.348).
  { split; [exact F1|]. split; [|exact BX]. rewrite V1, Vq, Vh'. fold X1.
    eapply Rle_trans; [apply (rnd_ap X1 X1 0 0.348)|]; [replace (X1 - X1) with 0 by ring; rewrite Rabs_R0; lra|exact BX|rewrite Hu; lra]. }
  assert (Aq : ap (f32ofI32 p q) (IZR q) 0 127).
  { split; [exact Fq|]. split; [rewrite Vq; replace (IZR q - IZR q) with 0 by ring; rewrite Rabs_R0; lra|exact IQ]. }
  assert (Al : ap ln2Lo (- 6283079 / 4398046511104) 0 0.00000143).
  { split; [exact Fl|]. split; [rewrite Vl'; unfold Rminus; rewrite Rplus_opp_r, Rabs_R0; lra|apply Rabs_le; lra]. }
  set (X2 := X1 + IZR q * (- 6283079 / 4398046511104)).
  assert (D : Rabs (X2 - (val v - IZR q * ln 2)) <= 0.0000000014).
  { unfold X2, X1.
    replace (val v + IZR q * (- 22713 / 32768) + IZR q * (- 6283079 / 4398046511104) - (val v - IZR q * ln 2)) with (IZR q * (ln 2 - (22713/32768 + 6283079/4398046511104))) by lra.
    rewrite Rabs_mult.
    assert (Rabs (ln 2 - (22713/32768 + 6283079/4398046511104)) <= 0.0000000000105) by (apply Rabs_le; lra).
    assert (Rabs (IZR q) * Rabs (ln 2 - (22713/32768 + 6283079/4398046511104)) <= 127 * 0.0000000000105)
      by (apply Rmult_le_compat; try apply Rabs_pos; assumption).
    lra. }
  assert (BX2 : Rabs X2 <= 0.3469).
  { replace X2 with ((val v - IZR q * ln 2) + (X2 - (val v - IZR q * ln 2))) by ring.
    eapply Rle_trans; [apply Rabs_triang|]. lra. }
  assert (A2 : ap (simdfma p (f32ofI32 p q) ln2Lo s1) X2 0.000000042 0.3469).
  { unfold X2. eapply ap_fma with (P := 0.000182) (g := 0.00000002083); [exact Aq|exact Al|exact A1| |exact BX2|..].
    - rewrite Rabs_mult. apply Rle_trans with (127 * 0.00000143); [|lra].
      apply Rmult_le_compat; try apply Rabs_pos; [exact IQ|apply Rabs_le; lra].
    - lra.
    - lra.
    - rewrite Hu. lra.
    - rewrite Hu. lra. }
  destruct A2 as (F2 & E2 & _). split; [exact F2|].
  replace (val (simdfma p (f32ofI32 p q) ln2Lo s1) - (val v - IZR q * ln 2)) with
    ((val (simdfma p (f32ofI32 p q) ln2Lo s1) - X2) + (X2 - (val v - IZR q * ln 2))) by ring.
  eapply Rle_trans; [apply Rabs_triang|]. lra.
Qed.

(** ** The polynomial *)
Definition expP (s : R) : R :=
  s + s * s * (/ 2 + (11184811 / 67108864 + (5592381 / 134217728 + (4473939 / 536870912 + (11966153 / 8589934592 + 6821357 / 34359738368 * s) * s) * s) * s) * s) + 1.
Lemma expPoly_near : forall p (s : f32), fin s -> Rabs (val s) <= 0.347 ->
  ap (expPoly p s) (expP (val s)) 0.0000001222 1.41482.
Proof.
  intros p s Fs Bs. pose proof u24_val as Hu. pose proof eta0_small as He.
  assert (AS : ap s (val s) 0 0.347) by (apply ap_bnd with (Rabs (val s)); [apply ap_exact, Fs|exact Bs]).
  assert (AC5 : ap expC5 (6821357 / 34359738368) 0 0.00019853) by (apply ap_const; [lia|lia|cbn; lra|lra|lra]).
  assert (AC4 : ap expC4 (11966153 / 8589934592) 0 0.0013931) by (apply ap_const; [lia|lia|cbn; lra|lra|lra]).
  assert (AC3 : ap expC3 (4473939 / 536870912) 0 0.0083334) by (apply ap_const; [lia|lia|cbn; lra|lra|lra]).
  assert (AC2 : ap expC2 (5592381 / 134217728) 0 0.041667) by (apply ap_const; [lia|lia|cbn; lra|lra|lra]).
  assert (AC1 : ap expC1 (11184811 / 67108864) 0 0.16667) by (apply ap_const; [lia|lia|cbn; lra|lra|lra]).
  assert (AH : ap fhalf (/ 2) 0 0.5) by (apply ap_const; [lia|lia|cbn; lra|lra|lra]).
  assert (AO : ap f1 1 0 1) by (apply ap_const; [lia|lia|cbn; lra|lra|lra]).
  assert (U4 : ap _ ((11966153 / 8589934592) + (6821357 / 34359738368) * val s) 0.00000000009325 0.00146199) by (refine (ap_fma' p _ _ _ _ _ _ _ _ _ _ _ _ 0.000068890 0.000000000005107 _ _ AC5 AS AC4 _ _ _ _ _ _); rewrite ?Hu; lra).
  assert (U3 : ap _ ((4473939 / 536870912) + ((11966153 / 8589934592) + (6821357 / 34359738368) * val s) * val s) 0.0000000005916 0.00884072) by (refine (ap_fma' p _ _ _ _ _ _ _ _ _ _ _ _ 0.00050732 0.00000000006360 _ _ U4 AS AC3 _ _ _ _ _ _); rewrite ?Hu; lra).
  assert (U2 : ap _ ((5592381 / 134217728) + ((4473939 / 536870912) + ((11966153 / 8589934592) + (6821357 / 34359738368) * val s) * val s) * val s) 0.000000003057 0.0447348) by (refine (ap_fma' p _ _ _ _ _ _ _ _ _ _ _ _ 0.0030678 0.0000000003892 _ _ U3 AS AC2 _ _ _ _ _ _); rewrite ?Hu; lra).
  assert (U1 : ap _ ((11184811 / 67108864) + ((5592381 / 134217728) + ((4473939 / 536870912) + ((11966153 / 8589934592) + (6821357 / 34359738368) * val s) * val s) * val s) * val s) 0.00000001285 0.182193) by (refine (ap_fma' p _ _ _ _ _ _ _ _ _ _ _ _ 0.015523 0.000000001988 _ _ U2 AS AC1 _ _ _ _ _ _); rewrite ?Hu; lra).
  assert (U0 : ap _ ((/ 2) + ((11184811 / 67108864) + ((5592381 / 134217728) + ((4473939 / 536870912) + ((11966153 / 8589934592) + (6821357 / 34359738368) * val s) * val s) * val s) * val s) * val s) 0.00000004181 0.563221) by (refine (ap_fma' p _ _ _ _ _ _ _ _ _ _ _ _ 0.063221 0.000000008229 _ _ U1 AS AH _ _ _ _ _ _); rewrite ?Hu; lra).
  assert (Q2 : ap _ (val s * val s) 0.000000007178 0.120409) by (refine (ap_mul' _ _ _ _ _ _ _ _ _ _ AS AS _ _ _); rewrite ?Hu; lra).
  assert (W : ap _ (val s + val s * val s * ((/ 2) + ((11184811 / 67108864) + ((5592381 / 134217728) + ((4473939 / 536870912) + ((11966153 / 8589934592) + (6821357 / 34359738368) * val s) * val s) * val s) * val s) * val s)) 0.00000003786 0.414817) by (refine (ap_fma' p _ _ _ _ _ _ _ _ _ _ _ _ 0.067817 0.00000001313 _ _ Q2 U0 AS _ _ _ _ _ _); rewrite ?Hu; lra).
  assert (T : ap (expPoly p s) (val s + val s * val s * ((/ 2) + ((11184811 / 67108864) + ((5592381 / 134217728) + ((4473939 / 536870912) + ((11966153 / 8589934592) + (6821357 / 34359738368) * val s) * val s) * val s) * val s) * val s) + 1) 0.0000001222 1.41482).
  { refine (ap_add _ _ _ _ _ _ _ _ _ _ W AO _ _ _); [|rewrite ?Hu; lra..]. destruct W as (_ & _ & BW). eapply Rle_trans; [apply Rabs_triang|]. rewrite (Rabs_right 1) by lra. lra. }
  exact T.
Qed.
Lemma pow_bounds : forall s b, Rabs s <= b ->
  (forall k, Rabs (s ^ k) <= b ^ k).
Proof.
  intros s b H k. rewrite <- RPow_abs. apply pow_incr. split; [apply Rabs_pos|exact H].
Qed.
Lemma pow_bound : forall s b k c, Rabs s <= b -> b ^ k <= c -> - c <= s ^ k <= c.
Proof. intros s b k c H Hc. apply Rabs_le_inv. eapply Rle_trans; [apply pow_bounds, H|exact Hc]. Qed.
Lemma expP_near : forall s, Rabs s <= 0.347 -> Rabs (expP s - exp s) <= 0.000000023.
Proof.
  intros s H. pose proof (exp_taylor s ltac:(lra)) as T.
  assert (D : Rabs (expP s - expT s) <= 0.0000000117).
  { replace (expP s - expT s) with
      ((11184811 / 67108864 - 1/6) * s^3 + (5592381 / 134217728 - 1/24) * s^4 + (4473939 / 536870912 - 1/120) * s^5
       + (11966153 / 8589934592 - 1/720) * s^6 + (6821357 / 34359738368 - 1/5040) * s^7) by (unfold expP, expT; field).
    pose proof (pow_bound s _ 3 0.0418 H ltac:(cbn [pow]; lra)). pose proof (pow_bound s _ 4 0.0145 H ltac:(cbn [pow]; lra)).
    pose proof (pow_bound s _ 5 0.00504 H ltac:(cbn [pow]; lra)). pose proof (pow_bound s _ 6 0.00175 H ltac:(cbn [pow]; lra)).
    pose proof (pow_bound s _ 7 0.00061 H ltac:(cbn [pow]; lra)). apply Rabs_le. lra. }
  pose proof (pow_bound s _ 8 0.000212 H ltac:(cbn [pow]; lra)).
  replace (expP s - exp s) with ((expP s - expT s) + - (exp s - expT s)) by ring.
  eapply Rle_trans; [apply Rabs_triang|]. rewrite Rabs_Ropp. lra.
Qed.
(** the exponential moves little when its argument does *)
Lemma exp_near : forall a b d, Rabs (a - b) <= d -> d <= 1/10 -> Rabs (exp a - exp b) <= 1.06 * d * exp b.
Proof.
  intros a b d H Hd. replace a with (b + (a - b)) at 1 by ring. rewrite exp_plus.
  replace (exp b * exp (a - b) - exp b) with ((exp (a - b) - 1) * exp b) by ring.
  rewrite Rabs_mult, (Rabs_right (exp b)) by (left; apply exp_pos).
  apply Rmult_le_compat_r; [left; apply exp_pos|].
  set (t := a - b) in *. pose proof (exp_taylor t ltac:(lra)) as T.
  pose proof (Rabs_pos t) as Ht.
  assert (K : forall k, Rabs (t ^ S k) <= Rabs t * (1/10) ^ k).
  { intros k. cbn [pow]. rewrite Rabs_mult. apply Rmult_le_compat_l; [exact Ht|]. apply pow_bounds. lra. }
  pose proof (K 1%nat) as K2. pose proof (K 2%nat) as K3. pose proof (K 3%nat) as K4. pose proof (K 4%nat) as K5.
  pose proof (K 5%nat) as K6. pose proof (K 6%nat) as K7. pose proof (K 7%nat) as K8.
  assert (K1 : Rabs t <= Rabs t) by lra.
  apply Rabs_le_inv in K2, K3, K4, K5, K6, K7, K8, T, K1. unfold expT in T. apply Rabs_le. lra.
Qed.
(** ** The result *)
Lemma expU_near : forall p v, p <> GEN -> expRange v ->
  fin (expPoly p (expS p v)) /\
  Rabs (val (expPoly p (expS p v)) - exp (red p v)) <= 0.0000003 * exp (red p v) /\ 0.7 <= exp (red p v) <= 1.42.
Proof.
  intros p v Hp Hv. destruct (expS_near p v Hp Hv) as [Fs Es]. pose proof (red_bound p v Hv) as RB.
  assert (Bs : Rabs (val (expS p v)) <= 0.347) by (pose proof (abs_near _ _ _ _ Es RB); lra).
  destruct (expPoly_near p _ Fs Bs) as (Fu & Eu & _). split; [exact Fu|].
  pose proof (expP_near _ Bs) as E2. pose proof (exp_near _ _ _ Es ltac:(lra)) as E3.
  assert (LB : 0.7 <= exp (red p v) <= 1.42).
  { set (r := red p v) in *.
    assert (M1 : exp r <= exp 0.3468) by (apply Rabs_le_inv in RB; destruct (Rle_lt_or_eq_dec r 0.3468 ltac:(lra)) as [L| ->]; [left; apply exp_increasing, L|lra]).
    assert (M2 : exp (-0.3468) <= exp r) by (apply Rabs_le_inv in RB; destruct (Rle_lt_or_eq_dec (-0.3468) r ltac:(lra)) as [L| <-]; [left; apply exp_increasing, L|lra]).
    pose proof (exp_taylor 0.3468 ltac:(apply Rabs_le; lra)) as T1. pose proof (exp_taylor (-0.3468) ltac:(apply Rabs_le; lra)) as T2.
    apply Rabs_le_inv in T1, T2. unfold expT in T1, T2. cbn [pow] in T1, T2. lra. }
  split; [|exact LB].
  replace (val (expPoly p (expS p v)) - exp (red p v)) with
    ((val (expPoly p (expS p v)) - expP (val (expS p v))) + ((expP (val (expS p v)) - exp (val (expS p v))) + (exp (val (expS p v)) - exp (red p v)))) by ring.
  eapply Rle_trans; [apply Rabs_triang|]. eapply Rle_trans; [apply Rplus_le_compat_l, Rabs_triang|]. lra.
Qed.
Lemma exp_pow2 : forall q, exp (IZR q * ln 2) = bpow radix2 q.
Proof.
  intros q. rewrite bpow_exp. reflexivity.
Qed.
Lemma exp_split : forall p v, exp (val v) = exp (red p v) * bpow radix2 (expQ p v).
Proof. intros p v. rewrite <- exp_pow2, <- exp_plus. f_equal. unfold red. ring. Qed.

Lemma fmt_scaled : forall (u : f32) e, fin u -> 1/2 <= val u -> (-125 <= e)%Z ->
  rnd (val u * bpow radix2 e) = val u * bpow radix2 e.
Proof.
  intros u e Fu Hu He. apply round_generic; [apply valid_rnd_round_mode|].
  assert (P24 : Prec_gt_0 24) by reflexivity.
  apply (Mult_error.mult_bpow_exact_FLT radix2 (-149) 24); [apply (generic_format_B2R 24 128)|].
  assert (M : (0 <= mag radix2 (val u))%Z); [|lia].
  apply Z.lt_pred_le. apply (mag_gt_bpow radix2) with (e := Z.pred 0). cbn. rewrite Rabs_right by lra. lra.
Qed.
Lemma fmt_scaled1 : forall (u : f32) e, fin u -> 1 <= val u -> (-126 <= e)%Z ->
  rnd (val u * bpow radix2 e) = val u * bpow radix2 e.
Proof.
  intros u e Fu Hu He. apply round_generic; [apply valid_rnd_round_mode|].
  assert (P24 : Prec_gt_0 24) by reflexivity.
  apply (Mult_error.mult_bpow_exact_FLT radix2 (-149) 24); [apply (generic_format_B2R 24 128)|].
  assert (M : (1 <= mag radix2 (val u))%Z); [|lia].
  apply Z.lt_pred_le. apply (mag_gt_bpow radix2) with (e := Z.pred 1). cbn. rewrite Rabs_right by lra. lra.
Qed.
Lemma bpow_small_prod : forall x e n, Rabs x <= bpow radix2 n -> (n + e <= 127)%Z -> small (x * bpow radix2 e).
Proof.
  intros x e n Hx Hn. unfold small. rewrite Rabs_mult, (Rabs_right (bpow radix2 e)) by (left; apply bpow_gt_0).
  apply Rle_trans with (bpow radix2 n * bpow radix2 e).
  - apply Rmult_le_compat_r; [apply bpow_ge_0|exact Hx].
  - rewrite <- bpow_plus. apply bpow_le. exact Hn.
Qed.
Lemma expScale_exact : forall (u : f32) q, fin u -> 1/2 <= val u <= 2 -> (-126 <= q <= 127)%Z ->
  (q = (-126)%Z -> 1 <= val u) -> (q = 127%Z -> val u <= 1) ->
  fin (expScale u q) /\ val (expScale u q) = val u * bpow radix2 q.
Proof.
  intros u q Fu Hu Hq HL HU. unfold expScale. set (a := isar q 1).
  assert (Ha : (2 * a <= q < 2 * a + 2)%Z).
  { unfold a, isar. rewrite Z.shiftr_div_pow2 by lia. change (2 ^ 1)%Z with 2%Z. pose proof (Z.div_mod q 2). pose proof (Z.mod_pos_bound q 2). lia. }
  assert (E : isub q a = (q - a)%Z).
  { unfold isub, toI32. set (b := (q - a)%Z). assert (-64 <= b <= 64)%Z by (unfold b; lia).
    destruct (Z_lt_ge_dec b 0) as [N|P].
    - replace (b mod 2 ^ 32)%Z with (b + 2 ^ 32)%Z by (apply Z.mod_unique_pos with (-1)%Z; lia).
      destruct (Z.ltb_spec (b + 2 ^ 32) (2 ^ 31)); lia.
    - rewrite Z.mod_small by lia. destruct (Z.ltb_spec b (2 ^ 31)); lia. }
  rewrite E. destruct (intAsF_pow a ltac:(lia)) as [F1 V1]. destruct (intAsF_pow (q - a) ltac:(lia)) as [F2 V2].
  assert (Ru : Rabs (val u) <= bpow radix2 1) by (rewrite Rabs_right by lra; cbn; lra).
  destruct (mul_small u _ Fu F1) as [F3 V3]; [rewrite V1; apply bpow_small_prod with 1%Z; [exact Ru|lia]|].
  rewrite V1, fmt_scaled in V3 by (try exact Fu; try lra; lia).
  assert (P : val u * bpow radix2 a * bpow radix2 (q - a) = val u * bpow radix2 q).
  { rewrite Rmult_assoc, <- bpow_plus. f_equal. f_equal. lia. }
  destruct (mul_small _ _ F3 F2) as [F4 V4].
  - rewrite V3, V2, P. destruct (Z.eq_dec q 127) as [->|N].
    + apply bpow_small_prod with 0%Z; [|lia]. specialize (HU eq_refl). rewrite Rabs_right by lra. cbn. lra.
    + apply bpow_small_prod with 1%Z; [exact Ru|lia].
  - split; [exact F4|]. rewrite V4, V3, V2, P. destruct (Z.eq_dec q (-126)) as [->|N].
    + apply fmt_scaled1; [exact Fu|apply HL; reflexivity|lia].
    + apply fmt_scaled; [exact Fu|lra|lia].
Qed.

Lemma exp_neg_le : forall r, r <= 0 -> exp r <= 1 / (1 + - r).
Proof.
  intros r H. assert (Hr : 0 < 1 + - r) by lra. pose proof (exp_ineq1_le (- r)) as K.
  rewrite exp_Ropp in K. pose proof (exp_pos r). apply Rmult_le_reg_r with (1 + - r); [exact Hr|].
  unfold Rdiv. rewrite Rmult_assoc, Rinv_l by lra.
  apply Rle_trans with (exp r * / exp r); [apply Rmult_le_compat_l; lra|]. rewrite Rinv_r by lra. lra.
Qed.
Lemma expLane_accurate : forall p v, p <> GEN -> fin v -> -87 <= val v <= 88 ->
  fin (expLane p v) /\ Rabs (val (expLane p v) - exp (val v)) <= 0.0000003 * exp (val v).
Proof.
  intros p v Hp Fv Hv. assert (ER : expRange v) by (split; assumption).
  destruct (expU_near p v Hp ER) as (Fu & Eu & Bu). destruct (expQ_near p v ER) as [_ Q].
  set (u := expPoly p (expS p v)) in *. pose proof Eu as Eu'. apply Rabs_le_inv in Eu'.
  pose proof ln_2_bounds as [L U].
  assert (X : fin (expScale u (expQ p v)) /\ val (expScale u (expQ p v)) = val u * bpow radix2 (expQ p v)).
  { apply expScale_exact; [exact Fu|lra|exact Q| |].
    - intros E. unfold red in *. rewrite E in *.
      assert (1 + (val v - -126 * ln 2) <= exp (val v - -126 * ln 2)) by (apply exp_ineq1_le). lra.
    - intros E. unfold red in *. rewrite E in *.
      assert (exp (val v - 127 * ln 2) <= 1 / (1 + - (val v - 127 * ln 2))).
      { apply exp_neg_le. lra. }
      assert (1 / (1 + - (val v - 127 * ln 2)) <= 1 / 1.02) by (unfold Rdiv; apply Rmult_le_compat_l; [lra|]; apply Rinv_le_contravar; lra).
      lra. }
  destruct X as [FX VX].
  assert (E : expLane p v = expScale u (expQ p v)).
  { unfold expLane. fold u. unfold sge, sgt.
    destruct (lit_val (-13) 3 ltac:(lia) ltac:(lia)) as [Fa Va]. destruct (lit_val 13 3 ltac:(lia) ltac:(lia)) as [Fb Vb].
    rewrite sle_fin, slt_fin by assumption. rewrite Va, Vb.
    rewrite Rle_bool_true by (cbn; lra). rewrite Rlt_bool_false by (cbn; lra). reflexivity. }
  rewrite E. split; [exact FX|]. rewrite VX, (exp_split p v).
  rewrite <- Rmult_minus_distr_r, Rabs_mult, (Rabs_right (bpow radix2 (expQ p v))) by (left; apply bpow_gt_0).
  rewrite <- Rmult_assoc. apply Rmult_le_compat_r; [apply bpow_ge_0|exact Eu].
Qed.
