(** Proofs about color.hpp. *)
From Coq Require Import ZArith Bool List Ascii Reals Lra Lia.
From Flocq Require Import Core.Core IEEE754.BinarySingleNaN IEEE754.Binary IEEE754.Bits.
From Verif.Model Require Import Outcome Scalar Vec Simd Hex Color.
From Verif.Spec Require Import OrderSpec ColorSpec HexSpec.
From Verif.Proofs Require Import BitLemmas HexProofs IntOrder IntConv OrdScalar F32Round F32Err.
Import ListNotations.
Local Open Scope Z_scope.

(** ** all 256 channel values *)
Definition chans : list Z := map Z.of_nat (List.seq 0 256).
Lemma in_chans : forall n, byte n -> In n chans.
Proof.
  intros n [H1 H2]. unfold chans. apply in_map_iff. exists (Z.to_nat n).
  split; [lia|]. apply in_seq. lia.
Qed.
Definition isOk (o : outcome Z) (n : Z) : bool := match o with Ok m => m =? n | _ => false end.
Lemma isOk_eq : forall o n, isOk o n = true -> o = Ok n.
Proof. intros [m| | |] n; cbn; intros H; try discriminate. apply Z.eqb_eq in H. congruence. Qed.
Lemma chans_all : forall f : Z -> outcome Z, forallb (fun n => isOk (f n) n) chans = true ->
  forall n, byte n -> f n = Ok n.
Proof.
  intros f H n Hn. rewrite forallb_forall in H. apply isOk_eq, H, in_chans, Hn.
Qed.

Lemma quantize_norm : forall n, byte n -> quantize (normOf n : f32) = Ok n.
Proof. apply (chans_all (fun n => quantize (normOf n : f32))). vm_compute. reflexivity. Qed.
Lemma quantizeSimd_norm : forall p n, byte n -> quantizeSimd p (normOf n : f32) = Ok n.
Proof.
  intros p. apply (chans_all (fun n => quantizeSimd p (normOf n : f32))).
  destruct p; vm_compute; reflexivity.
Qed.
Lemma setNorm_norm : forall n, byte n -> setNorm (normOf n : f32) = Ok n.
Proof. apply (chans_all (fun n => setNorm (normOf n : f32))). vm_compute. reflexivity. Qed.

Lemma color_float_roundtrip : forall c, isColor c ->
  colorOfFloat2 (float2OfColor c : vec2 f32) = Ok (Color (cr c) (cg c) 0 0) /\
  colorOfFloat3 (float3OfColor c : vec3 f32) = Ok (Color (cr c) (cg c) (cb c) 0) /\
  colorOfFloat4 (float4OfColor c : vec4 f32) = Ok c /\
  (forall p, colorOfF32x4 p (float4OfColor c : vec4 f32) = Ok c).
Proof.
  intros [r g b a] (Hr & Hg & Hb & Ha). cbn [cr cg cb ca] in *.
  unfold colorOfFloat2, colorOfFloat3, colorOfFloat4, colorOfF32x4, float2OfColor, float3OfColor, float4OfColor.
  cbn [x2 y2 x3 y3 z3 vx vy vz vw cr cg cb ca].
  rewrite !quantize_norm by assumption. cbn [bind].
  split; [reflexivity|]. split; [reflexivity|]. split; [reflexivity|].
  intros p. rewrite !quantizeSimd_norm by assumption. reflexivity.
Qed.

(** ** integer and hexadecimal round trips *)
Lemma colorU32_range : forall c, isColor c -> u32 (colorToU32 c).
Proof. intros [r g b a] (Hr & Hg & Hb & Ha). unfold u32, colorToU32, byte in *. cbn [cr cg cb ca] in *. lia. Qed.
Lemma colorU32_roundtrip : forall c, isColor c -> colorOfU32 (colorToU32 c) = c.
Proof.
  intros [r g b a] (Hr & Hg & Hb & Ha). unfold colorOfU32, colorToU32, byte in *. cbn [cr cg cb ca] in *.
  f_equal; Z.div_mod_to_equations; lia.
Qed.
Lemma u32_roundtrip : forall d, u32 d -> isColor (colorOfU32 d) /\ colorToU32 (colorOfU32 d) = d.
Proof.
  intros d Hd. unfold u32 in Hd. unfold isColor, byte, colorToU32, colorOfU32. cbn [cr cg cb ca].
  split; [repeat split|]; try (Z.div_mod_to_equations; lia).
Qed.

Definition hex2 (n : Z) : list ascii := digitsOf n 2.
Lemma toHex_byte : forall n, toHex 32 n 2 = Ok (hex2 n).
Proof. intros n. apply toHex_eq. lia. Qed.
Lemma hex2_list : forall n, exists a b, hex2 n = [a; b].
Proof. intros n. unfold hex2. pose proof (digitsOf_length n 2) as H. destruct (digitsOf n 2) as [|a [|b [|]]]; try discriminate. eauto. Qed.
Lemma toInt32_hex2 : forall ul n, (ul = 32 \/ ul = 64) -> byte n -> toInt32 ul (hex2 n) = Ok n.
Proof.
  intros ul n Hul Hn. unfold byte in Hn. unfold toInt32, hex2.
  rewrite stoul16_digitsOf by lia.
  change (16 ^ Z.of_nat 2) with 256. rewrite (Z.mod_small n 256) by lia. unfold omap. cbn [bind]. f_equal. apply Z.mod_small. lia.
Qed.

Lemma color_hex_roundtrip : forall ul nd c, (ul = 32 \/ ul = 64) -> isColor c ->
  exists s4 s3, toHex4 c = Ok s4 /\ toHex3 c = Ok s3 /\ length s4 = 8%nat /\ length s3 = 6%nat /\
    colorOfHex ul nd s4 = Ok c /\ colorOfHex ul nd s3 = Ok (Color (cr c) (cg c) (cb c) 0).
Proof.
  intros ul nd [r g b a] Hul (Hr & Hg & Hb & Ha). cbn [cr cg cb ca] in *.
  exists (hex2 r ++ hex2 g ++ hex2 b ++ hex2 a), (hex2 r ++ hex2 g ++ hex2 b).
  unfold toHex4, toHex3. cbn [cr cg cb ca]. rewrite !toHex_byte. cbn [bind].
  pose proof (toInt32_hex2 ul r Hul Hr) as Er. pose proof (toInt32_hex2 ul g Hul Hg) as Eg.
  pose proof (toInt32_hex2 ul b Hul Hb) as Eb. pose proof (toInt32_hex2 ul a Hul Ha) as Ea.
  destruct (hex2_list r) as (r1 & r2 & Lr), (hex2_list g) as (g1 & g2 & Lg),
    (hex2_list b) as (b1 & b2 & Lb), (hex2_list a) as (a1 & a2 & La).
  rewrite Lr, Lg, Lb, La in *. unfold byte in *.
  split; [reflexivity|]. split; [reflexivity|]. split; [reflexivity|]. split; [reflexivity|].
  unfold colorOfHex, hexByte, two, charAt.
  cbn [length app Nat.eqb orb negb nth_error bind]. rewrite andb_false_r.
  rewrite Er, Eg, Eb, Ea. cbn [bind]. rewrite !Z.mod_small by lia. split; reflexivity.
Qed.

(** the numeral written by toHex4 is the byte-reversed (big-endian) value *)
Lemma toHex4_denotes : forall c, isColor c -> exists s, toHex4 c = Ok s /\
  exists h1 h2 h3 h4, s = h1 ++ h2 ++ h3 ++ h4 /\
  denotes h1 (cr c) /\ denotes h2 (cg c) /\ denotes h3 (cb c) /\ denotes h4 (ca c) /\
  length h1 = 2%nat /\ length h2 = 2%nat /\ length h3 = 2%nat /\ length h4 = 2%nat.
Proof.
  intros [r g b a] (Hr & Hg & Hb & Ha). cbn [cr cg cb ca] in *.
  exists (hex2 r ++ hex2 g ++ hex2 b ++ hex2 a). unfold toHex4. cbn [cr cg cb ca].
  rewrite !toHex_byte. split; [reflexivity|]. exists (hex2 r), (hex2 g), (hex2 b), (hex2 a).
  assert (D : forall n, byte n -> denotes (hex2 n) n).
  { intros n [H1 H2]. pose proof (digitsOf_denotes 2 n) as H. change (16 ^ Z.of_nat 2) with 256 in H.
    rewrite Z.mod_small in H by lia. exact H. }
  repeat split; auto.
Qed.

(** isBinaryLess *)
Lemma color_order : strictTotalOrder isColor colorBinLess.
Proof.
  unfold colorBinLess. apply (key_order isColor colorToU32).
  intros a b Ha Hb E. rewrite <- (colorU32_roundtrip a Ha), <- (colorU32_roundtrip b Hb), E. reflexivity.
Qed.
(** it compares alpha first, then blue, green and red *)
Lemma color_order_lex : forall a b, isColor a -> isColor b ->
  (colorBinLess a b = true <-> lexLt [ca a; cb a; cg a; cr a] [ca b; cb b; cg b; cr b]).
Proof.
  intros [r g b a] [r' g' b' a'] (H1 & H2 & H3 & H4) (K1 & K2 & K3 & K4). cbn [cr cg cb ca] in *.
  unfold colorBinLess, colorToU32, byte in *. cbn [cr cg cb ca lexLt]. rewrite Z.ltb_lt. lia.
Qed.

(** ** quantisation of arbitrary binary32 intensities *)
Local Open Scope R_scope.

Lemma unitClamp_bounds : forall v, 0 <= unitClamp v <= 1.
Proof. intros v. unfold unitClamp, Rmax, Rmin. destruct (Rle_dec v 1), (Rle_dec _ 0); lra. Qed.
Lemma unitClamp_le : forall v w, v <= w -> unitClamp v <= unitClamp w.
Proof. intros v w H. unfold unitClamp. apply Rle_max_compat_r, Rle_min_compat_r, H. Qed.

Lemma f0_fin : fin (f0 : f32) /\ val (f0 : f32) = 0.
Proof. apply (lit_Z 0). cbn. lia. Qed.
Lemma f1_fin : fin (f1 : f32) /\ val (f1 : f32) = 1.
Proof. apply (lit_Z 1). cbn. lia. Qed.
Lemma ext_lit : forall m, (Z.abs m < 2 ^ 24)%Z -> num (slit m 0 : f32) /\ ext (slit m 0 : f32) = IZR m.
Proof. intros m H. destruct (lit_Z m H) as [A B]. split; [apply fin_num, A|]. rewrite fin_ext by exact A. exact B. Qed.

(** clamping any number gives a finite number of the unit interval *)
Lemma clamped_fin : forall (c : f32) v, num c -> ext c = unitClamp v -> fin c /\ val c = unitClamp v.
Proof.
  intros c v Hc E. pose proof (unitClamp_bounds v) as B.
  assert (1 < maxF) by (change 1 with (bpow radix2 0); apply bpow_lt; lia).
  assert (F : fin c) by (apply ext_fin; [exact Hc|lra]).
  split; [exact F|]. rewrite <- fin_ext; assumption.
Qed.
Lemma stdclamp_unit : forall x : f32, num x -> let c := stdclamp x f0 f1 in
  fin c /\ val c = unitClamp (ext x).
Proof.
  intros x Hx c. destruct (ext_lit 0 ltac:(cbn; lia)) as [N0 E0], (ext_lit 1 ltac:(cbn; lia)) as [N1 E1].
  assert (H : num c /\ ext c = unitClamp (ext x)).
  { unfold c, stdclamp, unitClamp. change (f0 : f32) with (slit 0 0 : f32). change (f1 : f32) with (slit 1 0 : f32).
    destruct (slt x (slit 0 0)) eqn:L0; [|destruct (slt (slit 1 0) x) eqn:L1].
    - apply slt_iff in L0; try assumption. rewrite E0 in L0. split; [exact N0|]. rewrite E0, Rmin_left, Rmax_right; lra.
    - apply slt_iff in L1; try assumption. rewrite E1 in L1. split; [exact N1|]. rewrite E1, Rmin_right, Rmax_left; lra.
    - apply slt_false in L0; try assumption. apply slt_false in L1; try assumption.
      rewrite E0 in L0. rewrite E1 in L1. split; [exact Hx|]. rewrite Rmin_left, Rmax_left; lra. }
  apply clamped_fin; apply H.
Qed.
Lemma simdclamp_unit : forall p (x : f32), num x -> let c := simdmax p (simdmin p x f1) f0 in
  fin c /\ val c = unitClamp (ext x).
Proof.
  intros p x Hx c. destruct (ext_lit 0 ltac:(cbn; lia)) as [N0 E0], (ext_lit 1 ltac:(cbn; lia)) as [N1 E1].
  change (slit 0 0) with (f0 : f32) in N0, E0. change (slit 1 0) with (f1 : f32) in N1, E1.
  pose proof (simdmin_num p x f1 Hx N1) as Nm.
  apply clamped_fin; unfold c; [apply simdmax_num; assumption|].
  rewrite simdmax_ext, simdmin_ext, E0, E1 by assumption. reflexivity.
Qed.

Lemma rnd_half : rnd (/ 2) = / 2 /\ rnd (255 + / 2) = 255 + / 2.
Proof.
  pose proof (rnd_lit 1 (-1) ltac:(cbn; lia) ltac:(lia)) as A. pose proof (rnd_lit 511 (-1) ltac:(cbn; lia) ltac:(lia)) as B.
  cbn in A, B. replace (1 * / 2) with (/ 2) in A by lra. replace (511 * / 2) with (255 + / 2) in B by lra. split; assumption.
Qed.

(** the quantised channel, as a function of the clamped value *)
Definition chanOf (w : R) : Z := Zfloor (rnd (rnd (w * 255) + / 2)).
Lemma scaled_bounds : forall w, 0 <= w <= 1 -> 0 <= rnd (w * 255) <= 255.
Proof.
  intros w H. pose proof (rnd_Z 255 ltac:(cbn; lia)) as E. split.
  - rewrite <- rnd_0. apply F32Round.rnd_le. lra.
  - rewrite <- E at 2. apply F32Round.rnd_le. lra.
Qed.
Lemma chan_sum_bounds : forall w, 0 <= w <= 1 -> / 2 <= rnd (rnd (w * 255) + / 2) <= 255 + / 2.
Proof.
  intros w H. pose proof (scaled_bounds w H) as B. destruct rnd_half as [E1 E2]. split.
  - rewrite <- E1 at 1. apply F32Round.rnd_le. lra.
  - rewrite <- E2. apply F32Round.rnd_le. lra.
Qed.
Lemma chanOf_byte : forall w, 0 <= w <= 1 -> byte (chanOf w).
Proof.
  intros w H. pose proof (chan_sum_bounds w H) as B. unfold chanOf, byte. split.
  - apply Zfloor_lub. cbn. lra.
  - apply lt_IZR. pose proof (Zfloor_lb (rnd (rnd (w * 255) + / 2))). lra.
Qed.
Lemma chanOf_le : forall w w', w <= w' -> (chanOf w <= chanOf w')%Z.
Proof.
  intros w w' H. unfold chanOf. apply Zfloor_le. apply F32Round.rnd_le.
  pose proof (F32Round.rnd_le (w * 255) (w' * 255) ltac:(lra)). lra.
Qed.
Lemma quant_core : forall c : f32, fin c -> 0 <= val c <= 1 ->
  toU8 (c * slit 255 0 + fhalf)%sc = Ok (chanOf (val c)).
Proof.
  intros c Hc B. destruct (lit_Z 255 ltac:(cbn; lia)) as [F255 V255]. destruct half_val as [Fh Vh].
  pose proof (scaled_bounds _ B) as B1. pose proof (chan_sum_bounds _ B) as B2.
  destruct (mul_small c (slit 255 0) Hc F255) as [Fm Vm].
  { apply small_le with 255; [|lra]. rewrite V255. rewrite Rabs_right; nra. }
  rewrite V255 in Vm.
  destruct (add_small _ (fhalf : f32) Fm Fh) as [Fs Vs].
  { apply small_le with 256; [|lra]. rewrite Vm, Vh. rewrite Rabs_right; lra. }
  rewrite Vm, Vh in Vs.
  unfold toU8. rewrite strunc_val by exact Fs. rewrite Vs.
  rewrite Ztrunc_floor by lra. change (Zfloor (rnd (rnd (val c * 255) + / 2))) with (chanOf (val c)).
  pose proof (chanOf_byte _ B) as [H1 H2].
  rewrite (proj2 (Z.leb_le _ _) H1), (proj2 (Z.ltb_lt _ _) H2). reflexivity.
Qed.
Lemma quantize_eq : forall x : f32, num x -> quantize x = Ok (chanOf (unitClamp (ext x))).
Proof.
  intros x Hx. destruct (stdclamp_unit x Hx) as [F V]. unfold quantize. rewrite <- V. apply quant_core; [exact F|].
  rewrite V. apply unitClamp_bounds.
Qed.
Lemma quantizeSimd_eq : forall p (x : f32), num x -> quantizeSimd p x = Ok (chanOf (unitClamp (ext x))).
Proof.
  intros p x Hx. destruct (simdclamp_unit p x Hx) as [F V]. unfold quantizeSimd. rewrite <- V. apply quant_core; [exact F|].
  rewrite V. apply unitClamp_bounds.
Qed.
Lemma chanOf_err : forall w, 0 <= w <= 1 -> Rabs (255 * w - IZR (chanOf w)) <= / 2 + / 16384.
Proof.
  intros w B. pose proof (scaled_bounds w B) as B1. pose proof (chan_sum_bounds w B) as B2. unfold chanOf.
  pose proof (rnd_err (w * 255)) as E1. pose proof (rnd_err (rnd (w * 255) + / 2)) as E2.
  pose proof (Zfloor_lb (rnd (rnd (w * 255) + / 2))) as L. pose proof (Zfloor_ub (rnd (rnd (w * 255) + / 2))) as U.
  rewrite (Rabs_right (w * 255)) in E1 by lra. rewrite (Rabs_right (rnd (w * 255) + / 2)) in E2 by lra.
  pose proof u24_val as Eu. pose proof eta0_small. pose proof eta0_pos.
  rewrite Eu in E1, E2. apply Rabs_le_inv in E1. apply Rabs_le_inv in E2. apply Rabs_le. lra.
Qed.
Lemma chan0 : chanOf 0 = 0%Z.
Proof.
  unfold chanOf. rewrite Rmult_0_l, rnd_0, Rplus_0_l. rewrite (proj1 rnd_half). apply Zfloor_imp. cbn. lra.
Qed.
Lemma chan1 : chanOf 1 = 255%Z.
Proof.
  unfold chanOf. rewrite Rmult_1_l, (rnd_Z 255) by (cbn; lia). rewrite (proj2 rnd_half). apply Zfloor_imp. cbn. lra.
Qed.
Lemma chanOf_nearest : forall v, nearestChannel (/ 16384) v (chanOf (unitClamp v)).
Proof.
  intros v. split; [apply chanOf_byte, unitClamp_bounds|]. split; [|split].
  - intros H. unfold unitClamp. rewrite Rmin_left, Rmax_right by lra. apply chan0.
  - intros H. unfold unitClamp. rewrite Rmin_right, Rmax_left by lra. apply chan1.
  - intros H. replace (unitClamp v) with v by (unfold unitClamp; rewrite Rmin_left, Rmax_left by lra; reflexivity).
    apply chanOf_err, H.
Qed.

Lemma quantize_all : forall x : f32, num x -> exists n,
  quantize x = Ok n /\ (forall p, quantizeSimd p x = Ok n) /\ nearestChannel (/ 16384) (ext x) n.
Proof.
  intros x Hx. exists (chanOf (unitClamp (ext x))). split; [apply quantize_eq, Hx|].
  split; [intros p; apply quantizeSimd_eq, Hx|]. apply chanOf_nearest.
Qed.
Lemma quantize_mono : forall (x y : f32) n m, num x -> num y -> ext x <= ext y ->
  quantize x = Ok n -> quantize y = Ok m -> (n <= m)%Z.
Proof.
  intros x y n m Hx Hy H. rewrite !quantize_eq by assumption. intros E1 E2. injection E1 as <-. injection E2 as <-.
  apply chanOf_le, unitClamp_le, H.
Qed.

(** setNorm truncates instead *)
Definition floorChan (w : R) : Z := Zfloor (rnd (w * 255)).
Lemma floorChan_byte : forall w, 0 <= w <= 1 -> byte (floorChan w).
Proof.
  intros w H. pose proof (scaled_bounds w H) as B. unfold floorChan, byte. split.
  - apply Zfloor_lub. cbn. lra.
  - apply lt_IZR. pose proof (Zfloor_lb (rnd (w * 255))). lra.
Qed.
Lemma setNorm_eq : forall x : f32, num x -> setNorm x = Ok (floorChan (unitClamp (ext x))).
Proof.
  intros x Hx. destruct (stdclamp_unit x Hx) as [F V]. pose proof (unitClamp_bounds (ext x)) as B. rewrite <- V in B.
  destruct (lit_Z 255 ltac:(cbn; lia)) as [F255 V255]. pose proof (scaled_bounds _ B) as B1.
  destruct (mul_small (stdclamp x f0 f1) (slit 255 0) F F255) as [Fm Vm].
  { apply small_le with 255; [|lra]. rewrite V255. rewrite Rabs_right; nra. }
  rewrite V255 in Vm. unfold setNorm, toU8. rewrite strunc_val by exact Fm. rewrite Vm.
  rewrite Ztrunc_floor by lra. rewrite V. change (Zfloor (rnd (unitClamp (ext x) * 255))) with (floorChan (unitClamp (ext x))).
  pose proof (floorChan_byte _ (unitClamp_bounds (ext x))) as [H1 H2].
  rewrite (proj2 (Z.leb_le _ _) H1), (proj2 (Z.ltb_lt _ _) H2). reflexivity.
Qed.
Lemma setNorm_below : forall x : f32, num x -> exists n, setNorm x = Ok n /\ byte n /\
  IZR n <= 255 * unitClamp (ext x) + / 32768 /\ 255 * unitClamp (ext x) < IZR n + 1 + / 32768.
Proof.
  intros x Hx. exists (floorChan (unitClamp (ext x))). split; [apply setNorm_eq, Hx|].
  pose proof (unitClamp_bounds (ext x)) as B. set (w := unitClamp (ext x)) in *.
  split; [apply floorChan_byte, B|]. unfold floorChan. pose proof (scaled_bounds w B) as B1.
  pose proof (Zfloor_lb (rnd (w * 255))) as L. pose proof (Zfloor_ub (rnd (w * 255))) as U.
  pose proof (rnd_err (w * 255)) as E1. rewrite (Rabs_right (w * 255)) in E1 by lra. rewrite u24_val in E1.
  pose proof eta0_small. pose proof eta0_pos. apply Rabs_le_inv in E1. lra.
Qed.
Lemma setNorm_differs : exists (x : f32) n m, num x /\ quantize x = Ok n /\ setNorm x = Ok m /\ n <> m /\
  Rabs (255 * ext x - IZR m) > / 2 + / 4.
Proof.
  exists (slit 16777215 (-24)), 255%Z, 254%Z. split; [vm_compute; reflexivity|].
  split; [vm_compute; reflexivity|]. split; [vm_compute; reflexivity|]. split; [discriminate|].
  destruct (lit_exact 16777215 (-24) ltac:(cbn; lia) ltac:(lia)) as [A B]. rewrite fin_ext by exact A. rewrite B.
  change (bpow radix2 (-24)) with u24. rewrite u24_val.
  apply Rlt_gt. eapply Rlt_le_trans; [|apply Rle_abs]. lra.
Qed.
Lemma nan_channel : forall (x : f32), is_nan 24 128 x = true ->
  quantize x = UB /\ setNorm x = UB /\ quantizeSimd NEON x = UB /\ quantizeSimd GEN x = UB /\
  (forall p, p = SSE2 \/ p = SSE41 \/ p = AVX2 -> quantizeSimd p x = Ok 255%Z).
Proof.
  intros x Hx. destruct x as [s|s|s pl Hp|s m e He]; try discriminate.
  assert (S1 : forall y, slt (B754_nan 24 128 s pl Hp : f32) y = false) by (intros []; reflexivity).
  assert (S2 : forall y, slt y (B754_nan 24 128 s pl Hp : f32) = false) by (intros []; reflexivity).
  assert (N : snan (B754_nan 24 128 s pl Hp : f32) = true) by reflexivity.
  unfold quantize, setNorm, quantizeSimd, stdclamp, simdmin, simdmax, stdmin, stdmax.
  rewrite !N, !S1, !S2. repeat split; try reflexivity.
  intros p [-> | [-> | ->]]; vm_compute; reflexivity.
Qed.

(** ** the comparison operators *)
Lemma color_ops : forall a b,
  (colorEq a b = true <-> a = b) /\ colorNe a b = negb (colorEq a b) /\
  (colorLt a b = true <-> Forall2 Z.lt (channels a) (channels b)) /\
  (colorGt a b = true <-> Forall2 Z.lt (channels b) (channels a)) /\
  (colorLe a b = true <-> Forall2 Z.le (channels a) (channels b)) /\
  (colorGe a b = true <-> Forall2 Z.le (channels b) (channels a)).
Proof.
  intros [r g b a] [r' g' b' a'].
  unfold colorEq, colorNe, colorLt, colorGt, colorLe, colorGe, channels. cbn [cr cg cb ca].
  assert (F4 : forall (P : Z -> Z -> Prop) x1 x2 x3 x4 y1 y2 y3 y4,
    Forall2 P [x1;x2;x3;x4] [y1;y2;y3;y4] <-> (P x1 y1 /\ P x2 y2) /\ P x3 y3 /\ P x4 y4).
  { intros P x1 x2 x3 x4 y1 y2 y3 y4. split.
    - intros H. inversion H as [|? ? ? ? H1 H']; subst. inversion H' as [|? ? ? ? H2 H'']; subst.
      inversion H'' as [|? ? ? ? H3 H3']; subst. inversion H3' as [|? ? ? ? H4 H4']; subst. tauto.
    - intros [[? ?] [? ?]]. repeat constructor; assumption. }
  rewrite !F4, !andb_true_iff, !Z.eqb_eq, !Z.ltb_lt, !Z.leb_le.
  split; [split; [intros [[[-> ->] ->] ->]; reflexivity|intros E; injection E; tauto]|].
  split; [rewrite !negb_andb; reflexivity|]. tauto.
Qed.
Lemma color_not_total : exists a b, isColor a /\ isColor b /\ a <> b /\
  colorLt a b = false /\ colorLt b a = false /\ colorLe a b = false /\ colorGe a b = false.
Proof.
  exists (Color 1 0 0 255), (Color 0 1 0 255). unfold isColor, byte. cbn [cr cg cb ca].
  repeat split; try lia; try reflexivity. discriminate.
Qed.

(** ** the hexadecimal constructor on strings of any length *)
Lemma hexByte_defined : forall ul s i, (S i <= length s)%nat -> hexByte ul s i <> UB /\ hexByte ul s i <> OutOfFuel.
Proof.
  intros ul s i H. unfold hexByte, two, charAt.
  destruct (nth_error s i) as [c|] eqn:E; [|apply nth_error_None in E; lia]. cbn [bind].
  assert (K : exists d, (match nth_error s (S i) with Some c0 => Ok c0 | None => if Nat.eqb (S i) (length s) then Ok zero else UB end) = Ok d).
  { destruct (nth_error s (S i)) as [d|] eqn:E2; [eauto|]. apply nth_error_None in E2.
    replace (S i) with (length s) by lia. rewrite Nat.eqb_refl. eauto. }
  destruct K as [d ->]. cbn [bind]. unfold toInt32, omap, stoul16.
  destruct (takeSign (skipSpaces [c; d])) as [neg s2]. cbv zeta.
  destruct (startsWithDigit (skipPrefix s2)); [|cbn [bind]; split; discriminate].
  destruct (2 ^ ul <=? parseDigits (skipPrefix s2) 0)%Z; cbn [bind]; split; discriminate.
Qed.
Lemma bind_defined : forall (x : outcome Z) (f : Z -> outcome color), x <> UB /\ x <> OutOfFuel ->
  (forall a, f a <> UB /\ f a <> OutOfFuel) -> bind x f <> UB /\ bind x f <> OutOfFuel.
Proof. intros [a| | |] f [H1 H2] H; cbn; try (split; congruence); apply H. Qed.
Lemma colorOfHex_defined : forall ul nd s, (nd = false \/ (5 <= length s)%nat) ->
  colorOfHex ul nd s <> UB /\ colorOfHex ul nd s <> OutOfFuel.
Proof.
  intros ul nd s H. unfold colorOfHex.
  destruct (negb nd && negb (Nat.eqb (length s) 8 || Nat.eqb (length s) 6)) eqn:E; [split; discriminate|].
  assert (L : (5 <= length s)%nat).
  { destruct H as [->|H]; [|exact H]. cbn [negb andb] in E. apply negb_false_iff, orb_true_iff in E.
    destruct E as [E|E]; apply Nat.eqb_eq in E; lia. }
  assert (C : forall (a b c d : Z), (@Ok color (Color a b c d)) <> UB /\ (@Ok color (Color a b c d)) <> OutOfFuel) by (split; discriminate).
  apply bind_defined; [apply hexByte_defined; lia|intros r]. apply bind_defined; [apply hexByte_defined; lia|intros g].
  apply bind_defined; [apply hexByte_defined; lia|intros b].
  destruct (Nat.eqb (length s) 8) eqn:E8; [|apply C]. apply Nat.eqb_eq in E8.
  apply bind_defined; [apply hexByte_defined; lia|intros a]. apply C.
Qed.
Lemma colorOfHex_debug : forall ul s, length s <> 6%nat -> length s <> 8%nat -> colorOfHex ul false s = Abort.
Proof.
  intros ul s H6 H8. unfold colorOfHex. apply Nat.eqb_neq in H6. apply Nat.eqb_neq in H8. rewrite H6, H8. reflexivity.
Qed.
Lemma colorOfHex_short : colorOfHex 64 true ["F"; "F"; "0"]%char = UB.
Proof. reflexivity. Qed.
