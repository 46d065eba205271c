(** Linear sRGB colours to XYZ and Yxy and back, in binary32. *)
From Coq Require Import ZArith Bool List Reals Lra Lia Psatz.
From Flocq Require Import Core.Core IEEE754.BinarySingleNaN IEEE754.Binary IEEE754.Bits.
From Verif.Model Require Import Scalar Vec Simd Matrix Numeric.
From Verif.Spec Require Import NormSpec MatErrSpec YxySpec.
From Verif.Proofs Require Import OrdScalar F32Round F32Err NormProofs MatErrProofs YxyErr.
Import ListNotations.
Local Open Scope R_scope.

Lemma litv : forall m e, (Z.abs m < 2 ^ 24)%Z -> (-149 <= - Z.pos e)%Z ->
  fin (slit m (- Z.pos e) : f32) /\ val (slit m (- Z.pos e) : f32) = IZR m / IZR (2 ^ Z.pos e).
Proof.
  intros m e M E. destruct (lit_exact m (- Z.pos e) M ltac:(lia)) as [F V]. split; [exact F|]. rewrite V.
  rewrite bpow_opp. unfold Rdiv. f_equal.
Qed.
Lemma tenE : 10 * bpow radix2 (-150) <= / 100000000000000000000000000000000000000000000.
Proof. pose proof eta_real as H. unfold eta0 in H. lra. Qed.
Lemma lim : 1000000000000 <= limit. Proof. lra. Qed.
Lemma three : forall (A B : Type) (P : A -> B -> Prop) a b c x y z, Forall2 P [a; b; c] [x; y; z] -> P a x /\ P b y /\ P c z.
Proof. intros A B P a b c x y z H. inversion H as [|? ? ? ? H1 HT]; subst. inversion HT as [|? ? ? ? H2 HU]; subst. inversion HU; subst. auto. Qed.
Lemma b28 : bpow radix2 (-28) = / 268435456. Proof. cbn. lra. Qed.
Lemma b30 : bpow radix2 30 = 1073741824. Proof. cbn. lra. Qed.
Lemma xyz_err : forall p (c : vec4 f32), fin (vx c) -> fin (vy c) -> fin (vz c) ->
  let x := val (vx c) in let y := val (vy c) in let z := val (vz c) in 0 <= x -> 0 <= y -> 0 <= z -> x + y + z <= 100000000000 ->
  let w := rgbToXyz p c in
  (fin (vx w) /\ Rabs (val (vx w) - (3459935 / 8388608 * x + 11998263 / 33554432 * y + 3027239 / 16777216 * z)) <= 3.01 / 16777216 * (3459935 / 8388608 * x + 11998263 / 33554432 * y + 3027239 / 16777216 * z) + / 100000000000000000000000000000000000000000000) /\
  (fin (vy w) /\ Rabs (val (vy w) - (14272237 / 67108864 * x + 11998263 / 16777216 * y + 9687165 / 134217728 * z)) <= 3.01 / 16777216 * (14272237 / 67108864 * x + 11998263 / 16777216 * y + 9687165 / 134217728 * z) + / 100000000000000000000000000000000000000000000) /\
  (fin (vz w) /\ Rabs (val (vz w) - (10379809 / 536870912 * x + 15997679 / 134217728 * y + 15943457 / 16777216 * z)) <= 3.01 / 16777216 * (10379809 / 536870912 * x + 15997679 / 134217728 * y + 15943457 / 16777216 * z) + / 100000000000000000000000000000000000000000000).
Proof.
  intros p [cx cy cz cw] Fx Fy Fz x y z X Y Z T w. cbn [vx vy vz] in *. pose proof tenE as TE. pose proof lim as LM.
  assert (L0 : fin (slit 3459935 (-23) : f32) /\ val (slit 3459935 (-23) : f32) = 3459935 / 8388608) by (exact (litv 3459935 23 ltac:(lia) ltac:(lia))). destruct L0 as [F0 V0].
  assert (L1 : fin (slit 11998263 (-25) : f32) /\ val (slit 11998263 (-25) : f32) = 11998263 / 33554432) by (exact (litv 11998263 25 ltac:(lia) ltac:(lia))). destruct L1 as [F1 V1].
  assert (L2 : fin (slit 3027239 (-24) : f32) /\ val (slit 3027239 (-24) : f32) = 3027239 / 16777216) by (exact (litv 3027239 24 ltac:(lia) ltac:(lia))). destruct L2 as [F2 V2].
  assert (L3 : fin (slit 14272237 (-26) : f32) /\ val (slit 14272237 (-26) : f32) = 14272237 / 67108864) by (exact (litv 14272237 26 ltac:(lia) ltac:(lia))). destruct L3 as [F3 V3].
  assert (L4 : fin (slit 11998263 (-24) : f32) /\ val (slit 11998263 (-24) : f32) = 11998263 / 16777216) by (exact (litv 11998263 24 ltac:(lia) ltac:(lia))). destruct L4 as [F4 V4].
  assert (L5 : fin (slit 9687165 (-27) : f32) /\ val (slit 9687165 (-27) : f32) = 9687165 / 134217728) by (exact (litv 9687165 27 ltac:(lia) ltac:(lia))). destruct L5 as [F5 V5].
  assert (L6 : fin (slit 10379809 (-29) : f32) /\ val (slit 10379809 (-29) : f32) = 10379809 / 536870912) by (exact (litv 10379809 29 ltac:(lia) ltac:(lia))). destruct L6 as [F6 V6].
  assert (L7 : fin (slit 15997679 (-27) : f32) /\ val (slit 15997679 (-27) : f32) = 15997679 / 134217728) by (exact (litv 15997679 27 ltac:(lia) ltac:(lia))). destruct L7 as [F7 V7].
  assert (L8 : fin (slit 15943457 (-24) : f32) /\ val (slit 15943457 (-24) : f32) = 15943457 / 16777216) by (exact (litv 15943457 24 ltac:(lia) ltac:(lia))). destruct L8 as [F8 V8].
  match goal with w := rgbToXyz p _ |- _ => unfold rgbToXyz in w end.
  match goal with w := multiply3x3v p ?m ?v |- _ => pose proof (multiply3x3v_err p m v) as K; fold w in K end.
  unfold rowsOf43, l43 in K. cbn [c0 c1 c2 vx vy vz] in K.
  assert (A : forall m t : R, 0 <= t -> Rabs (m * t) = Rabs m * t) by (intros m t Ht; rewrite Rabs_mult, (Rabs_right t) by lra; reflexivity).
  assert (AA : Forall allFin [[slit 3459935 (-23); slit 11998263 (-25); slit 3027239 (-24)]; [slit 14272237 (-26); slit 11998263 (-24); slit 9687165 (-27)]; [slit 10379809 (-29); slit 15997679 (-27); slit 15943457 (-24)]])
    by (repeat constructor; assumption).
  specialize (K AA ltac:(repeat constructor; assumption)). unfold under, actionErr in K.
  assert (I : forall a b c : f32, innerAbs [a; b; c] [cx; cy; cz] = Rabs (val a) * x + Rabs (val b) * y + Rabs (val c) * z).
  { intros a b c. cbn [innerAbs]. fold x y z. rewrite !A by assumption. ring. }
  assert (J : forall a b c : f32, inner [a; b; c] [cx; cy; cz] = val a * x + val b * y + val c * z).
  { intros a b c. cbn [inner]. fold x y z. ring. }
  assert (W0 : Rabs (val (slit 3459935 (-23) : f32)) = 3459935 / 8388608) by (rewrite V0; unfold Rdiv; rewrite Rabs_right by lra; lra).
  assert (W1 : Rabs (val (slit 11998263 (-25) : f32)) = 11998263 / 33554432) by (rewrite V1; unfold Rdiv; rewrite Rabs_right by lra; lra).
  assert (W2 : Rabs (val (slit 3027239 (-24) : f32)) = 3027239 / 16777216) by (rewrite V2; unfold Rdiv; rewrite Rabs_right by lra; lra).
  assert (W3 : Rabs (val (slit 14272237 (-26) : f32)) = 14272237 / 67108864) by (rewrite V3; unfold Rdiv; rewrite Rabs_right by lra; lra).
  assert (W4 : Rabs (val (slit 11998263 (-24) : f32)) = 11998263 / 16777216) by (rewrite V4; unfold Rdiv; rewrite Rabs_right by lra; lra).
  assert (W5 : Rabs (val (slit 9687165 (-27) : f32)) = 9687165 / 134217728) by (rewrite V5; unfold Rdiv; rewrite Rabs_right by lra; lra).
  assert (W6 : Rabs (val (slit 10379809 (-29) : f32)) = 10379809 / 536870912) by (rewrite V6; unfold Rdiv; rewrite Rabs_right by lra; lra).
  assert (W7 : Rabs (val (slit 15997679 (-27) : f32)) = 15997679 / 134217728) by (rewrite V7; unfold Rdiv; rewrite Rabs_right by lra; lra).
  assert (W8 : Rabs (val (slit 15943457 (-24) : f32)) = 15943457 / 16777216) by (rewrite V8; unfold Rdiv; rewrite Rabs_right by lra; lra).
  match type of K with ?P -> _ => assert (PP : P) end.
  { repeat constructor; rewrite I, ?W0, ?W1, ?W2, ?W3, ?W4, ?W5, ?W6, ?W7, ?W8; lra. }
  specialize (K PP). apply three in K. destruct K as (K1 & K2 & K3). clearbody w.
  unfold innerErr in K1, K2, K3. rewrite I, J in K1, K2, K3.
  rewrite W0, W1, W2, V0, V1, V2 in K1. rewrite W3, W4, W5, V3, V4, V5 in K2. rewrite W6, W7, W8, V6, V7, V8 in K3.
  destruct K1 as [G1 E1], K2 as [G2 E2], K3 as [G3 E3].
  repeat split; try assumption; (eapply Rle_trans; [eassumption|lra]).
Qed.
Lemma rgb_err : forall p (c : vec4 f32), fin (vx c) -> fin (vy c) -> fin (vz c) ->
  let x := val (vx c) in let y := val (vy c) in let z := val (vz c) in 0 <= x -> 0 <= y -> 0 <= z -> x + y + z <= 100000000000 ->
  let w := xyzToRgb p c in
  (fin (vx w) /\ Rabs (val (vx w) - (6795725 / 2097152 * x + (-3223613) / 2097152 * y + (-8363969) / 16777216 * z)) <= 3.01 / 16777216 * (6795725 / 2097152 * x + 3223613 / 2097152 * y + 8363969 / 16777216 * z) + / 100000000000000000000000000000000000000000000) /\
  (fin (vy w) /\ Rabs (val (vy w) - ((-16261585) / 16777216 * x + 15737119 / 8388608 * y + 348597 / 8388608 * z)) <= 3.01 / 16777216 * (16261585 / 16777216 * x + 15737119 / 8388608 * y + 348597 / 8388608 * z) + / 100000000000000000000000000000000000000000000) /\
  (fin (vz w) /\ Rabs (val (vz w) - (14936661 / 268435456 * x + (-6845973) / 33554432 * y + 1108581 / 1048576 * z)) <= 3.01 / 16777216 * (14936661 / 268435456 * x + 6845973 / 33554432 * y + 1108581 / 1048576 * z) + / 100000000000000000000000000000000000000000000).
Proof.
  intros p [cx cy cz cw] Fx Fy Fz x y z X Y Z T w. cbn [vx vy vz] in *. pose proof tenE as TE. pose proof lim as LM.
  assert (L0 : fin (slit 6795725 (-21) : f32) /\ val (slit 6795725 (-21) : f32) = 6795725 / 2097152) by (exact (litv 6795725 21 ltac:(lia) ltac:(lia))). destruct L0 as [F0 V0].
  assert (L1 : fin (slit (-3223613) (-21) : f32) /\ val (slit (-3223613) (-21) : f32) = (-3223613) / 2097152) by (exact (litv (-3223613) 21 ltac:(lia) ltac:(lia))). destruct L1 as [F1 V1].
  assert (L2 : fin (slit (-8363969) (-24) : f32) /\ val (slit (-8363969) (-24) : f32) = (-8363969) / 16777216) by (exact (litv (-8363969) 24 ltac:(lia) ltac:(lia))). destruct L2 as [F2 V2].
  assert (L3 : fin (slit (-16261585) (-24) : f32) /\ val (slit (-16261585) (-24) : f32) = (-16261585) / 16777216) by (exact (litv (-16261585) 24 ltac:(lia) ltac:(lia))). destruct L3 as [F3 V3].
  assert (L4 : fin (slit 15737119 (-23) : f32) /\ val (slit 15737119 (-23) : f32) = 15737119 / 8388608) by (exact (litv 15737119 23 ltac:(lia) ltac:(lia))). destruct L4 as [F4 V4].
  assert (L5 : fin (slit 348597 (-23) : f32) /\ val (slit 348597 (-23) : f32) = 348597 / 8388608) by (exact (litv 348597 23 ltac:(lia) ltac:(lia))). destruct L5 as [F5 V5].
  assert (L6 : fin (slit 14936661 (-28) : f32) /\ val (slit 14936661 (-28) : f32) = 14936661 / 268435456) by (exact (litv 14936661 28 ltac:(lia) ltac:(lia))). destruct L6 as [F6 V6].
  assert (L7 : fin (slit (-6845973) (-25) : f32) /\ val (slit (-6845973) (-25) : f32) = (-6845973) / 33554432) by (exact (litv (-6845973) 25 ltac:(lia) ltac:(lia))). destruct L7 as [F7 V7].
  assert (L8 : fin (slit 1108581 (-20) : f32) /\ val (slit 1108581 (-20) : f32) = 1108581 / 1048576) by (exact (litv 1108581 20 ltac:(lia) ltac:(lia))). destruct L8 as [F8 V8].
  match goal with w := xyzToRgb p _ |- _ => unfold xyzToRgb in w end.
  match goal with w := multiply3x3v p ?m ?v |- _ => pose proof (multiply3x3v_err p m v) as K; fold w in K end.
  unfold rowsOf43, l43 in K. cbn [c0 c1 c2 vx vy vz] in K.
  assert (A : forall m t : R, 0 <= t -> Rabs (m * t) = Rabs m * t) by (intros m t Ht; rewrite Rabs_mult, (Rabs_right t) by lra; reflexivity).
  assert (AA : Forall allFin [[slit 6795725 (-21); slit (-3223613) (-21); slit (-8363969) (-24)]; [slit (-16261585) (-24); slit 15737119 (-23); slit 348597 (-23)]; [slit 14936661 (-28); slit (-6845973) (-25); slit 1108581 (-20)]])
    by (repeat constructor; assumption).
  specialize (K AA ltac:(repeat constructor; assumption)). unfold under, actionErr in K.
  assert (I : forall a b c : f32, innerAbs [a; b; c] [cx; cy; cz] = Rabs (val a) * x + Rabs (val b) * y + Rabs (val c) * z).
  { intros a b c. cbn [innerAbs]. fold x y z. rewrite !A by assumption. ring. }
  assert (J : forall a b c : f32, inner [a; b; c] [cx; cy; cz] = val a * x + val b * y + val c * z).
  { intros a b c. cbn [inner]. fold x y z. ring. }
  assert (W0 : Rabs (val (slit 6795725 (-21) : f32)) = 6795725 / 2097152) by (rewrite V0; unfold Rdiv; rewrite Rabs_right by lra; lra).
  assert (W1 : Rabs (val (slit (-3223613) (-21) : f32)) = 3223613 / 2097152) by (rewrite V1; unfold Rdiv; rewrite Rabs_left by lra; lra).
  assert (W2 : Rabs (val (slit (-8363969) (-24) : f32)) = 8363969 / 16777216) by (rewrite V2; unfold Rdiv; rewrite Rabs_left by lra; lra).
  assert (W3 : Rabs (val (slit (-16261585) (-24) : f32)) = 16261585 / 16777216) by (rewrite V3; unfold Rdiv; rewrite Rabs_left by lra; lra).
  assert (W4 : Rabs (val (slit 15737119 (-23) : f32)) = 15737119 / 8388608) by (rewrite V4; unfold Rdiv; rewrite Rabs_right by lra; lra).
  assert (W5 : Rabs (val (slit 348597 (-23) : f32)) = 348597 / 8388608) by (rewrite V5; unfold Rdiv; rewrite Rabs_right by lra; lra).
  assert (W6 : Rabs (val (slit 14936661 (-28) : f32)) = 14936661 / 268435456) by (rewrite V6; unfold Rdiv; rewrite Rabs_right by lra; lra).
  assert (W7 : Rabs (val (slit (-6845973) (-25) : f32)) = 6845973 / 33554432) by (rewrite V7; unfold Rdiv; rewrite Rabs_left by lra; lra).
  assert (W8 : Rabs (val (slit 1108581 (-20) : f32)) = 1108581 / 1048576) by (rewrite V8; unfold Rdiv; rewrite Rabs_right by lra; lra).
  match type of K with ?P -> _ => assert (PP : P) end.
  { repeat constructor; rewrite I, ?W0, ?W1, ?W2, ?W3, ?W4, ?W5, ?W6, ?W7, ?W8; lra. }
  specialize (K PP). apply three in K. destruct K as (K1 & K2 & K3). clearbody w.
  unfold innerErr in K1, K2, K3. rewrite I, J in K1, K2, K3.
  rewrite W0, W1, W2, V0, V1, V2 in K1. rewrite W3, W4, W5, V3, V4, V5 in K2. rewrite W6, W7, W8, V6, V7, V8 in K3.
  destruct K1 as [G1 E1], K2 as [G2 E2], K3 as [G3 E3].
  repeat split; try assumption; (eapply Rle_trans; [eassumption|lra]).
Qed.

Lemma b34 : bpow radix2 (-34) = / 17179869184 /\ bpow radix2 34 = 17179869184. Proof. cbn. lra. Qed.
Lemma tiny44 : / 100000000000000000000000000000000000000000000 <= / 1000000000000000000000000000000. Proof. lra. Qed.
Ltac halves := repeat match goal with H : Rabs _ <= _ |- _ => apply Rabs_le_inv in H; destruct H end.
Lemma to_xyz : forall p (c : vec4 f32), light c ->
  let w := rgbToXyz p c in let r := val (vx c) in let g := val (vy c) in let b := val (vz c) in
  units 4.02 (vx w) (standardX r g b) (standardX r g b) /\ units 4.02 (vy w) (standardY r g b) (standardY r g b) /\
  units 4.02 (vz w) (standardZ r g b) (standardZ r g b).
Proof.
  intros p c (Fx & Fy & Fz & X & Y & Z & TL & TH) w r g b. unfold total in TL, TH. rewrite b28 in TL. rewrite b30 in TH.
  destruct (xyz_err p c Fx Fy Fz X Y Z ltac:(lra)) as ((G1 & E1) & (G2 & E2) & (G3 & E3)). fold w in G1, E1, G2, E2, G3, E3. fold r g b in E1, E2, E3, X, Y, Z, TL, TH. clearbody w r g b.
  pose proof tiny44 as T. unfold units, standardX, standardY, standardZ. halves.
  split; [|split]; (split; [assumption|]); apply Rabs_le; split; lra.
Qed.
Lemma lit_tri : forall p (c : vec4 f32), light c -> tristimulus (rgbToXyz p c).
Proof.
  intros p c (Fx & Fy & Fz & X & Y & Z & TL & TH). unfold total in TL, TH. rewrite b28 in TL. rewrite b30 in TH.
  destruct (xyz_err p c Fx Fy Fz X Y Z ltac:(lra)) as ((G1 & E1) & (G2 & E2) & (G3 & E3)).
  set (w := rgbToXyz p c) in *. set (r := val (vx c)) in *. set (g := val (vy c)) in *. set (b := val (vz c)) in *. clearbody w r g b.
  pose proof tiny44 as T. unfold tristimulus, between. destruct b34 as [-> ->]. halves. repeat split; try assumption; lra.
Qed.
Lemma and_again : forall p (c : vec4 f32), light c ->
  let w := xyzToRgb p (rgbToXyz p c) in
  units 16 (vx w) (val (vx c)) (total c) /\ units 11 (vy w) (val (vy c)) (total c) /\ units 7 (vz w) (val (vz c)) (total c).
Proof.
  intros p c L. destruct (lit_tri p c L) as ((FX & X1 & X2) & (FY & Y1 & Y2) & (FZ & Z1 & Z2)).
  destruct L as (Fx & Fy & Fz & X & Y & Z & TL & TH). unfold total in *. rewrite b28 in TL. rewrite b30 in TH.
  destruct (xyz_err p c Fx Fy Fz X Y Z ltac:(lra)) as ((G1 & E1) & (G2 & E2) & (G3 & E3)).
  destruct b34 as [B1 B2]. rewrite B1 in *. rewrite B2 in *.
  destruct (rgb_err p (rgbToXyz p c) FX FY FZ ltac:(lra) ltac:(lra) ltac:(lra) ltac:(lra)) as ((H1 & D1) & (H2 & D2) & (H3 & D3)).
  set (w := rgbToXyz p c) in *. set (o := xyzToRgb p w) in *. clearbody o. set (a1 := val (vx w)) in *. set (a2 := val (vy w)) in *. set (a3 := val (vz w)) in *. clearbody a1 a2 a3.
  set (r := val (vx c)) in *. set (g := val (vy c)) in *. set (b := val (vz c)) in *. clearbody r g b. cbv zeta. pose proof tiny44 as T. unfold units. clear - E1 E2 E3 D1 D2 D3 H1 H2 H3 X Y Z TL T.
  halves. split; [|split]; (split; [assumption|]); apply Rabs_le; split; lra.
Qed.
Lemma round_trip : forall p (c : vec4 f32), light c ->
  let w := yxyToRgb p (rgbToYxy p c) in
  units 32 (vx w) (val (vx c)) (total c) /\ units 15 (vy w) (val (vy c)) (total c) /\ units 18 (vz w) (val (vz c)) (total c).
Proof.
  intros p c L. pose proof (lit_tri p c L) as TT. pose proof (and_back p (rgbToXyz p c) TT) as AB.
  destruct TT as ((FX & X1 & X2) & (FY & Y1 & Y2) & (FZ & Z1 & Z2)).
  destruct L as (Fx & Fy & Fz & X & Y & Z & TL & TH). unfold total in *. rewrite b28 in TL. rewrite b30 in TH.
  destruct (xyz_err p c Fx Fy Fz X Y Z ltac:(lra)) as ((G1 & E1) & (G2 & E2) & (G3 & E3)).
  destruct b34 as [B1 B2]. rewrite B1 in *. rewrite B2 in *.
  unfold yxyToRgb, rgbToYxy. set (w := rgbToXyz p c) in *. set (u := yxyToXyz (xyzToYxy p w)) in *. cbv zeta in AB.
  destruct AB as ((K1 & M1) & K2 & (K3 & M3)). clearbody u.
  assert (FU : fin (vy u)) by (rewrite K2; exact FY). assert (VU : val (vy u) = val (vy w)) by (rewrite K2; reflexivity). clear K2.
  set (a1 := val (vx w)) in *. set (a2 := val (vy w)) in *. set (a3 := val (vz w)) in *. clearbody a1 a2 a3.
  set (r := val (vx c)) in *. set (g := val (vy c)) in *. set (b := val (vz c)) in *. clearbody r g b. pose proof tiny44 as T.
  assert (PX : 0 <= val (vx u) <= 30000000000) by (clear - M1 X1 X2; apply Rabs_le_inv in M1; lra).
  assert (PZ : 0 <= val (vz u) <= 30000000000) by (clear - M3 E1 E2 E3 X Y Z Z1 Z2 X2 Y2 TL T; halves; split; lra).
  destruct (rgb_err p u K1 FU K3 ltac:(lra) ltac:(lra) ltac:(lra) ltac:(lra)) as ((H1 & D1) & (H2 & D2) & (H3 & D3)). rewrite VU in *.
  set (o := xyzToRgb p u) in *. clearbody o. set (u1 := val (vx u)) in *. set (u3 := val (vz u)) in *. clearbody u1 u3.
  cbv zeta. unfold units. clear - E1 E2 E3 D1 D2 D3 M1 M3 H1 H2 H3 X Y Z TL T.
  halves. split; [|split]; (split; [assumption|]); apply Rabs_le; split; lra.
Qed.
Lemma black_nan : forall p, let w := yxyToRgb p (rgbToYxy p (V4 f0 f0 f0 f0 : vec4 f32)) in
  is_nan 24 128 (vx w) = true /\ is_nan 24 128 (vy w) = true /\ is_nan 24 128 (vz w) = true.
Proof. intros []; vm_compute; auto. Qed.
Lemma black_lost : exists c : vec4 f32, (fin (vx c) /\ fin (vy c) /\ fin (vz c) /\ val (vx c) = 0 /\ val (vy c) = 0 /\ val (vz c) = 0) /\
  forall p, let w := yxyToRgb p (rgbToYxy p c) in
  is_nan 24 128 (vx w) = true /\ is_nan 24 128 (vy w) = true /\ is_nan 24 128 (vz w) = true.
Proof.
  exists (V4 f0 f0 f0 f0). split; [|exact black_nan]. destruct (lit_Z 0 ltac:(lia)) as [F V]. cbn [vx vy vz].
  repeat split; first [exact F|exact V].
Qed.
Lemma ex_white : light (V4 f1 f1 f1 f1 : vec4 f32) /\ total (V4 f1 f1 f1 f1) = 3 /\ tristimulus (V4 f1 f1 f1 f1 : vec4 f32).
Proof.
  destruct (lit_Z 1 ltac:(lia)) as [F V]. change (slit 1 0 : f32) with (f1 : f32) in F, V. destruct b34 as [B1 B2].
  unfold light, total, tristimulus, between. cbn [vx vy vz]. rewrite b28, b30, B1, B2. rewrite !V. repeat split; try exact F; lra.
Qed.
