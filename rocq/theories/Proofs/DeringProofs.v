(** The cutoff chosen by deringingSH. *)
From Coq Require Import ZArith Reals Bool List Lia Lra Psatz.
From Flocq Require Import Core.Core IEEE754.BinarySingleNaN IEEE754.Binary IEEE754.Bits.
From Verif.Model Require Import Outcome Scalar Vec Simd Matrix Trig Numeric Bvh Sh.
From Verif.Spec Require Import IblSpec ShSpec.
From Verif.Proofs Require Import OrdScalar F32Round F32Err RealLits Frustum IblProofs GainProofs ShProofs.
Import ListNotations.
Local Open Scope R_scope.

Section Search.
  Context {F : Type} {S : Scalar F} {T : Trig F} (minOf : list F -> outcome (F * list F)).
  Let three : F := ofInt 3.
  Let mid (l r : F) : F := (fhalf * (l + r))%sc.
  Let wide (c : F) : bool := slt (three + slit 13421773 (-27))%sc c.
  Context (le : F -> F -> Prop)
          (le_nlt : forall a b, le a b -> slt b a = false)
          (le_trans : forall a b c, le a b -> le b c -> le a c)
          (le_refl_l : forall a b, le a b -> le a a)
          (mid_le : forall l r, le l r -> le l (mid l r) /\ le (mid l r) r).

  Lemma search_stays : forall n w l r cut c, le cut l -> le l r ->
    searchCutoff minOf n w l r cut = Ok c -> c = cut.
  Proof.
    induction n as [|n IH]; intros w l r cut c H1 H2 E; cbn [searchCutoff] in E; [congruence|].
    destruct (slt (l + slit 13421773 (-27))%sc r) eqn:W; [|congruence].
    destruct (windowing smul _ w) as [w1| | |]; cbn [bind] in E; try discriminate.
    destruct (minOf w1) as [[mn w2]| | |]; cbn [bind] in E; try discriminate.
    destruct (mid_le _ _ H2) as [M1 M2]. fold (mid l r) in E.
    assert (K : forall l' r', le cut l' -> le l' r' ->
      searchCutoff minOf n w2 l' r' (stdmin cut l') = Ok c -> c = cut).
    { intros l' r' A B Q. assert (Z : stdmin cut l' = cut) by (unfold stdmin; rewrite (le_nlt _ _ A); reflexivity).
      rewrite Z in Q. exact (IH _ _ _ _ _ A B Q). }
    destruct (slt mn f0).
    - exact (K _ _ H1 M1 E).
    - exact (K _ _ (le_trans _ _ _ H1 M1) M2 E).
  Qed.
  (** one channel: the second probe never lowers the cutoff again *)
  Lemma search_channel : forall n w cut c, le three cut -> wide cut = true ->
    slt (mid three cut) cut = true -> slt three cut = true ->
    searchCutoff minOf (Datatypes.S n) w three cut cut = Ok c -> c = three \/ c = mid three cut.
  Proof.
    intros n w cut c H1 W L1 L2 E. cbn [searchCutoff] in E. unfold wide in W. rewrite W in E.
    destruct (windowing smul _ w) as [w1| | |]; cbn [bind] in E; try discriminate.
    destruct (minOf w1) as [[mn w2]| | |]; cbn [bind] in E; try discriminate.
    destruct (mid_le _ _ H1) as [M1 M2]. fold (mid three cut) in E.
    destruct (slt mn f0); unfold stdmin in E.
    - rewrite L2 in E. left. exact (search_stays _ _ _ _ _ _ (le_refl_l _ _ H1) M1 E).
    - rewrite L1 in E. right. exact (search_stays _ _ _ _ _ _ (le_refl_l _ _ M2) M2 E).
  Qed.
  Lemma search_narrow : forall n w cut c, wide cut = false ->
    searchCutoff minOf n w three cut cut = Ok c -> c = cut.
  Proof.
    intros n w cut c W E. destruct n as [|n]; cbn [searchCutoff] in E; [congruence|].
    unfold wide in W. rewrite W in E. congruence.
  Qed.
  Let c1 := ofInt 13 : F.
  Let c2 := mid three c1.
  Let c3 := mid three c2.
  Let c4 := mid three c3.
  Lemma cutoff_two : le three c1 ->
    wide three = false ->
    (wide c1 = true /\ slt c2 c1 = true /\ slt three c1 = true) ->
    (wide c2 = true /\ slt c3 c2 = true /\ slt three c2 = true) ->
    (wide c3 = true /\ slt c4 c3 = true /\ slt three c3 = true) ->
    forall a c, deringCutoff minOf a = Ok c -> c = three \/ c = c4.
  Proof.
    intros L1 W3 (W1 & A1 & B1) (W2 & A2 & B2) (W4 & A4 & B4) a c E.
    pose proof (proj1 (mid_le _ _ L1)) as L2. pose proof (proj1 (mid_le _ _ L2)) as L3.
    unfold deringCutoff in E. change (range 0 3) with [0; 1; 2]%Z in E. cbn [forEach] in E.
    change (ofInt (shBandCount * 4 + 1)) with c1 in E. change (ofInt shBandCount) with three in E.
    destruct (searchCutoff minOf 16 (channelOf a 0) three c1 c1) as [k1| | |] eqn:E1; cbn [bind] in E; try discriminate.
    destruct (searchCutoff minOf 16 (channelOf a 1) three k1 k1) as [k2| | |] eqn:E2; cbn [bind] in E; try discriminate.
    destruct (searchCutoff minOf 16 (channelOf a 2) three k2 k2) as [k3| | |] eqn:E3; cbn [bind] in E; try discriminate.
    assert (Q : forall w k, searchCutoff minOf 16 w three three three = Ok k -> k = three) by (intros w k; apply search_narrow; exact W3).
    assert (c = k3) by congruence. subst c.
    destruct (search_channel _ _ _ _ L1 W1 A1 B1 E1) as [->| ->].
    { rewrite (Q _ _ E2) in E3. left. exact (Q _ _ E3). }
    change (mid three c1) with c2 in E2.
    destruct (search_channel _ _ _ _ L2 W2 A2 B2 E2) as [->| ->].
    { left. exact (Q _ _ E3). }
    change (mid three c2) with c3 in E3.
    exact (search_channel _ _ _ _ L3 W4 A4 B4 E3).
  Qed.
End Search.

(** over the reals *)
Lemma sltR_true : forall a b : R, a < b -> slt a b = true.
Proof. intros a b H. cbn [slt ScalarR]. apply Rlt_bool_true. exact H. Qed.
Lemma sltR_false : forall a b : R, b <= a -> slt a b = false.
Proof. intros a b H. cbn [slt ScalarR]. apply Rlt_bool_false. exact H. Qed.
Lemma tenthR : (slit 13421773 (-27) : R) = 13421773 / 134217728.
Proof. cbn [slit ScalarR]. rewrite Rlit_neg. reflexivity. Qed.
Lemma cutoff_real : forall minOf a c, deringCutoff (F := R) minOf a = Ok c -> c = 3 \/ c = 17 / 4.
Proof.
  intros minOf a c E.
  destruct (cutoff_two minOf (fun a b : R => a <= b) (fun a b => sltR_false b a) Rle_trans (fun a b _ => Rle_refl a)) with (a := a) (c := c) as [H|H];
    try exact E; rewrite ?ofIntR, ?fhalfR, ?tenthR in *; cbn [sadd smul ScalarR] in *;
    repeat split; intros; try (apply sltR_true); try (apply sltR_false); try lra.
Qed.

(** in binary32 *)
Definition leF (a b : f32) : Prop := fin a /\ fin b /\ 3 <= val a /\ val a <= val b /\ val b <= 13.
Lemma leF_nlt : forall a b, leF a b -> slt b a = false.
Proof.
  intros a b (Fa & Fb & _ & H & _). rewrite slt_ext by (apply fin_num; assumption).
  rewrite !fin_ext by assumption. apply Rlt_bool_false. exact H.
Qed.
Lemma leF_trans : forall a b c, leF a b -> leF b c -> leF a c.
Proof. intros a b c (A & B & C & D & E) (A' & B' & C' & D' & E'). unfold leF. repeat split; try assumption; lra. Qed.
Lemma leF_l : forall a b, leF a b -> leF a a.
Proof. intros a b (A & B & C & D & E). unfold leF. repeat split; try assumption; lra. Qed.
Lemma leF_r : forall a b, leF a b -> leF b b.
Proof. intros a b (A & B & C & D & E). unfold leF. repeat split; try assumption; lra. Qed.
Lemma rnd_double : forall x : f32, rnd (2 * val x) = 2 * val x.
Proof.
  intros x. assert (P24 : Prec_gt_0 24) by reflexivity.
  destruct (FLT_format_generic radix2 (-149) 24 (val x) (generic_format_B2R 24 128 x)) as [[m e] E Hm He]. cbn [Fnum Fexp] in *.
  rewrite E. unfold F2R. cbn [Fnum Fexp].
  replace (2 * (IZR m * bpow radix2 e)) with (IZR m * bpow radix2 (e + 1)) by (rewrite bpow_plus; change (bpow radix2 1) with 2; ring).
  apply rnd_lit; [exact Hm|lia].
Qed.
Lemma midF : forall l r, leF l r -> leF l (fhalf * (l + r))%sc /\ leF (fhalf * (l + r))%sc r.
Proof.
  intros l r (Fl & Fr & A & B & C).
  destruct (add_small l r Fl Fr) as [Fs Vs]. { apply (small_le _ 30); [apply Rabs_le; lra|lra]. }
  destruct half_val as [Fh Vh].
  assert (Lo : 2 * val l <= val (l + r)%sc).
  { rewrite Vs, <- (rnd_double l). apply F32Round.rnd_le. lra. }
  assert (Hi : val (l + r)%sc <= 2 * val r).
  { rewrite Vs, <- (rnd_double r). apply F32Round.rnd_le. lra. }
  destruct (mul_small fhalf (l + r)%sc Fh Fs) as [Fm Vm]. { apply (small_le _ 30); [rewrite Vh; apply Rabs_le; lra|lra]. }
  assert (A1 : val l <= val (fhalf * (l + r))%sc).
  { rewrite Vm, <- (rnd_val l), Vh. apply F32Round.rnd_le. lra. }
  assert (A2 : val (fhalf * (l + r))%sc <= val r).
  { rewrite Vm, <- (rnd_val r), Vh. apply F32Round.rnd_le. lra. }
  unfold leF. repeat split; try assumption; lra.
Qed.
Definition cutoffLow : f32 := slit 3 0.
Definition cutoffHigh : f32 := slit 17 (-2).
Lemma cutoff_f32 : forall (T : Trig f32) minOf a c, deringCutoff minOf a = Ok c -> c = cutoffLow \/ c = cutoffHigh.
Proof.
  intros T minOf a c E.
  assert (L : leF (ofInt 3) (ofInt 13)).
  { destruct (lit_Z 3 ltac:(lia)) as [F3 V3]. destruct (lit_Z 13 ltac:(lia)) as [F13 V13]. unfold leF, ofInt. rewrite V3, V13. repeat split; try assumption; lra. }
  destruct (cutoff_two minOf leF leF_nlt leF_trans (fun a b H => leF_l a b H) midF L) with (a := a) (c := c) as [H|H].
  - vm_compute; reflexivity.
  - repeat split; vm_compute; reflexivity.
  - repeat split; vm_compute; reflexivity.
  - repeat split; vm_compute; reflexivity.
  - exact E.
  - left. exact H.
  - right. rewrite H. apply Binary.B2FF_inj. vm_compute. reflexivity.
Qed.

(** ** What windowing at these cutoffs does *)
Lemma piF_low : 3141 / 1000 < (piF : R).
Proof. unfold piF; cbn [slit ScalarR]; rewrite Rlit_neg; cbn; lra. Qed.
Lemma sinc_bound : forall x, 0 < x -> Rabs (sin x / x) <= 1 /\ Rabs (sin x / x) <= / x.
Proof.
  intros x H. pose proof (SIN_bound x) as B. unfold Rdiv. rewrite Rabs_mult, (Rabs_pos_eq (/ x)) by (left; apply Rinv_0_lt_compat, H).
  assert (I : 0 < / x) by (apply Rinv_0_lt_compat, H).
  assert (A1 : Rabs (sin x) <= 1) by (apply Rabs_le; lra).
  assert (A2 : Rabs (sin x) <= x).
  { destruct (Rle_dec x 1).
    - pose proof (sin_lt_x x H). pose proof PI2_1. assert (0 <= sin x) by (apply sin_ge_0; [lra|pose proof PI2_1; unfold PI2 in *; lra]). rewrite Rabs_pos_eq; lra.
    - lra. }
  split.
  - apply Rle_trans with (x * / x); [apply Rmult_le_compat_r; [lra|exact A2]|]. rewrite Rinv_r; lra.
  - rewrite <- (Rmult_1_l (/ x)) at 2. apply Rmult_le_compat_r; [lra|exact A1].
Qed.
Lemma window_unit : forall l w, 0 < w -> (0 <= l)%Z -> 0 <= sincWindow (F := R) l w <= 1.
Proof.
  intros l w Hw Hl. unfold sincWindow. rewrite f0R, f1R, ofIntR.
  destruct (l =? 0)%Z eqn:Z0; [lra|]. destruct (sge (IZR l) w) eqn:G; [lra|].
  apply Z.eqb_neq in Z0. cbn [smul sdiv tsin ScalarR TrigR].
  pose proof piF_low as PL.
  assert (X : 0 < piF * IZR l / w).
  { apply Rmult_lt_0_compat; [|apply Rinv_0_lt_compat, Hw]. apply Rmult_lt_0_compat; [lra|apply IZR_lt; lia]. }
  destruct (sinc_bound _ X) as [B _]. set (s := sin _ / _) in *. clearbody s.
  assert (Q : 0 <= s * s <= 1). { unfold Rabs in B; destruct (Rcase_abs s); nra. }
  replace (s * s * s * s) with ((s * s) * (s * s)) by ring. nra.
Qed.
Lemma window_zero : forall w : R, sincWindow 0 w = 1.
Proof. intros w. unfold sincWindow. cbn [Z.eqb]. exact f1R. Qed.
(** beyond the cutoff nothing is left *)
Lemma window_cut : forall l (w : R), (0 < l)%Z -> w <= IZR l -> sincWindow l w = 0.
Proof.
  intros l w Hl H. unfold sincWindow. rewrite f0R, ofIntR. destruct (l =? 0)%Z eqn:Z0; [apply Z.eqb_eq in Z0; lia|].
  unfold sge. cbn [sle ScalarR]. rewrite Rle_bool_true by exact H. reflexivity.
Qed.
Lemma window_band2 : forall c : R, c = 3 \/ c = 17 / 4 -> 0 <= sincWindow 2 c <= 21 / 100.
Proof.
  intros c Hc. assert (P : 0 < c) by (destruct Hc; lra). split; [apply window_unit; [exact P|lia]|].
  unfold sincWindow. rewrite f0R, f1R, ofIntR. cbn [Z.eqb].
  destruct (sge (IZR 2) c) eqn:G; [lra|]. cbn [smul sdiv tsin ScalarR TrigR].
  pose proof piF_low as PL. set (x := piF * 2 / c).
  assert (X : 1478 / 1000 <= x).
  { unfold x. destruct Hc as [-> | ->]; lra. }
  destruct (sinc_bound x ltac:(lra)) as [_ B].
  assert (I : / x <= / (1478 / 1000)) by (apply Rinv_le_contravar; lra).
  set (s := sin x / x) in *. clearbody s.
  assert (S2 : s * s <= 458 / 1000).
  { assert (s * s = Rabs s * Rabs s) by (unfold Rabs; destruct (Rcase_abs s); ring). pose proof (Rabs_pos s).
    assert (Rabs s <= 6766 / 10000) by lra. nra. }
  replace (s * s * s * s) with ((s * s) * (s * s)) by ring. pose proof (Rle_0_sqr s). unfold Rsqr in *. nra.
Qed.

Lemma nine : forall A (a : list A), length a = 9%nat -> exists a0 a1 a2 a3 a4 a5 a6 a7 a8, a = [a0; a1; a2; a3; a4; a5; a6; a7; a8].
Proof. intros A a H. do 9 (destruct a as [|? a]; [discriminate|]). destruct a; [|discriminate]. repeat eexists. Qed.
Lemma windowing_bands : forall (F : Type) (S : Scalar F) (T : Trig F) A (scale : A -> F -> A) cutoff a, length a = 9%nat ->
  windowing scale cutoff a = Ok (bandScaled scale (sincWindow 0 cutoff) (sincWindow 1 cutoff) (sincWindow 2 cutoff) a).
Proof.
  intros F S T A scale cutoff a H. destruct (nine _ _ H) as (a0 & a1 & a2 & a3 & a4 & a5 & a6 & a7 & a8 & ->).
  rewrite windowing_eq. reflexivity.
Qed.
Lemma bandScaled_length : forall A F (scale : A -> F -> A) w0 w1 w2 a, length a = 9%nat -> length (bandScaled scale w0 w1 w2 a) = 9%nat.
Proof. intros. unfold bandScaled. rewrite map_length, combine_length, H. reflexivity. Qed.
(** never out of bounds *)
Definition soundMin {F} (minOf : list F -> outcome (F * list F)) : Prop :=
  forall w, length w = 9%nat -> minOf w = OutOfFuel \/ exists mn w', minOf w = Ok (mn, w') /\ length w' = 9%nat.
Definition totalMin {F} (minOf : list F -> outcome (F * list F)) : Prop :=
  forall w, length w = 9%nat -> exists mn w', minOf w = Ok (mn, w') /\ length w' = 9%nat.
Section Defined.
  Context {F : Type} {S : Scalar F} {T : Trig F} (minOf : list F -> outcome (F * list F)).
  Lemma search_defined : soundMin minOf -> forall n w l r c, length w = 9%nat ->
    searchCutoff minOf n w l r c = OutOfFuel \/ exists c', searchCutoff minOf n w l r c = Ok c'.
  Proof.
    intros M. induction n as [|n IH]; intros w l r c H; cbn [searchCutoff]; [right; eauto|].
    destruct (slt _ r); [|right; eauto].
    rewrite windowing_bands by exact H. cbn [bind].
    destruct (M _ (bandScaled_length _ _ smul (sincWindow 0 (fhalf * (l + r))%sc) (sincWindow 1 (fhalf * (l + r))%sc) (sincWindow 2 (fhalf * (l + r))%sc) w H)) as [E|(mn & w' & E & L)]; rewrite E; cbn [bind]; [left; reflexivity|].
    destruct (slt mn f0); apply IH; exact L.
  Qed.
  Lemma search_total : totalMin minOf -> forall n w l r c, length w = 9%nat -> exists c', searchCutoff minOf n w l r c = Ok c'.
  Proof.
    intros M. induction n as [|n IH]; intros w l r c H; cbn [searchCutoff]; [eauto|].
    destruct (slt _ r); [|eauto].
    rewrite windowing_bands by exact H. cbn [bind].
    destruct (M _ (bandScaled_length _ _ smul (sincWindow 0 (fhalf * (l + r))%sc) (sincWindow 1 (fhalf * (l + r))%sc) (sincWindow 2 (fhalf * (l + r))%sc) w H)) as (mn & w' & E & L); rewrite E; cbn [bind].
    destruct (slt mn f0); apply IH; exact L.
  Qed.
  Lemma channel_length : forall a c, length (channelOf a c) = length (A := vec4 F) a.
  Proof. intros. apply map_length. Qed.
  Lemma dering_defined : soundMin minOf -> forall a, length a = 9%nat ->
    deringingSH minOf a = OutOfFuel \/ exists r, deringingSH minOf a = Ok r /\ length r = 9%nat.
  Proof.
    intros M a H. unfold deringingSH, deringCutoff. change (range 0 3) with [0; 1; 2]%Z. cbn [forEach].
    destruct (search_defined M 16 (channelOf a 0) (ofInt shBandCount) (ofInt (shBandCount * 4 + 1)) (ofInt (shBandCount * 4 + 1))) as [E|[c0 E]]; [rewrite channel_length; exact H| |]; rewrite E; cbn [bind]; [left; reflexivity|].
    destruct (search_defined M 16 (channelOf a 1) (ofInt shBandCount) c0 c0) as [E1|[c1 E1]]; [rewrite channel_length; exact H| |]; rewrite E1; cbn [bind]; [left; reflexivity|].
    destruct (search_defined M 16 (channelOf a 2) (ofInt shBandCount) c1 c1) as [E2|[c2 E2]]; [rewrite channel_length; exact H| |]; rewrite E2; cbn [bind]; [left; reflexivity|].
    right. rewrite windowing_bands by exact H. eexists. split; [reflexivity|]. apply bandScaled_length, H.
  Qed.
  Lemma dering_total : totalMin minOf -> forall a, length a = 9%nat -> exists r, deringingSH minOf a = Ok r.
  Proof.
    intros M a H. unfold deringingSH, deringCutoff. change (range 0 3) with [0; 1; 2]%Z. cbn [forEach].
    destruct (search_total M 16 (channelOf a 0) (ofInt shBandCount) (ofInt (shBandCount * 4 + 1)) (ofInt (shBandCount * 4 + 1))) as [c0 E]; [rewrite channel_length; exact H|]; rewrite E; cbn [bind].
    destruct (search_total M 16 (channelOf a 1) (ofInt shBandCount) c0 c0) as [c1 E1]; [rewrite channel_length; exact H|]; rewrite E1; cbn [bind].
    destruct (search_total M 16 (channelOf a 2) (ofInt shBandCount) c1 c1) as [c2 E2]; [rewrite channel_length; exact H|]; rewrite E2; cbn [bind].
    rewrite windowing_bands by exact H. eauto.
  Qed.
End Defined.
Lemma shmin_sound : forall (F : Type) (S : Scalar F) (P : Pow F) fuel, soundMin (shminArray (F := F) fuel).
Proof.
  intros F S P fuel w H. destruct (nine _ _ H) as (a0 & a1 & a2 & a3 & a4 & a5 & a6 & a7 & a8 & ->).
  unfold shminArray, ofArray. cbn [bind].
  assert (N : forall f a b c d z, newton f a b c d z = OutOfFuel \/ exists r, newton f a b c d z = Ok r).
  { induction f as [|f IH]; intros; cbn [newton]; [left; reflexivity|]. destruct (_ && _); [apply IH|right; eauto]. }
  assert (Q : forall w, shmin fuel w = OutOfFuel \/ exists r, shmin fuel w = Ok r).
  { intros w. unfold shmin.
    destruct (slt _ f0); [|right; eauto].
    match goal with |- context [newton ?f ?a ?b ?c ?d ?z] => destruct (N f a b c d z) as [E|[[u v] E]]; rewrite E end; cbn [bind]; [left; reflexivity|right; eauto]. }
  destruct (Q (SH a0 a1 a2 a3 a4 a5 a6 a7 a8)) as [E|[[mn w'] E]]; rewrite E; cbn [bind]; [left; reflexivity|].
  right. eexists _, _. split; [reflexivity|]. reflexivity.
Qed.
Lemma dering_actual_real : forall minOf (a r : list (vec4 R)), length a = 9%nat -> deringingSH minOf a = Ok r ->
  exists w1 w2, 0 <= w1 <= 1 /\ 0 <= w2 <= 21 / 100 /\ r = bandScaled scalep4 1 w1 w2 a.
Proof.
  intros minOf a r H E. unfold deringingSH in E. destruct (deringCutoff minOf a) as [c| | |] eqn:C; cbn [bind] in E; try discriminate.
  pose proof (cutoff_real _ _ _ C) as Cc. rewrite windowing_bands in E by exact H. injection E as <-.
  exists (sincWindow 1 c), (sincWindow 2 c). split; [apply window_unit; [destruct Cc; lra|lia]|]. split; [apply window_band2, Cc|].
  rewrite window_zero. reflexivity.
Qed.
Lemma dering_actual_f32 : forall (T : Trig f32) minOf (a r : list (vec4 f32)), deringingSH minOf a = Ok r ->
  windowing scalep4 cutoffLow a = Ok r \/ windowing scalep4 cutoffHigh a = Ok r.
Proof.
  intros T minOf a r E. unfold deringingSH in E. destruct (deringCutoff minOf a) as [c| | |] eqn:C; cbn [bind] in E; try discriminate.
  destruct (cutoff_f32 _ _ _ _ C) as [-> | ->]; [left|right]; exact E.
Qed.
(** nothing negative was reported, and yet band 2 lost most of its strength *)
Definition sampleSH : list (vec4 R) := repeat (V4 1 1 1 1) 9.
Lemma dering_refuted : exists minOf (a r : list (vec4 R)), (forall w, exists w', minOf w = Ok (1, w')) /\
  length a = 9%nat /\ deringingSH minOf a = Ok r /\ r <> a.
Proof.
  set (minOf := fun w : list R => Ok (1, w)). exists minOf, sampleSH.
  destruct (dering_total minOf) with (a := sampleSH) as [r E]; [intros w Hw; exists 1, w; split; [reflexivity|exact Hw]|reflexivity|].
  exists r. split; [intros w; exists w; reflexivity|]. split; [reflexivity|]. split; [exact E|].
  destruct (dering_actual_real minOf sampleSH r eq_refl E) as (w1 & w2 & _ & W & ->). intros Q.
  apply (f_equal (fun l => vx (nth 4 l (V4 0 0 0 0)))) in Q. unfold sampleSH, bandScaled in Q. cbn in Q.
  lra.
Qed.
Lemma shader_scaled : forall (F : Type) (S : Scalar F) (a : list (vec4 F)), length a = 9%nat ->
  shaderPreprocessSH a = Ok (map (fun p => scalep4 (fst p) (snd p)) (combine a caShader)).
Proof.
  intros F S a H. destruct (nine _ _ H) as (a0 & a1 & a2 & a3 & a4 & a5 & a6 & a7 & a8 & ->).
  unfold shaderPreprocessSH. cbn -[slit scalep4]. reflexivity.
Qed.
