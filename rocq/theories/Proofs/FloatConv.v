(** Conversions and constants of the float vectors (C124). *)
From Coq Require Import ZArith Reals Bool List Lia Lra.
From Flocq Require Import Core.Core Relative IEEE754.BinarySingleNaN IEEE754.Binary IEEE754.Bits.
From Verif.Model Require Import Outcome Scalar Vec Simd IntVec SimdInt FloatVec.
From Verif.Spec Require Import OrderSpec IntSpec FloatSpec.
From Verif.Proofs Require Import OrdScalar F32Round F32Err IntProofs IntArith MipProofs IntConv NumericProofs FloatVecProofs.
Import ListNotations.
Local Open Scope Z_scope.
Local Open Scope outcome_scope.

Lemma denotes_fin : forall x : f32, fin x -> denotes x = Real (val x).
Proof. intros [s|s|s pl H|s m e H] F; try discriminate F; reflexivity. Qed.

Lemma trunc_unique : forall v z, truncates v z <-> z = Ztrunc v.
Proof.
  intros v z. unfold truncates. split.
  - intros [(Hv & Hz & L & U) | (Hv & Hz & L & U)].
    + rewrite Ztrunc_floor by exact Hv. symmetry. apply Zfloor_imp. rewrite plus_IZR. lra.
    + rewrite Ztrunc_ceil by exact Hv. symmetry. apply Zceil_imp. rewrite minus_IZR. lra.
  - intros ->. destruct (Rle_or_lt 0 v) as [Hv|Hv].
    + left. rewrite Ztrunc_floor by exact Hv. split; [exact Hv|]. split; [apply Zfloor_lub; exact Hv|].
      split; [apply Zfloor_lb | apply Zfloor_ub].
    + right. rewrite Ztrunc_ceil by lra. split; [lra|]. split; [apply Zceil_glb; lra|].
      split; [|apply Zceil_ub]. pose proof (Zceil_lb v). lra.
Qed.
Lemma strunc_inv : forall (x : f32) z, strunc x = Some z <-> exists v, denotes x = Real v /\ truncates v z.
Proof.
  intros x z. split.
  - intros H. assert (F : fin x).
    { cbn [strunc ScalarF32] in H. destruct (is_finite 24 128 x); [reflexivity | discriminate]. }
    exists (val x). split; [apply denotes_fin, F|]. rewrite strunc_val in H by exact F.
    apply trunc_unique. congruence.
  - intros (v & D & T). destruct (denotes_real x v D) as (F & <-).
    rewrite strunc_val by exact F. apply trunc_unique in T. congruence.
Qed.
Lemma strunc_none : forall (x : f32), strunc x = None -> forall r, denotes x <> Real r.
Proof.
  intros x H r D. destruct (denotes_real x r D) as (F & _). rewrite strunc_val in H by exact F. discriminate.
Qed.

Lemma toI32F_iff : forall x z, toI32F x = Ok z <-> convertsTo i32 x z.
Proof.
  intros x z. unfold toI32F, convertsTo. split.
  - destruct (strunc x) as [y|] eqn:E; [|discriminate]. destruct (inI32 y) eqn:R; [|discriminate].
    intros H. injection H as <-. apply strunc_inv in E. destruct E as (v & D & T).
    exists v. rewrite inI32_iff in R. auto.
  - intros (v & D & R & T). rewrite (proj2 (strunc_inv x z)) by eauto.
    rewrite (proj2 (inI32_iff z) R). reflexivity.
Qed.
Lemma toU32F_iff : forall x z, toU32F x = Ok z <-> convertsTo u32 x z.
Proof.
  intros x z. unfold toU32F, convertsTo, u32. split.
  - destruct (strunc x) as [y|] eqn:E; [|discriminate].
    destruct (Z.leb_spec 0 y); [|discriminate]. destruct (Z.ltb_spec y (2 ^ 32)); [|discriminate].
    intros H'. injection H' as <-. apply strunc_inv in E. destruct E as (v & D & T).
    exists v. auto.
  - intros (v & D & R & T). rewrite (proj2 (strunc_inv x z)) by eauto.
    destruct (Z.leb_spec 0 z); [|lia]. destruct (Z.ltb_spec z (2 ^ 32)); [|lia]. reflexivity.
Qed.
Lemma toI32F_cases : forall x, (exists z, toI32F x = Ok z) \/ toI32F x = UB.
Proof. intros x. unfold toI32F. destruct (strunc x) as [z|]; [destruct (inI32 z)|]; eauto. Qed.
Lemma toU32F_cases : forall x, (exists z, toU32F x = Ok z) \/ toU32F x = UB.
Proof. intros x. unfold toU32F. destruct (strunc x) as [z|]; [destruct ((0 <=? z) && (z <? 2 ^ 32))|]; eauto. Qed.

Section Lift.
  Context (f : f32 -> outcome Z) (P : Z -> Prop) (f_iff : forall x z, f x = Ok z <-> convertsTo P x z)
          (f_cases : forall x, (exists z, f x = Ok z) \/ f x = UB).

  Ltac step := match goal with |- context [bind (f ?x) _] =>
      let z := fresh "z" in let E := fresh "E" in
      destruct (f_cases x) as [(z & E) | E]; rewrite ?E; cbn [bind] end.
  Ltac fin_ok := split; [|intros H; try reflexivity; exfalso; eapply H; reflexivity];
    intros r; split;
    [intros H; first [discriminate H | injection H as <-; cbn; repeat constructor; apply f_iff; assumption]
    |intros H; repeat match goal with H : Forall2 _ (_ :: _) _ |- _ => inversion_clear H end;
     repeat match goal with H : convertsTo _ _ _ |- _ => apply f_iff in H end].

  Lemma lift2 : forall a b, convertsAll P [a; b] lanes2 (x <- f a;; y <- f b;; Ok (V2 x y)).
  Proof.
    intros a b. unfold convertsAll. repeat step; fin_ok; try congruence.
    destruct r as [p q]; cbn [lanes2 x2 y2] in *. f_equal. congruence.
  Qed.
  Lemma lift3 : forall a b c, convertsAll P [a; b; c] lanes3 (x <- f a;; y <- f b;; z <- f c;; Ok (V3 x y z)).
  Proof.
    intros a b c. unfold convertsAll. repeat step; fin_ok; try congruence.
    destruct r as [p q s]; cbn [lanes3 x3 y3 z3] in *. f_equal. congruence.
  Qed.
  Lemma lift4 : forall a b c d,
    convertsAll P [a; b; c; d] lanes4 (x <- f a;; y <- f b;; z <- f c;; w <- f d;; Ok (V4 x y z w)).
  Proof.
    intros a b c d. unfold convertsAll. repeat step; fin_ok; try congruence.
    destruct r as [p q s t]; cbn [lanes4 vx vy vz vw] in *. f_equal. congruence.
  Qed.
End Lift.

Lemma to_signed :
  (forall v, convertsAll i32 (lanes2 v) lanes2 (int2OfF v)) /\
  (forall v, convertsAll i32 (lanes3 v) lanes3 (int3OfF v)) /\
  (forall v, convertsAll i32 (lanes4 v) lanes4 (int4OfF v)) /\
  (forall v, convertsAll i32 [x3 v; y3 v] lanes2 (int2OfF3 v)) /\
  (forall v, convertsAll i32 [vx v; vy v] lanes2 (int2OfF4 v)) /\
  (forall v, convertsAll i32 [vx v; vy v; vz v] lanes3 (int3OfF4 v)).
Proof.
  split; [intros v; apply (lift2 toI32F i32 toI32F_iff toI32F_cases)|].
  split; [intros v; apply (lift3 toI32F i32 toI32F_iff toI32F_cases)|].
  split; [intros v; apply (lift4 toI32F i32 toI32F_iff toI32F_cases)|].
  split; [intros v; apply (lift2 toI32F i32 toI32F_iff toI32F_cases)|].
  split; [intros v; apply (lift2 toI32F i32 toI32F_iff toI32F_cases)|].
  intros v; apply (lift3 toI32F i32 toI32F_iff toI32F_cases).
Qed.
Lemma to_unsigned :
  (forall v, convertsAll u32 (lanes2 v) lanes2 (uint2OfF v)) /\
  (forall v, convertsAll u32 (lanes3 v) lanes3 (uint3OfF v)) /\
  (forall v, convertsAll u32 (lanes4 v) lanes4 (uint4OfF v)) /\
  (forall v, convertsAll u32 [x3 v; y3 v] lanes2 (uint2OfF3 v)) /\
  (forall v, convertsAll u32 [vx v; vy v] lanes2 (uint2OfF4 v)) /\
  (forall v, convertsAll u32 [vx v; vy v; vz v] lanes3 (uint3OfF4 v)).
Proof.
  split; [intros v; apply (lift2 toU32F u32 toU32F_iff toU32F_cases)|].
  split; [intros v; apply (lift3 toU32F u32 toU32F_iff toU32F_cases)|].
  split; [intros v; apply (lift4 toU32F u32 toU32F_iff toU32F_cases)|].
  split; [intros v; apply (lift2 toU32F u32 toU32F_iff toU32F_cases)|].
  split; [intros v; apply (lift2 toU32F u32 toU32F_iff toU32F_cases)|].
  intros v; apply (lift3 toU32F u32 toU32F_iff toU32F_cases).
Qed.

(** integers to float *)
Lemma rnd32_rnd : forall x, rnd32 x = rnd x.
Proof. reflexivity. Qed.
Lemma ofInt_closest : forall n, Z.abs n <= 2 ^ 32 -> closest (IZR n) (ofIntF n).
Proof.
  intros n Hn. destruct (lit_nearest n Hn) as (F & V). rewrite rnd32_rnd in V. unfold ofIntF.
  exists (val (b32_lit n 0)). split; [apply denotes_fin, F|].
  intros y w D. destruct (denotes_real y w D) as (_ & <-). rewrite V. apply rnd_closest, generic_format_B2R.
Qed.
Lemma from_int :
  (forall v, Forall (fun n => Z.abs n <= 2 ^ 32) (lanes2 v) -> Forall2 (fun n r => closest (IZR n) r) (lanes2 v) (lanes2 (float2OfInt v))) /\
  (forall v, Forall (fun n => Z.abs n <= 2 ^ 32) (lanes3 v) -> Forall2 (fun n r => closest (IZR n) r) (lanes3 v) (lanes3 (float3OfInt v))) /\
  (forall v, Forall (fun n => Z.abs n <= 2 ^ 32) (lanes4 v) -> Forall2 (fun n r => closest (IZR n) r) (lanes4 v) (lanes4 (float4OfInt v))).
Proof.
  split; [|split]; intros v H; unfold lanes2, lanes3, lanes4 in *;
    repeat match goal with H : Forall _ (_ :: _) |- _ => inversion_clear H end;
    repeat first [apply Forall2_cons; [apply ofInt_closest; assumption|] | apply Forall2_nil].
Qed.

(** there and back *)
Lemma ofInt_exact : forall n, Z.abs n <= 2 ^ 24 -> fin (ofIntF n) /\ val (ofIntF n) = IZR n.
Proof.
  intros n Hn. destruct (lit_nearest n) as (F & V); [lia|]. unfold ofIntF. split; [exact F|]. rewrite V.
  assert (Fm : fmt (IZR n)).
  { destruct (Z.eq_dec (Z.abs n) (2 ^ 24)) as [E|E].
    - destruct (Z.abs_spec n) as [[_ A]|[_ A]].
      + replace n with (1 * 2 ^ 24) by lia. apply fmt_shift; lia.
      + replace n with (-1 * 2 ^ 24) by lia. apply fmt_shift; lia.
    - apply fmt_int. lia. }
  apply rnd_id, Fm.
Qed.
Lemma back_exact : forall n, Z.abs n <= 2 ^ 24 -> toI32F (ofIntF n) = Ok n.
Proof.
  intros n Hn. destruct (ofInt_exact n Hn) as (F & V). apply toI32F_iff. exists (val (ofIntF n)).
  split; [apply denotes_fin, F|]. split; [unfold i32; lia|]. rewrite V. apply trunc_unique. rewrite Ztrunc_IZR. reflexivity.
Qed.
Lemma back_exact_u : forall n, 0 <= n <= 2 ^ 24 -> toU32F (ofIntF n) = Ok n.
Proof.
  intros n Hn. destruct (ofInt_exact n) as (F & V); [lia|]. apply toU32F_iff. exists (val (ofIntF n)).
  split; [apply denotes_fin, F|]. split; [unfold u32; lia|]. rewrite V. apply trunc_unique. rewrite Ztrunc_IZR. reflexivity.
Qed.
Lemma trunc_ofInt : forall n, Z.abs n <= 2 ^ 32 -> strunc (ofIntF n) = Some (Ztrunc (rnd (IZR n))).
Proof.
  intros n Hn. destruct (lit_nearest n Hn) as (F & V). unfold ofIntF. rewrite strunc_val by exact F.
  rewrite V. reflexivity.
Qed.
Lemma trunc_mono : forall a b, a <= b -> Ztrunc (rnd (IZR a)) <= Ztrunc (rnd (IZR b)).
Proof. intros a b H. apply Ztrunc_le, F32Round.rnd_le, IZR_le, H. Qed.
Lemma trunc_at : forall n z, Z.abs n <= 2 ^ 32 -> strunc (ofIntF n) = Some z -> Ztrunc (rnd (IZR n)) = z.
Proof. intros n z Hn H. rewrite trunc_ofInt in H by exact Hn. congruence. Qed.
Lemma back_signed : forall n, i32 n -> (toI32F (ofIntF n) = UB <-> 2 ^ 31 - 64 <= n) /\
  (n < 2 ^ 31 - 64 -> exists z, toI32F (ofIntF n) = Ok z).
Proof.
  intros n Hn. unfold i32 in Hn.
  assert (E1 : Ztrunc (rnd (IZR (2 ^ 31 - 65))) = 2 ^ 31 - 128) by (apply trunc_at; [lia | vm_compute; reflexivity]).
  assert (E2 : Ztrunc (rnd (IZR (2 ^ 31 - 64))) = 2 ^ 31) by (apply trunc_at; [lia | vm_compute; reflexivity]).
  assert (E3 : Ztrunc (rnd (IZR (- 2 ^ 31))) = - 2 ^ 31) by (apply trunc_at; [lia | vm_compute; reflexivity]).
  unfold toI32F. rewrite trunc_ofInt by lia.
  set (t := Ztrunc (rnd (IZR n))).
  assert (L : - 2 ^ 31 <= t) by (rewrite <- E3; apply trunc_mono; lia).
  destruct (Z_lt_le_dec n (2 ^ 31 - 64)) as [C|C].
  - assert (U : t <= 2 ^ 31 - 128) by (rewrite <- E1; apply trunc_mono; lia).
    rewrite (proj2 (inI32_iff t)) by (unfold i32; lia).
    split; [split; [discriminate | lia] | eauto].
  - assert (U : 2 ^ 31 <= t) by (rewrite <- E2; apply trunc_mono; lia).
    destruct (inI32 t) eqn:B; [apply inI32_iff in B; unfold i32 in B; lia|].
    split; [split; auto | lia].
Qed.
Lemma back_unsigned : forall n, u32 n -> (toU32F (ofIntF n) = UB <-> 2 ^ 32 - 128 <= n) /\
  (n < 2 ^ 32 - 128 -> exists z, toU32F (ofIntF n) = Ok z).
Proof.
  intros n Hn. unfold u32 in Hn.
  assert (E1 : Ztrunc (rnd (IZR (2 ^ 32 - 129))) = 2 ^ 32 - 256) by (apply trunc_at; [lia | vm_compute; reflexivity]).
  assert (E2 : Ztrunc (rnd (IZR (2 ^ 32 - 128))) = 2 ^ 32) by (apply trunc_at; [lia | vm_compute; reflexivity]).
  assert (E3 : Ztrunc (rnd (IZR 0)) = 0) by (apply trunc_at; [lia | vm_compute; reflexivity]).
  unfold toU32F. rewrite trunc_ofInt by lia.
  set (t := Ztrunc (rnd (IZR n))).
  assert (L : 0 <= t) by (rewrite <- E3; apply trunc_mono; lia).
  destruct (Z.leb_spec 0 t); [|lia]. cbn [andb].
  destruct (Z_lt_le_dec n (2 ^ 32 - 128)) as [C|C].
  - assert (U : t <= 2 ^ 32 - 256) by (rewrite <- E1; apply trunc_mono; lia).
    destruct (Z.ltb_spec t (2 ^ 32)); [|lia].
    split; [split; [discriminate | lia] | eauto].
  - assert (U : 2 ^ 32 <= t) by (rewrite <- E2; apply trunc_mono; lia).
    destruct (Z.ltb_spec t (2 ^ 32)); [lia|].
    split; [split; auto | lia].
Qed.
Lemma back_all :
  (forall v, Forall (fun n => Z.abs n <= 2 ^ 24) (lanes2 v) -> int2OfF (float2OfInt v) = Ok v) /\
  (forall v, Forall (fun n => Z.abs n <= 2 ^ 24) (lanes3 v) -> int3OfF (float3OfInt v) = Ok v) /\
  (forall v, Forall (fun n => Z.abs n <= 2 ^ 24) (lanes4 v) -> int4OfF (float4OfInt v) = Ok v) /\
  (forall v, Forall (fun n => 0 <= n <= 2 ^ 24) (lanes2 v) -> uint2OfF (float2OfInt v) = Ok v) /\
  (forall v, Forall (fun n => 0 <= n <= 2 ^ 24) (lanes3 v) -> uint3OfF (float3OfInt v) = Ok v) /\
  (forall v, Forall (fun n => 0 <= n <= 2 ^ 24) (lanes4 v) -> uint4OfF (float4OfInt v) = Ok v).
Proof.
  repeat split; intros v H; destruct v as [a b c d]; unfold lanes2, lanes3, lanes4 in H;
    repeat match goal with H : Forall _ (_ :: _) |- _ => inversion_clear H end;
    cbn [x2 y2 x3 y3 z3 vx vy vz vw] in *;
    unfold int2OfF, int3OfF, int4OfF, uint2OfF, uint3OfF, uint4OfF, float2OfInt, float3OfInt, float4OfInt,
      seqO2, seqO3, seqO4, map_2, map_3, map_4; cbn [x2 y2 x3 y3 z3 vx vy vz vw];
    rewrite ?back_exact, ?back_exact_u by assumption; reflexivity.
Qed.

(** constants *)
#[local] Instance prec24 : Prec_gt_0 24 := eq_refl.
#[local] Instance fexp_ok2 : Valid_exp (SpecFloat.fexp 24 128) := fexp_correct 24 128 eq_refl.
Lemma lit_denotes : forall m e r, Z.abs m < 2 ^ 24 -> -149 <= e <= 104 -> r = (IZR m * bpow radix2 e)%R ->
  denotes (slit m e : f32) = Real r /\ denotes (sneg (slit m e : f32)) = Real (- r).
Proof.
  intros m e r Hm He ->. destruct (lit_exact m e Hm He) as (F & V).
  destruct (neg_fin (slit m e : f32) F) as (F' & V').
  split; rewrite denotes_fin by assumption; f_equal; [exact V|]. rewrite V', V. reflexivity.
Qed.
Lemma const_value : forall k, denotes (constLane k) = constValue k.
Proof.
  intros k.
  assert (Z0 := lit_denotes 0 0 0%R ltac:(reflexivity) ltac:(lia) ltac:(cbn; lra)).
  assert (Z1 := lit_denotes 1 0 1%R ltac:(reflexivity) ltac:(lia) ltac:(cbn; lra)).
  assert (Zm := lit_denotes 1 (-126) (/ IZR (2 ^ 126))%R ltac:(reflexivity) ltac:(lia)
    ltac:(change (bpow radix2 (-126)) with (/ IZR (2 ^ 126))%R; lra)).
  assert (ZM := lit_denotes 16777215 104 maxFinite ltac:(reflexivity) ltac:(lia) ltac:(exact maxFinite_val)).
  assert (Ze := lit_denotes 1 (-23) (/ IZR (2 ^ 23))%R ltac:(reflexivity) ltac:(lia)
    ltac:(change (bpow radix2 (-23)) with (/ IZR (2 ^ 23))%R; lra)).
  destruct k; cbn [constLane constValue]; try (apply Z0 || apply Z1 || apply Zm || apply ZM || apply Ze); reflexivity.
Qed.
Lemma max_greatest : forall (x : f32) v, denotes x = Real v -> (- maxFinite <= v <= maxFinite)%R.
Proof.
  intros x v D. destruct (denotes_real x v D) as (F & <-).
  apply Rabs_le_inv. pose proof (abs_B2R_le_emax_minus_prec 24 128 eq_refl x) as H.
  eapply Rle_trans; [exact H|]. unfold maxFinite. rewrite minus_IZR. apply Rle_refl.
Qed.
Lemma epsilon_gap : forall (x : f32) v, denotes x = Real v -> (1 < v)%R -> (1 + / IZR (2 ^ 23) <= v)%R.
Proof.
  intros x v D H1. destruct (denotes_real x v D) as (F & <-).
  assert (F1 : generic_format radix2 (FLT_exp (-149) 24) 1) by (apply (fmt_int 1); lia).
  assert (F2 : generic_format radix2 (FLT_exp (-149) 24) (val x)) by apply generic_format_B2R.
  pose proof (succ_le_lt radix2 (FLT_exp (-149) 24) 1 (val x) F1 F2 H1) as S.
  rewrite succ_eq_pos in S by lra. change 1%R with (bpow radix2 0) in S at 2.
  rewrite ulp_bpow in S. exact S.
Qed.
Lemma format_number : forall r, generic_format radix2 (SpecFloat.fexp 24 128) r -> (Rabs r < maxF)%R ->
  exists y : f32, denotes y = Real r.
Proof.
  intros r Fr B. set (m := Ztrunc (scaled_mantissa radix2 (SpecFloat.fexp 24 128) r)).
  set (e := cexp radix2 (SpecFloat.fexp 24 128) r).
  assert (E : r = F2R (Float radix2 m e)) by exact Fr.
  pose proof (binary_normalize_correct 24 128 eq_refl eq_refl mode_NE m e false) as H. cbv zeta in H.
  rewrite <- E in H. rewrite (round_generic _ _ _ r Fr) in H. rewrite Rlt_bool_true in H by exact B.
  destruct H as (V & F & _). exists (b32_lit m e). rewrite denotes_fin by exact F. f_equal. exact V.
Qed.
(** min: from here on a finite number keeps 24 significant bits *)
Lemma min_normal : forall r, (/ IZR (2 ^ 126) <= Rabs r <= maxFinite)%R -> forall x : f32,
  closest r x -> exists v, denotes x = Real v /\ (Rabs (v - r) <= Rabs r / IZR (2 ^ 24))%R.
Proof.
  intros r Hr x (v & D & C). exists v. split; [exact D|].
  destruct (format_number (rnd r)) as (y & E).
  { apply generic_format_round; auto with typeclass_instances. }
  { apply in_range. lra. }
  eapply Rle_trans; [apply (C y _ E)|].
  pose proof (relative_error_N_FLT radix2 (-149) 24 ltac:(lia) (fun x => negb (Z.even x)) r) as H.
  change (bpow radix2 (-149 + 24 - 1)) with (/ IZR (2 ^ 126))%R in H.
  change (round radix2 (FLT_exp (-149) 24) (Znearest (fun x => negb (Z.even x))) r) with (rnd r) in H.
  eapply Rle_trans; [apply H; lra|]. change (bpow radix2 (- (24) + 1)) with (/ IZR (2 ^ 23))%R.
  replace (IZR (2 ^ 24)) with (2 * IZR (2 ^ 23))%R by (rewrite <- mult_IZR; reflexivity).
  apply Req_le. field. apply not_0_IZR. discriminate.
Qed.
Lemma directions :
  let o := Real 0 in let i := Real 1 in let m := Real (-1) in
  let is l := map denotes l in
  is (lanes2 left2) = [m; o] /\ is (lanes2 right2) = [i; o] /\ is (lanes2 bottom2) = [o; m] /\ is (lanes2 top2) = [o; i] /\
  is (lanes3 left3) = [m; o; o] /\ is (lanes3 right3) = [i; o; o] /\ is (lanes3 bottom3) = [o; m; o] /\
  is (lanes3 top3) = [o; i; o] /\ is (lanes3 back3) = [o; o; m] /\ is (lanes3 front3) = [o; o; i] /\
  is (lanes4 leftS) = [m; o; o; o] /\ is (lanes4 rightS) = [i; o; o; o] /\ is (lanes4 bottomS) = [o; m; o; o] /\
  is (lanes4 topS) = [o; i; o; o] /\ is (lanes4 backS) = [o; o; m; o] /\ is (lanes4 frontS) = [o; o; i; o].
Proof.
  assert (Z0 := const_value KZero). assert (Z1 := const_value KOne). assert (Zm := const_value KMinusOne).
  cbn [constLane constValue] in Z0, Z1, Zm. fold (@fm1 f32 ScalarF32) in Zm.
  cbv zeta.
  unfold lanes2, lanes3, lanes4, left2, right2, bottom2, top2, left3, right3, bottom3, top3, back3, front3,
    leftS, rightS, bottomS, topS, backS, frontS. cbn [x2 y2 x3 y3 z3 vx vy vz vw map].
  rewrite Z0, Z1, Zm. repeat split; reflexivity.
Qed.
Lemma const_lanes : forall k,
  Forall (fun x => denotes x = constValue k) (lanes2 (const2 k)) /\
  Forall (fun x => denotes x = constValue k) (lanes3 (const3 k)) /\
  Forall (fun x => denotes x = constValue k) (lanes4 (const4 k)).
Proof.
  intros k. pose proof (const_value k).
  split; [|split]; repeat first [apply Forall_cons; [assumption|] | apply Forall_nil].
Qed.
(** The first integer whose conversion loses something, and the largest int32. *)
Lemma back_inexact : toI32F (ofIntF (2 ^ 24 + 1)) = Ok (2 ^ 24) /\ toI32F (ofIntF (2 ^ 31 - 1)) = UB.
Proof. vm_compute. auto. Qed.
