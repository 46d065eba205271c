(** Conversions between integer and float lanes. *)
From Coq Require Import ZArith Reals Bool List Lia Lra.
From Flocq Require Import Core.Core IEEE754.BinarySingleNaN IEEE754.Binary IEEE754.Bits.
From Verif.Model Require Import Outcome Scalar Vec Simd Aabb IntVec SimdInt.
From Verif.Spec Require Import OrderSpec IntSpec.
From Verif.Proofs Require Import IntProofs IntArith MipProofs.
Local Open Scope Z_scope.

Lemma lit_nearest : forall m, Z.abs m <= 2 ^ 32 ->
  is_finite 24 128 (b32_lit m 0) = true /\ B2R 24 128 (b32_lit m 0) = rnd32 (IZR m).
Proof.
  intros m Hm.
  pose proof (binary_normalize_correct 24 128 eq_refl eq_refl mode_NE m 0 false) as H. cbv zeta in H.
  replace (F2R (Float radix2 m 0)) with (IZR m) in H by (unfold F2R; cbn [Fnum Fexp bpow]; ring).
  change (round radix2 (SpecFloat.fexp 24 128) (round_mode mode_NE) (IZR m)) with (rnd32 (IZR m)) in H.
  rewrite Rlt_bool_true in H; [destruct H as (A & B & _); split; assumption|].
  apply Rle_lt_trans with (IZR (2 ^ 32)).
  - assert (F1 : fmt (IZR (2 ^ 32))) by (replace (2 ^ 32) with (1 * 2 ^ 32) by ring; apply fmt_shift; lia).
    assert (F2 : fmt (IZR (- 2 ^ 32))) by (replace (- 2 ^ 32) with (-1 * 2 ^ 32) by ring; apply fmt_shift; lia).
    apply Rabs_le. split.
    + rewrite <- opp_IZR, <- (rnd_id _ F2). apply rnd_le, IZR_le. lia.
    + rewrite <- (rnd_id _ F1). apply rnd_le, IZR_le. lia.
  - change (IZR (2 ^ 32)) with (bpow radix2 32). apply bpow_lt. lia.
Qed.

Lemma f32ofU32_right : forall p u, u32 u -> p = NEON \/ (p <> GEN /\ u < 2 ^ 31) ->
  is_finite 24 128 (f32ofU32 p u) = true /\ B2R 24 128 (f32ofU32 p u) = rnd32 (IZR u).
Proof.
  intros p u Hu Hp. unfold u32 in Hu.
  assert (E : f32ofU32 p u = b32_lit u 0).
  { destruct p; cbn [f32ofU32]; try reflexivity;
      try (rewrite toI32_u32 by exact Hu; destruct (Z.ltb_spec u (2 ^ 31)); [reflexivity|];
           destruct Hp as [Hp|[_ Hp]]; [discriminate | lia]).
    destruct Hp as [Hp|[Hp _]]; [discriminate | congruence]. }
  rewrite E. apply lit_nearest. lia.
Qed.
Lemma f32ofU32_sse : forall p u, u32 u -> 2 ^ 31 <= u -> p = SSE2 \/ p = SSE41 \/ p = AVX2 ->
  B2R 24 128 (f32ofU32 p u) = rnd32 (IZR (u - 2 ^ 32)).
Proof.
  intros p u Hu Hb Hp. unfold u32 in Hu.
  assert (E : f32ofU32 p u = b32_lit (u - 2 ^ 32) 0).
  { destruct Hp as [-> | [-> | ->]]; cbn [f32ofU32]; rewrite toI32_u32 by exact Hu;
      destruct (Z.ltb_spec u (2 ^ 31)); try lia; reflexivity. }
  rewrite E. apply lit_nearest. lia.
Qed.
Lemma f32ofI32_right : forall p i, i32 i -> p <> GEN ->
  is_finite 24 128 (f32ofI32 p i) = true /\ B2R 24 128 (f32ofI32 p i) = rnd32 (IZR i).
Proof.
  intros p i Hi Hp. unfold i32 in Hi.
  replace (f32ofI32 p i) with (b32_lit i 0) by (destruct p; try reflexivity; congruence).
  apply lit_nearest. lia.
Qed.
Lemma rnd32_ge : forall n x, fmt (IZR n) -> (IZR n <= x)%R -> (IZR n <= rnd32 x)%R.
Proof. intros n x F H. rewrite <- (rnd_id _ F). apply rnd_le, H. Qed.
(** every unsigned number from 2^31 on is wrong on SSE: the result is negative or zero *)
Lemma f32ofU32_refuted : forall p u, u32 u -> 2 ^ 31 <= u -> p = SSE2 \/ p = SSE41 \/ p = AVX2 ->
  B2R 24 128 (f32ofU32 p u) <> rnd32 (IZR u).
Proof.
  intros p u Hu Hb Hp. rewrite f32ofU32_sse by assumption. unfold u32 in Hu.
  assert (rnd32 (IZR (u - 2 ^ 32)) <= 0)%R.
  { rewrite <- (rnd_id 0) by (apply (fmt_int 0); lia). apply rnd_le, (IZR_le _ 0). lia. }
  assert (1 <= rnd32 (IZR u))%R.
  { apply (rnd32_ge 1); [apply fmt_int; lia|]. apply IZR_le. lia. }
  lra.
Qed.

(** float lanes to uint32: truncation towards zero *)
Lemma strunc_val : forall x : f32, is_finite 24 128 x = true -> strunc x = Some (Ztrunc (B2R 24 128 x)).
Proof.
  intros x Hx. cbn [strunc ScalarF32]. rewrite Hx. f_equal.
  pose proof (Btrunc_correct 24 128 eq_refl x) as E. apply eq_IZR. rewrite E.
  unfold round, F2R, scaled_mantissa, cexp, FIX_exp. cbn [Fnum Fexp]. change (Z.opp 0) with 0.
  change (bpow radix2 0) with 1%R. rewrite !Rmult_1_r. reflexivity.
Qed.
Lemma u32ofF32_right : forall p (x : f32), is_finite 24 128 x = true ->
  (0 <= B2R 24 128 x)%R -> (B2R 24 128 x < IZR (if match p with NEON | GEN => true | _ => false end then 2 ^ 32 else 2 ^ 31))%R ->
  exists z, u32ofF32 p x = Ok z /\ (IZR z <= B2R 24 128 x < IZR (z + 1))%R.
Proof.
  intros p x Hx H0 H1.
  set (v := B2R 24 128 x) in *. set (z := Zfloor v).
  assert (T : strunc x = Some z).
  { rewrite strunc_val by exact Hx. fold v. unfold z. f_equal. apply Ztrunc_floor. exact H0. }
  pose proof (Zfloor_lb v) as L. pose proof (Zfloor_ub v) as U. fold z in L, U.
  assert (N : 0 <= z) by (apply Zfloor_lub; exact H0).
  exists z. rewrite plus_IZR. split; [|split; assumption].
  assert (B : z < if match p with NEON | GEN => true | _ => false end then 2 ^ 32 else 2 ^ 31).
  { apply lt_IZR. apply Rle_lt_trans with v; assumption. }
  unfold u32ofF32. rewrite T.
  destruct p; cbv iota in B; f_equal.
  1-3: rewrite (proj2 (inI32_iff z)) by (unfold i32; lia); apply toU32_id; unfold u32; lia.
  - rewrite Z.min_l, Z.max_r by lia. reflexivity.
  - destruct (Z.leb_spec 0 z); [|lia]. destruct (Z.ltb_spec z (2 ^ 32)); [reflexivity | lia].
Qed.
Lemma u32ofF32_sse : forall p (x : f32), is_finite 24 128 x = true -> (IZR (2 ^ 31) <= B2R 24 128 x)%R ->
  p = SSE2 \/ p = SSE41 \/ p = AVX2 -> u32ofF32 p x = Ok (2 ^ 31).
Proof.
  intros p x Hx H Hp.
  assert (T : strunc x = Some (Zfloor (B2R 24 128 x))).
  { rewrite strunc_val by exact Hx. f_equal. apply Ztrunc_floor. apply Rle_trans with (IZR (2 ^ 31)); [|exact H].
    apply (IZR_le 0). lia. }
  assert (N : 2 ^ 31 <= Zfloor (B2R 24 128 x)) by (apply Zfloor_lub; exact H).
  destruct Hp as [-> | [-> | ->]]; unfold u32ofF32; rewrite T;
    (destruct (inI32 _) eqn:E; [apply inI32_iff in E; unfold i32 in E; lia | reflexivity]).
Qed.
