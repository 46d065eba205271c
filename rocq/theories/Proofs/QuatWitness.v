(** Concrete quaternions, vectors and axes for QuatErrProps.v. *)
From Coq Require Import ZArith Bool List Reals Lra Lia.
From Flocq Require Import Core.Core.
From Verif.Model Require Import Scalar Vec Simd Lanes Quaternion.
From Verif.Spec Require Import QuatErrSpec.
From Verif.Proofs Require Import OrdScalar F32Round F32Err QuatErr QuatRot.
Import ListNotations.
Local Open Scope R_scope.

Definition s6 : f32 := slit 5033165 (-23).
Definition s8 : f32 := slit 13421773 (-24).
Definition exQ : vec4 f32 := V4 f0 s6 f0 s8.
Definition exA : vec4 f32 := V4 f0 s6 s8 f0.
Definition exV : vec4 f32 := V4 f1 f2 (slit (-3) 0) f0.
Lemma s6_ok : fin s6 /\ val s6 = 5033165 / 8388608.
Proof. destruct (lit_exact 5033165 (-23) ltac:(lia) ltac:(lia)) as [A B]. split; [exact A|]. unfold s6. rewrite B. cbn. lra. Qed.
Lemma s8_ok : fin s8 /\ val s8 = 13421773 / 16777216.
Proof. destruct (lit_exact 13421773 (-24) ltac:(lia) ltac:(lia)) as [A B]. split; [exact A|]. unfold s8. rewrite B. cbn. lra. Qed.
Lemma z_ok : forall z, (Z.abs z < 2 ^ 24)%Z -> fin (slit z 0 : f32) /\ val (slit z 0 : f32) = IZR z.
Proof. intros z H. apply lit_Z. exact H. Qed.
Lemma exQ_near : nearU (/ 10000000) exQ (V4 0 (3 / 5) 0 (4 / 5)).
Proof.
  destruct s6_ok as [A B]. destruct s8_ok as [C D]. destruct (z_ok 0 ltac:(lia)) as [E F].
  split; [unfold allFin, l4, exQ, f0; cbn [vx vy vz vw]; repeat (apply Forall_cons; [assumption|]); apply Forall_nil|].
  split; [unfold unitQ, norm2; cbn [vx vy vz vw]; lra|].
  eapply Rle_trans; [apply lanes_dist with (e := / 20000000)|lra]; [lra|..]; cbn [valQ exQ vx vy vz vw]; unfold f0; rewrite ?B, ?D, ?F; apply Rabs_le; lra.
Qed.
Lemma exA_ok : allFin (l43 exA) /\ dotS (V4 0 (3 / 5) (4 / 5) 0) (V4 0 (3 / 5) (4 / 5) 0) = 1 /\ dist3 (valQ exA) (V4 0 (3 / 5) (4 / 5) 0) <= / 10000000.
Proof.
  destruct s6_ok as [A B]. destruct s8_ok as [C D]. destruct (z_ok 0 ltac:(lia)) as [E F].
  split; [unfold allFin, l43, exA, f0; cbn [vx vy vz vw]; repeat (apply Forall_cons; [assumption|]); apply Forall_nil|].
  split; [unfold dotS; cbn [vx vy vz vw]; lra|].
  eapply Rle_trans; [apply lanes3 with (e := / 20000000)|lra]; [lra|..]; cbn [valQ exA vx vy vz vw]; unfold f0; rewrite ?B, ?D, ?F; apply Rabs_le; lra.
Qed.
Lemma exV_ok : allFin (l43 exV) /\ len3 (valQ exV) <= bpow radix2 49 /\ len3 (valQ exV) >= 3.
Proof.
  destruct (z_ok 1 ltac:(lia)) as [A B]. destruct (z_ok 2 ltac:(lia)) as [C D]. destruct (z_ok (-3) ltac:(lia)) as [E F].
  split; [unfold allFin, l43, exV, f1, f2; cbn [vx vy vz vw]; repeat (apply Forall_cons; [assumption|]); apply Forall_nil|].
  pose proof (len3_sq (valQ exV)) as S. pose proof (len3_nn (valQ exV)) as N. unfold dotS in S. cbn [valQ exV vx vy vz vw] in S. unfold f1, f2 in S. rewrite B, D, F in S.
  fold exV in *. split; [apply Rle_trans with 4; [nra|apply (bpow_le radix2 2 49); lia]|]. nra.
Qed.
Lemma exQ_moderate : moderate (l4 exQ).
Proof.
  destruct s6_ok as [A B]. destruct s8_ok as [C D]. destruct (z_ok 0 ltac:(lia)) as [E F].
  split; [apply exQ_near|]. unfold l4, exQ. cbn [inner vx vy vz vw]. unfold f0. rewrite B, D, F.
  split; [apply Rle_trans with (bpow radix2 (-1)); [apply bpow_le; lia|cbn; lra]|apply Rle_trans with (bpow radix2 1); [cbn; lra|apply bpow_le; lia]].
Qed.
Lemma ex_chain : Forall2 (nearU (/ 10000000)) (repeat exQ (100 * 100)) (repeat (V4 0 (3 / 5) 0 (4 / 5)) (100 * 100)) /\
  INR (length (repeat exQ (100 * 100))) * (/ 10000000 + 8.3 / 16777216) <= / 8.
Proof.
  split.
  - induction (100 * 100)%nat as [|n IH]; cbn [repeat]; [constructor|]. constructor; [exact exQ_near|exact IH].
  - rewrite repeat_length, mult_INR. replace (INR 100) with 100 by (rewrite INR_IZR_INZ; reflexivity). lra.
Qed.
