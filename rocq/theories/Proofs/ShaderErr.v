(** Preprocessed coefficients in binary32. *)
From Coq Require Import ZArith Bool List Reals Lra Lia Psatz.
From Flocq Require Import Core.Core IEEE754.BinarySingleNaN IEEE754.Binary IEEE754.Bits.
From Verif.Model Require Import Outcome Scalar Vec Simd Sh.
From Verif.Spec Require Import IblSpec ShaderSpec WindowSpec.
From Verif.Proofs Require Import OrdScalar F32Round F32Err NumericProofs RayErr YxyErr YxyRgb CubeErr RealLits HarmonicProofs DeringProofs WindowErr.
Import ListNotations.
Local Open Scope R_scope.

(** the literals are exact *)
Lemma litR : forall m e, Rlit m e = IZR m * bpow radix2 e.
Proof. intros m e. unfold Rlit. rewrite bpow_powerRZ. reflexivity. Qed.
Lemma constants : forall i, (i < 9)%nat -> let k := nth i (caShader : list f32) f0 in fin k /\ val k = nth i (caShader : list R) 0 /\ Rabs (val k) <= 0.35.
Proof.
  intros i Hi. do 9 (destruct i as [|i]; [unfold caShader; cbn [nth]; cbv zeta;
    match goal with |- fin ?k /\ _ => match k with slit ?m ?e => destruct (lit_exact m e ltac:(lia) ltac:(lia)) as [F V] end end;
    split; [exact F|]; rewrite V; split; [symmetry; apply litR|apply Rabs_le; cbn; lra]|]). lia.
Qed.
Lemma one_term : forall i (x : f32) d, (i < 9)%nat -> fin x -> Rabs (val x) <= 500000 -> unit3 d -> let r := (x * nth i (caShader : list f32) f0)%sc in
  fin r /\ Rabs (val r * nth i (shaderPolys d) 0 - val x * (nth i (harmonics d) 0 / normOf i / PI)) <= Rabs (val x) / 480000 + 2 / 1000000000000000000.
Proof.
  intros i x d Hi Fx Bx Hd r. destruct (constants i Hi) as (Fk & Vk & Bk). pose proof (shader_close i d Hi Hd) as C. rewrite <- Vk in C. pose proof (polys_bound i d Hd) as PB.
  unfold r. set (k := nth i (caShader : list f32) f0) in *. set (p := nth i (shaderPolys d) 0) in *. set (t := nth i (harmonics d) 0 / normOf i / PI) in *.
  pose proof (Rabs_pos (val x)) as Px. pose proof (Rabs_pos p) as Pp.
  assert (M : Rabs (val x * val k) <= Rabs (val x) * 0.35) by (rewrite Rabs_mult; apply Rmult_le_compat_l; assumption).
  destruct (mul_small x k Fx Fk) as [Fm Vm]; [apply small_le with 200000; lra|]. split; [exact Fm|]. pose proof (rerr (val x * val k)) as R. rewrite <- Vm in R.
  replace (val (x * k)%sc * p - val x * t) with ((val (x * k)%sc - val x * val k) * p + val x * (val k * p - t)) by ring.
  eapply Rle_trans; [apply Rabs_triang|]. rewrite !Rabs_mult. rewrite Rabs_mult in M, R.
  assert (A : Rabs (val x) * Rabs (val k * p - t) <= Rabs (val x) * / 500000) by (apply Rmult_le_compat_l; assumption).
  assert (B : Rabs (val (x * k)%sc - val x * val k) * Rabs p <= (U * (Rabs (val x) * 0.35) + / 1000000000000000000) * 2) by (apply Rmult_le_compat; [apply Rabs_pos|exact Pp|lra|exact PB]).
  lra.
Qed.
Definition laneOf (g : vec4 f32 -> f32) : Prop := g = vx \/ g = vy \/ g = vz \/ g = vw.
Lemma lane_scale : forall g v k, laneOf g -> g (scalep4 v k) = (g v * k)%sc.
Proof. intros g [x y z w] k [-> | [-> | [-> | ->]]]; reflexivity. Qed.
Lemma lane_moderate : forall g v, laneOf g -> moderate v -> fin (g v) /\ Rabs (val (g v)) <= 500000.
Proof. intros g v [-> | [-> | [-> | ->]]] (A & B & C & D); assumption. Qed.
Theorem shader_light : forall a : list (vec4 f32), length a = 9%nat -> Forall moderate a -> exists r, shaderPreprocessSH a = Ok r /\ length r = 9%nat /\
  forall g, g = vx \/ g = vy \/ g = vz \/ g = vw -> Forall (fun v => fin (g v)) r /\
    forall d, unit3 d -> let real l := map (fun v => val (g v)) l in
      Rabs (shaderLight (real r) d - lightOf (real a) d) <= sumAbs (real a) / 480000 + / 10000000000000000.
Proof.
  intros a L M. rewrite shader_scaled by exact L. eexists. split; [reflexivity|]. split; [rewrite map_length, combine_length, L; reflexivity|].
  intros g G. change (laneOf g) in G. destruct (DeringProofs.nine _ _ L) as (a0 & a1 & a2 & a3 & a4 & a5 & a6 & a7 & a8 & ->).
  assert (MO : forall v, In v [a0; a1; a2; a3; a4; a5; a6; a7; a8] -> fin (g v) /\ Rabs (val (g v)) <= 500000) by (intros v Hv; apply lane_moderate; [exact G|]; revert v Hv; apply Forall_forall; exact M). clear M L.
  assert (ONE : forall i v d, (i < 9)%nat -> In v [a0; a1; a2; a3; a4; a5; a6; a7; a8] -> unit3 d -> let r := g (scalep4 v (nth i (caShader : list f32) f0)) in
    fin r /\ Rabs (val r * nth i (shaderPolys d) 0 - val (g v) * (nth i (harmonics d) 0 / normOf i / PI)) <= Rabs (val (g v)) / 480000 + 2 / 1000000000000000000).
  { intros i v d Hi Hv Hd. cbv zeta. rewrite lane_scale by exact G. destruct (MO v Hv) as [F B]. exact (one_term i (g v) d Hi F B Hd). }
  assert (SP : exists c0 c1 c2 c3 c4 c5 c6 c7 c8, (caShader : list f32) = [c0; c1; c2; c3; c4; c5; c6; c7; c8]) by (repeat eexists).
  destruct SP as (c0 & c1 & c2 & c3 & c4 & c5 & c6 & c7 & c8 & SP). rewrite SP in *. clear SP. cbn [combine map fst snd].
  assert (U0 : unit3 (V3 0 0 1)) by (unfold unit3; cbn; lra).
  split.
  - repeat constructor; first [refine (proj1 (ONE 0%nat _ _ _ _ U0)); [lia|cbn; tauto] | refine (proj1 (ONE 1%nat _ _ _ _ U0)); [lia|cbn; tauto] | refine (proj1 (ONE 2%nat _ _ _ _ U0)); [lia|cbn; tauto] | refine (proj1 (ONE 3%nat _ _ _ _ U0)); [lia|cbn; tauto] | refine (proj1 (ONE 4%nat _ _ _ _ U0)); [lia|cbn; tauto] | refine (proj1 (ONE 5%nat _ _ _ _ U0)); [lia|cbn; tauto] | refine (proj1 (ONE 6%nat _ _ _ _ U0)); [lia|cbn; tauto] | refine (proj1 (ONE 7%nat _ _ _ _ U0)); [lia|cbn; tauto] | refine (proj1 (ONE 8%nat _ _ _ _ U0)); [lia|cbn; tauto]].
  - intros d Hd. cbv zeta. unfold shaderLight, lightOf, sumAbs. assert (PL : exists p0 p1 p2 p3 p4 p5 p6 p7 p8, shaderPolys d = [p0; p1; p2; p3; p4; p5; p6; p7; p8]) by (repeat eexists).
    destruct PL as (p0 & p1 & p2 & p3 & p4 & p5 & p6 & p7 & p8 & PL).
    pose proof (proj2 (ONE 0%nat a0 d ltac:(lia) ltac:(cbn; tauto) Hd)) as E0. pose proof (proj2 (ONE 1%nat a1 d ltac:(lia) ltac:(cbn; tauto) Hd)) as E1. pose proof (proj2 (ONE 2%nat a2 d ltac:(lia) ltac:(cbn; tauto) Hd)) as E2.
    pose proof (proj2 (ONE 3%nat a3 d ltac:(lia) ltac:(cbn; tauto) Hd)) as E3. pose proof (proj2 (ONE 4%nat a4 d ltac:(lia) ltac:(cbn; tauto) Hd)) as E4. pose proof (proj2 (ONE 5%nat a5 d ltac:(lia) ltac:(cbn; tauto) Hd)) as E5.
    pose proof (proj2 (ONE 6%nat a6 d ltac:(lia) ltac:(cbn; tauto) Hd)) as E6. pose proof (proj2 (ONE 7%nat a7 d ltac:(lia) ltac:(cbn; tauto) Hd)) as E7. pose proof (proj2 (ONE 8%nat a8 d ltac:(lia) ltac:(cbn; tauto) Hd)) as E8.
    cbv zeta in *. rewrite PL in *. clear ONE MO PL. cbn [List.seq map weigh fold_right]. cbn [nth] in E0, E1, E2, E3, E4, E5, E6, E7, E8.
    repeat match goal with H : Rabs (_ * _ - _) <= _ |- _ => apply Rabs_le_inv in H end. apply Rabs_le. lra.
Qed.
Lemma ex_light : lightOf [1; 0; 0; 0; 0; 0; 0; 0; 0] (V3 0 0 1) = / normOf 0 / PI /\ sumAbs [1; 0; 0; 0; 0; 0; 0; 0; 0] = 1.
Proof.
  split; [|unfold sumAbs; cbn [fold_right]; rewrite Rabs_R1, Rabs_R0; lra]. unfold lightOf. cbn [List.seq map weigh].
  replace (nth 0 (harmonics (V3 0 0 1)) 0) with 1 by (unfold harmonics; cbn [nth]; reflexivity). unfold Rdiv. ring.
Qed.
