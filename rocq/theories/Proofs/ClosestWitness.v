(** A concrete case for C132. *)
From Coq Require Import ZArith Bool List Reals Lra Lia Psatz.
From Flocq Require Import Core.Core.
From Verif.Model Require Import Outcome Scalar Vec Simd Aabb Geometry.
From Verif.Spec Require Import GeomSpec EuclidSpec ClosestErrSpec.
From Verif.Proofs Require Import OrdScalar F32Round F32Err NormProofs AabbWitness CullProofs ClosestErr.
Local Open Scope R_scope.

Lemma fi_val : forall z, (Z.abs z <= 10)%Z -> fin (fi z) /\ val (fi z) = IZR z.
Proof. intros z Hz. apply (lit_Z z). lia. Qed.
Lemma fair3 : forall (a b c : Z) w, (Z.abs a <= 10)%Z -> (Z.abs b <= 10)%Z -> (Z.abs c <= 10)%Z -> fair (l43 (V4 (fi a) (fi b) (fi c) w)).
Proof.
  intros a b c w A B C. destruct (fi_val a A) as [Fa Va], (fi_val b B) as [Fb Vb], (fi_val c C) as [Fc Vc].
  unfold fair, allFin, boundedBy, l43. rewrite p40. cbn [vx vy vz].
  apply IZR_le in A, B, C. rewrite abs_IZR in A, B, C.
  split; (apply Forall_cons; [|apply Forall_cons; [|apply Forall_cons; [|apply Forall_nil]]]); try assumption; rewrite ?Va, ?Vb, ?Vc; lra.
Qed.
Lemma one_le_sqrt : forall x, 1 <= x -> 1 <= sqrt x.
Proof. intros x H. apply Rle_trans with (sqrt 1); [rewrite sqrt_1; lra|apply sqrt_le_1; lra]. Qed.
Lemma sqrt_ge1 : forall x, 1 <= x -> bpow radix2 (-40) <= sqrt x.
Proof. intros x H. rewrite m40. apply Rle_trans with (sqrt 1); [rewrite sqrt_1; lra|apply sqrt_le_1; lra]. Qed.
Theorem closest_example : forall p, let a := v4 1 2 3 in let b := v4 4 0 1 in let x := v4 0 7 5 in
  fair (l43 a) /\ fair (l43 b) /\ fair (l43 x) /\ bpow radix2 (-40) <= distS (realV b) (realV a) /\
  let r := newRay p a b false in
  bpow radix2 (-40) <= lenS (realV (rdir r)) /\ lenS (realV (rorigin r)) <= 131072 * lenS (realV (rdir r)) /\
  let pl := normalizePlane p b in let s := V4 f1 f1 f1 (fi 2) in
  moderate (l43 b) /\ fair (l4 pl) /\ fair (l4 s) /\ 0 <= val (vw s) /\ bpow radix2 (-40) <= distS (realV x) (realV s).
Proof.
  intros p a b x.
  assert (V : forall z, (Z.abs z <= 10)%Z -> val (fi z) = IZR z) by (intros; apply fi_val; assumption).
  assert (V1 : val (f1 : f32) = 1) by apply f1_fin.
  split; [apply fair3; lia|]. split; [apply fair3; lia|]. split; [apply fair3; lia|].
  split.
  { unfold distS. apply sqrt_ge1. unfold realV, a, b, v4. cbn [vx vy vz]. rewrite !V by lia. unfold Rsqr. lra. }
  intros r.
  assert (E : lenS (realV (rdir r)) = sqrt 17).
  { unfold lenS, r, newRay, realV, b, v4. cbn [rdir vx vy vz]. rewrite !V by lia. f_equal. lra. }
  split; [rewrite E; apply sqrt_ge1; lra|].
  split.
  { rewrite E. unfold lenS, r, newRay, realV, a, v4. cbn [rorigin vx vy vz]. rewrite !V by lia.
    apply Rle_trans with (sqrt 17); [apply sqrt_le_1; lra|]. pose proof (sqrt_pos 17). lra. }
  intros pl s.
  assert (M : moderate (l43 b)).
  { split; [apply (fair3 4 0 1); lia|]. unfold inner, l43, b, v4. cbn [vx vy vz]. rewrite !V by lia.
    split; [apply Rle_trans with 1; [apply (bpow_le radix2 (-100) 0); lia|lra]|apply Rle_trans with (bpow radix2 10); [cbn; lra|apply bpow_le; lia]]. }
  split; [exact M|].
  assert (W : vw b = fi 0) by reflexivity.
  split.
  { destruct (norm_plane p b (realV b) 0) as (l & Pl & Bl & F & N); try lra.
    - unfold allFin, l4, b, v4. cbn [vx vy vz vw]. repeat (apply Forall_cons; [apply fi_val; lia|]). apply Forall_nil.
    - apply near_self.
    - unfold fairNormal, normalLen, realV, b, v4. cbn [vx vy vz]. rewrite !V by lia.
      split; [apply Rle_trans with 1; [apply (bpow_le radix2 (-49) 0); lia|apply one_le_sqrt; lra]|].
      apply Rle_trans with (sqrt (5 * 5)); [apply sqrt_le_1; lra|]. rewrite sqrt_square by lra.
      apply Rle_trans with (bpow radix2 10); [cbn; lra|apply bpow_le; lia].
    - unfold realV, b, v4. cbn [vw]. rewrite V by lia. rewrite Rabs_R0. lra.
    - split; [exact F|]. unfold boundedBy, l4. rewrite p40.
      assert (Lb : Rabs l <= 1.001).
      { rewrite Rabs_pos_eq by lra. assert (1 <= normalLen (realV b)).
        { unfold normalLen, realV, b, v4. cbn [vx vy vz]. rewrite !V by lia. apply one_le_sqrt. lra. }
        nra. }
      destruct N as (N1 & N2 & N3 & N4). unfold nearC, scaleV, realV, b, v4 in N1, N2, N3, N4. cbn [vx vy vz vw] in N1, N2, N3, N4.
      rewrite !V in N1, N2, N3, N4 by lia. pose proof eta0_small.
      assert (G : forall y z, Rabs z <= 5 -> Rabs (y - l * z) <= (0 + 1.01) * / 16777216 * Rabs (l * z) + eta0 -> Rabs y <= 1099511627776).
      { intros y z Hz H'. rewrite Rabs_mult in H'. assert (Rabs l * Rabs z <= 1.001 * 5) by (apply Rmult_le_compat; try apply Rabs_pos; assumption).
        pose proof (Rabs_triang (l * z) (y - l * z)) as T. replace (l * z + (y - l * z)) with y in T by ring. rewrite Rabs_mult in T. lra. }
      apply Forall_cons; [apply (G _ 4); [rewrite Rabs_pos_eq; lra|exact N1]|].
      apply Forall_cons; [apply (G _ 0); [rewrite Rabs_R0; lra|exact N2]|].
      apply Forall_cons; [apply (G _ 1); [rewrite Rabs_R1; lra|exact N3]|].
      apply Forall_cons; [apply (G _ 0); [rewrite Rabs_R0; lra|exact N4]|apply Forall_nil]. }
  split.
  { assert (F1 : fin (f1 : f32)) by apply f1_fin. destruct (fi_val 2 ltac:(lia)) as [F2 V2'].
    unfold fair, allFin, boundedBy, l4, s. rewrite p40. cbn [vx vy vz vw].
    split; (apply Forall_cons; [|apply Forall_cons; [|apply Forall_cons; [|apply Forall_cons; [|apply Forall_nil]]]]); try assumption;
      rewrite ?V1, ?V2'; rewrite Rabs_pos_eq; lra. }
  split; [unfold s; cbn [vw]; rewrite V by lia; lra|].
  unfold distS. apply sqrt_ge1. unfold realV, x, s, v4. cbn [vx vy vz]. rewrite V1, !V by lia. unfold Rsqr. lra.
Qed.
