(** The accuracy of inverse4x4 in the terms of InvErrSpec, and what it means for points. *)
From Coq Require Import ZArith Bool Reals Lra Lia Psatz List.
From Flocq Require Import Core.Core IEEE754.BinarySingleNaN IEEE754.Binary IEEE754.Bits.
From Verif.Model Require Import Scalar Vec Simd Matrix.
From Verif.Spec Require Import InvErrSpec.
From Verif.Proofs Require Import OrdScalar F32Round F32Err Approx NormProofs MatErrProofs MatrixProofs MatrixInverse InvErr.
Import ListNotations.
Local Open Scope R_scope.

Lemma entries_qm : forall b m, entriesIn b m -> qm b 1 0 m (realM m).
Proof.
  intros b [[ax ay az aw] [bx by_ bz bw] [cx cy cz cw] [dx dy dz dw]] [Hb H].
  assert (G : forall x : f32, fin x -> Rabs (val x) <= b -> q b 1 0 x (val x)).
  { intros x F L. split; [exact F|]. rewrite Rminus_eq_0, Rabs_R0. lra. }
  unfold rowsOf4 in H. cbn [c0 c1 c2 c3 vx vy vz vw] in H.
  repeat match goal with
  | H : Forall _ (_ :: _) |- _ => apply Forall_cons_iff in H; destruct H
  | H : allFin _ /\ boundedBy _ _ |- _ => destruct H
  | H : allFin (_ :: _) |- _ => unfold allFin in H
  | H : boundedBy _ (_ :: _) |- _ => unfold boundedBy in H
  end.
  unfold qm, qv, realM, realV. cbn [c0 c1 c2 c3 vx vy vz vw].
  split; [|split; [|split]]; (split; [|split; [|split]]); apply G; assumption.
Qed.
Lemma cramer_eq : forall b D, D <> 0 ->
  (70 * (b * (b * b) / Rabs D) + 1900 * (b * (b * (b * b) * (b * (b * b))) / (D * D))) * u24 = cramer b D.
Proof. intros b D H. unfold cramer. rewrite u24_val. field. split; [exact H|apply Rabs_no_R0; exact H]. Qed.
Lemma product_inverse : forall n m : mat4 R, mulm4 n m = identity4 -> mulm4 m n = identity4 -> inverseOf n m.
Proof.
  intros n m A B i j Hi Hj.
  pose proof (mulm4_product GEN n m) as P. pose proof (mulm4_product GEN m n) as P'. cbn [mulM] in P, P'.
  rewrite <- (P i j Hi Hj), <- (P' i j Hi Hj), A, B.
  destruct i as [|[|[|[|]]]]; [| | | |lia]; (destruct j as [|[|[|[|]]]]; [| | | |lia]); mcbn; cbv [delta Nat.eqb]; split; reflexivity.
Qed.
Theorem inverse_near : forall p b (m : mat4 f32), entriesIn b m -> regular b m ->
  exists n, inverseOf n (realM m) /\ entriesNear (cramer b (det 4 (ent4 (realM m)))) (inverse4x4 p m) n.
Proof.
  intros p b m I HR. pose proof (entries_qm b m I) as Q. destruct I as [Hb _]. unfold regular in HR.
  set (D := det 4 (ent4 (realM m))) in *.
  assert (P : 0 < b) by (pose proof (bpow_gt_0 radix2 (-24)); lra).
  assert (P4 : 0 < b ^ 4) by (apply pow_lt; exact P).
  assert (DN : D <> 0) by (intros E; rewrite E, Rabs_R0 in HR; lra).
  exists (scaleM4 (/ D) (adj4 (realM m))). split.
  - destruct (inverse4x4_correct GEN (realM m) DN) as [A B]. rewrite inverse4x4_adj in A, B. cbn [mulM] in A, B.
    apply product_inverse; assumption.
  - rewrite <- cramer_eq by exact DN. apply inverse_q; [exact Hb|exact Q|]. fold D.
    replace (b * (b * (b * b))) with (b ^ 4) by ring. exact HR.
Qed.
Lemma sum4 : forall f, sum 4 f = f 0%nat + f 1%nat + f 2%nat + f 3%nat.
Proof. intros f. cbn [sum]. ring. Qed.
Lemma adj_bound : forall b m, entriesIn b m -> forall i j, (i < 4)%nat -> (j < 4)%nat ->
  Rabs (ent4 (adj4 (realM m)) i j) <= 6 * (b * (b * b)).
Proof.
  intros b m I i j Hi Hj. pose proof (cof4_q b (proj1 I) m (realM m) (entries_qm b m I)) as Q. rewrite cofactors4_adj in Q.
  destruct Q as ((A0 & A1 & A2 & A3) & (B0 & B1 & B2 & B3) & (C0 & C1 & C2 & C3) & (D0 & D1 & D2 & D3)).
  destruct i as [|[|[|[|]]]]; [| | | |lia]; (destruct j as [|[|[|[|]]]]; [| | | |lia]);
    first [apply A0|apply A1|apply A2|apply A3|apply B0|apply B1|apply B2|apply B3|apply C0|apply C1|apply C2|apply C3|apply D0|apply D1|apply D2|apply D3].
Qed.
Lemma scale_ent : forall k m i j, (i < 4)%nat -> (j < 4)%nat -> ent4 (scaleM4 k m) i j = k * ent4 m i j.
Proof.
  intros k [[? ? ? ?] [? ? ? ?] [? ? ? ?] [? ? ? ?]] i j Hi Hj.
  destruct i as [|[|[|[|]]]]; [| | | |lia]; (destruct j as [|[|[|[|]]]]; [| | | |lia]); mcbn; cbv [scaleM4]; mcbn; ring.
Qed.
Lemma real_ent : forall m i j, (i < 4)%nat -> (j < 4)%nat -> ent4 (realM m) i j = val (ent4 m i j).
Proof.
  intros m i j Hi Hj. destruct i as [|[|[|[|]]]]; [| | | |lia]; (destruct j as [|[|[|[|]]]]; [| | | |lia]); reflexivity.
Qed.
(** the product in index form *)
Lemma mulV_index : forall p (m : mat4 f32) (v : vec4 f32) A V,
  0 <= A <= bpow radix2 60 -> 0 <= V <= bpow radix2 60 ->
  (forall i j, (i < 4)%nat -> (j < 4)%nat -> fin (ent4 m i j) /\ Rabs (val (ent4 m i j)) <= A) ->
  (forall j, (j < 4)%nat -> fin (comp4 v j) /\ Rabs (val (comp4 v j)) <= V) ->
  forall i, (i < 4)%nat -> fin (comp4 (mulV p m v) i) /\
    Rabs (val (comp4 (mulV p m v) i) - sum 4 (fun k => val (ent4 m i k) * val (comp4 v k))) <= 16.04 * u24 * (A * V) + 10 * eta0.
Proof.
  intros p m v A V HA HV Hm Hv.
  assert (MM : mildM (rowsOf4 m)).
  { destruct m as [[ax ay az aw] [bx by_ bz bw] [cx cy cz cw] [dx dy dz dw]].
    assert (G : forall i, (i < 4)%nat -> mild [ent4 (M4 (V4 ax ay az aw) (V4 bx by_ bz bw) (V4 cx cy cz cw) (V4 dx dy dz dw)) i 0;
      ent4 (M4 (V4 ax ay az aw) (V4 bx by_ bz bw) (V4 cx cy cz cw) (V4 dx dy dz dw)) i 1;
      ent4 (M4 (V4 ax ay az aw) (V4 bx by_ bz bw) (V4 cx cy cz cw) (V4 dx dy dz dw)) i 2;
      ent4 (M4 (V4 ax ay az aw) (V4 bx by_ bz bw) (V4 cx cy cz cw) (V4 dx dy dz dw)) i 3]).
    { intros i Hi. split; unfold allFin, boundedBy; repeat (apply Forall_cons); try apply Forall_nil;
        try (apply Hm; lia); (eapply Rle_trans; [apply Hm; lia|apply HA]). }
    repeat (apply Forall_cons); try apply Forall_nil; [apply (G 0%nat)|apply (G 1%nat)|apply (G 2%nat)|apply (G 3%nat)]; lia. }
  assert (MV : mild (l4 v)).
  { destruct v as [x y z w]. pose proof (Hv 0%nat ltac:(lia)). pose proof (Hv 1%nat ltac:(lia)).
    pose proof (Hv 2%nat ltac:(lia)). pose proof (Hv 3%nat ltac:(lia)). cbn [comp4 vx vy vz vw] in *.
    split; unfold allFin, boundedBy, l4; cbn [vx vy vz vw]; repeat (apply Forall_cons); try apply Forall_nil; try tauto; lra. }
  pose proof (proj1 (proj2 (proj2 (proj2 (action_near p)))) m v MM MV) as E.
  intros i Hi.
  assert (B : forall (r : f32) (x0 x1 x2 x3 y0 y1 y2 y3 : f32), innerErr 4.01 r [x0; x1; x2; x3] [y0; y1; y2; y3] ->
    Rabs (val x0) <= A -> Rabs (val x1) <= A -> Rabs (val x2) <= A -> Rabs (val x3) <= A ->
    Rabs (val y0) <= V -> Rabs (val y1) <= V -> Rabs (val y2) <= V -> Rabs (val y3) <= V ->
    fin r /\ Rabs (val r - (val x0 * val y0 + val x1 * val y1 + val x2 * val y2 + val x3 * val y3)) <= 16.04 * u24 * (A * V) + 10 * eta0).
  { intros r x0 x1 x2 x3 y0 y1 y2 y3 [F I] X0 X1 X2 X3 Y0 Y1 Y2 Y3. split; [exact F|]. cbn [inner innerAbs] in I.
    assert (PP : forall a c, Rabs a <= A -> Rabs c <= V -> Rabs (a * c) <= A * V).
    { intros a c Ha Hc. rewrite Rabs_mult. apply Rmult_le_compat; auto using Rabs_pos. }
    pose proof (PP _ _ X0 Y0). pose proof (PP _ _ X1 Y1). pose proof (PP _ _ X2 Y2). pose proof (PP _ _ X3 Y3).
    rewrite u24_val. change (bpow radix2 (-150)) with eta0 in I.
    replace (val x0 * val y0 + val x1 * val y1 + val x2 * val y2 + val x3 * val y3)
      with (val x0 * val y0 + (val x1 * val y1 + (val x2 * val y2 + (val x3 * val y3 + 0)))) by ring. lra. }
  rewrite sum4.
  pose proof (fun i j Hi Hj => proj2 (Hm i j Hi Hj)) as Hm'. pose proof (fun j Hj => proj2 (Hv j Hj)) as Hv'.
  apply (B _ (ent4 m i 0) (ent4 m i 1) (ent4 m i 2) (ent4 m i 3) (comp4 v 0) (comp4 v 1) (comp4 v 2) (comp4 v 3));
    try (apply Hm'; lia); try (apply Hv'; lia).
  unfold actionErr in E. destruct m as [[ax ay az aw] [bx by_ bz bw] [cx cy cz cw] [dx dy dz dw]]. destruct v as [x y z w].
  destruct (mulV p _ _) as [rx ry rz rw].
  inversion E as [|? ? ? ? E0 E']; subst. inversion E' as [|? ? ? ? E1 E'']; subst.
  inversion E'' as [|? ? ? ? E2 E''']; subst. inversion E''' as [|? ? ? ? E3 _]; subst.
  destruct i as [|[|[|[|]]]]; [| | | |lia]; assumption.
Qed.

(** there and back in exact arithmetic, with perturbed matrices *)
Lemma trip_real : forall (n m x : nat -> nat -> R) (v y : nat -> R) N c Y d i,
  (forall j, (j < 4)%nat -> sum 4 (fun k => n i k * m k j) = delta i j) -> (i < 4)%nat ->
  (forall k, (k < 4)%nat -> Rabs (n i k) <= N) -> (forall k, (k < 4)%nat -> Rabs (x i k - n i k) <= c) ->
  (forall k, (k < 4)%nat -> Rabs (y k) <= Y) -> (forall k, (k < 4)%nat -> Rabs (y k - sum 4 (fun j => m k j * v j)) <= d) ->
  Rabs (sum 4 (fun k => x i k * y k) - v i) <= 4 * (c * Y) + 4 * (N * d).
Proof.
  intros n m x v y N c Y d i Hn Hi BN BC BY BD.
  assert (V : v i = sum 4 (fun k => n i k * sum 4 (fun j => m k j * v j))).
  { pose proof (Hn 0%nat ltac:(lia)) as D0. pose proof (Hn 1%nat ltac:(lia)) as D1.
    pose proof (Hn 2%nat ltac:(lia)) as D2. pose proof (Hn 3%nat ltac:(lia)) as D3.
    rewrite sum4 in D0, D1, D2, D3. rewrite !sum4.
    transitivity (delta i 0 * v 0%nat + delta i 1 * v 1%nat + delta i 2 * v 2%nat + delta i 3 * v 3%nat).
    - destruct i as [|[|[|[|]]]]; [| | | |lia]; cbv [delta Nat.eqb]; ring.
    - rewrite <- D0, <- D1, <- D2, <- D3. ring. }
  rewrite V. rewrite (sum4 (fun k => x i k * y k)), (sum4 (fun k => n i k * _)).
  set (z := fun k => sum 4 (fun j => m k j * v j)) in *. cbv beta.
  assert (T : forall k, (k < 4)%nat -> Rabs (x i k * y k - n i k * z k) <= c * Y + N * d).
  { intros k Hk. replace (x i k * y k - n i k * z k) with ((x i k - n i k) * y k + n i k * (y k - z k)) by ring.
    eapply Rle_trans; [apply Rabs_triang|]. rewrite !Rabs_mult.
    assert (Rabs (x i k - n i k) * Rabs (y k) <= c * Y) by (apply Rmult_le_compat; auto using Rabs_pos).
    assert (Rabs (n i k) * Rabs (y k - z k) <= N * d) by (apply Rmult_le_compat; auto using Rabs_pos; apply BD; exact Hk).
    lra. }
  pose proof (T 0%nat ltac:(lia)) as T0. pose proof (T 1%nat ltac:(lia)) as T1.
  pose proof (T 2%nat ltac:(lia)) as T2. pose proof (T 3%nat ltac:(lia)) as T3.
  change (sum 4 (fun j => m 0%nat j * v j)) with (z 0%nat). change (sum 4 (fun j => m 1%nat j * v j)) with (z 1%nat).
  change (sum 4 (fun j => m 2%nat j * v j)) with (z 2%nat). change (sum 4 (fun j => m 3%nat j * v j)) with (z 3%nat).
  apply abs2 in T0, T1, T2, T3. apply Rabs_le. lra.
Qed.
Theorem inverse_residual : forall p b (m : mat4 f32), entriesIn b m -> regular b m ->
  forall i j, (i < 4)%nat -> (j < 4)%nat ->
  let c := 4 * (b * cramer b (det 4 (ent4 (realM m)))) in
  Rabs (sum 4 (fun k => val (ent4 (inverse4x4 p m) i k) * val (ent4 m k j)) - delta i j) <= c /\
  Rabs (sum 4 (fun k => val (ent4 m i k) * val (ent4 (inverse4x4 p m) k j)) - delta i j) <= c.
Proof.
  intros p b m I HR i j Hi Hj c. subst c. destruct (inverse_near p b m I HR) as (n & Hn & HE).
  set (c := cramer b _) in *. destruct (Hn i j Hi Hj) as [N1 N2].
  assert (B : forall i j, (i < 4)%nat -> (j < 4)%nat -> Rabs (val (ent4 m i j)) <= b).
  { intros i' j' Hi' Hj'. destruct (entries_qm b m I) as ((A0 & A1 & A2 & A3) & (B0 & B1 & B2 & B3) & (C0 & C1 & C2 & C3) & (D0 & D1 & D2 & D3)).
    rewrite <- real_ent by assumption. rewrite <- (Rmult_1_l b).
    destruct i' as [|[|[|[|]]]]; [| | | |lia]; (destruct j' as [|[|[|[|]]]]; [| | | |lia]);
    first [apply A0|apply A1|apply A2|apply A3|apply B0|apply B1|apply B2|apply B3|apply C0|apply C1|apply C2|apply C3|apply D0|apply D1|apply D2|apply D3]. }
  assert (P : forall a x y, Rabs a <= b -> Rabs (x - y) <= c -> Rabs (x * a - y * a) <= b * c).
  { intros a x y Ha Hx. replace (x * a - y * a) with (a * (x - y)) by ring. rewrite Rabs_mult.
    apply Rmult_le_compat; auto using Rabs_pos. }
  rewrite <- N1 at 1. rewrite <- N2. rewrite !sum4. rewrite !real_ent by lia.
  split.
  - assert (T : forall k, (k < 4)%nat -> Rabs (val (ent4 (inverse4x4 p m) i k) * val (ent4 m k j) - ent4 n i k * val (ent4 m k j)) <= b * c).
    { intros k Hk. apply P; [apply B; assumption|apply HE; assumption]. }
    pose proof (T 0%nat ltac:(lia)) as T0. pose proof (T 1%nat ltac:(lia)) as T1.
    pose proof (T 2%nat ltac:(lia)) as T2. pose proof (T 3%nat ltac:(lia)) as T3.
    apply abs2 in T0, T1, T2, T3. apply Rabs_le. lra.
  - assert (T : forall k, (k < 4)%nat -> Rabs (val (ent4 m i k) * val (ent4 (inverse4x4 p m) k j) - val (ent4 m i k) * ent4 n k j) <= b * c).
    { intros k Hk. rewrite (Rmult_comm (val (ent4 m i k))), (Rmult_comm (val (ent4 m i k))). apply P; [apply B; assumption|apply HE; assumption]. }
    pose proof (T 0%nat ltac:(lia)) as T0. pose proof (T 1%nat ltac:(lia)) as T1.
    pose proof (T 2%nat ltac:(lia)) as T2. pose proof (T 3%nat ltac:(lia)) as T3.
    apply abs2 in T0, T1, T2, T3. apply Rabs_le. lra.
Qed.
Theorem round_trip : forall p b c (m : mat4 f32) v, entriesIn b m -> regular b m -> pointIn c v ->
  forall i, (i < 4)%nat ->
  fin (comp4 (mulV p (inverse4x4 p m) (mulV p m v)) i) /\
  Rabs (val (comp4 (mulV p (inverse4x4 p m) (mulV p m v)) i) - val (comp4 v i)) <= tripErr b (det 4 (ent4 (realM m))) * c.
Proof.
  intros p b V m v I HR (HV & FV & BV) i Hi.
  pose proof (entries_qm b m I) as Q. pose proof (adj_bound b m I) as AB.
  pose proof (proj1 I) as Hb. unfold regular in HR.
  set (D := det 4 (ent4 (realM m))) in *.
  pose proof (bpow_gt_0 radix2 (-24)) as P24.
  assert (P : 0 < b) by lra. assert (PV : 0 < V) by lra.
  assert (P4 : 0 < b ^ 4) by (apply pow_lt; exact P). assert (P3 : 0 < b ^ 3) by (apply pow_lt; exact P).
  set (A := Rabs D) in *. assert (A0 : 0 < A) by lra.
  assert (DN : D <> 0) by (intros E; unfold A in A0; rewrite E, Rabs_R0 in A0; lra).
  set (n := scaleM4 (/ D) (adj4 (realM m))).
  assert (IN : inverseOf n (realM m)).
  { destruct (inverse4x4_correct GEN (realM m) DN) as [A' B']. rewrite inverse4x4_adj in A', B'. cbn [mulM] in A', B'.
    apply product_inverse; assumption. }
  assert (NE : entriesNear (cramer b D) (inverse4x4 p m) n).
  { rewrite <- cramer_eq by exact DN. apply inverse_q; [exact Hb|exact Q|]. fold D.
    replace (b * (b * (b * b))) with (b ^ 4) by ring. exact HR. }
  set (r := / A). assert (r0 : 0 < r) by (apply Rinv_0_lt_compat; exact A0).
  assert (rA : r * A = 1) by (unfold r; field; lra).
  set (g := b ^ 4 * r).
  assert (g0 : 0 < g) by (apply Rmult_lt_0_compat; lra).
  assert (g1 : g <= 16384) by (unfold g; apply Rle_trans with (16384 * (r * A)); [nra|rewrite rA; lra]).
  (* entries of the matrix, its determinant and its inverse *)
  assert (ME : forall i j, (i < 4)%nat -> (j < 4)%nat -> fin (ent4 m i j) /\ Rabs (val (ent4 m i j)) <= b).
  { intros i' j' Hi' Hj'. destruct Q as ((A0' & A1 & A2 & A3) & (B0 & B1 & B2 & B3) & (C0 & C1 & C2 & C3) & (D0 & D1 & D2 & D3)).
    assert (G : forall x X, q b 1 0 x X -> fin x /\ Rabs X <= b) by (intros x X (F & _ & M); split; [exact F|lra]).
    rewrite <- real_ent by assumption.
    destruct i' as [|[|[|[|]]]]; [| | | |lia]; (destruct j' as [|[|[|[|]]]]; [| | | |lia]); apply G; assumption. }
  assert (g2 : 1 <= 24 * g).
  { assert (LD : Rabs D <= 24 * b ^ 4).
    { unfold D. pose proof (expand_det_col (realM m)) as ED. destruct (adj4 (realM m)) as [q0 q1 q2 q3] eqn:EA.
      rewrite <- (ED _ _ _ _ eq_refl).
      pose proof (AB 0%nat 0%nat ltac:(lia) ltac:(lia)) as X0. pose proof (AB 0%nat 1%nat ltac:(lia) ltac:(lia)) as X1.
      pose proof (AB 0%nat 2%nat ltac:(lia) ltac:(lia)) as X2. pose proof (AB 0%nat 3%nat ltac:(lia) ltac:(lia)) as X3.
      cbn [ent4 comp4 c0 c1 c2 c3] in X0, X1, X2, X3.
      pose proof (proj2 (ME 0%nat 0%nat ltac:(lia) ltac:(lia))) as Y0. pose proof (proj2 (ME 1%nat 0%nat ltac:(lia) ltac:(lia))) as Y1.
      pose proof (proj2 (ME 2%nat 0%nat ltac:(lia) ltac:(lia))) as Y2. pose proof (proj2 (ME 3%nat 0%nat ltac:(lia) ltac:(lia))) as Y3.
      cbn [ent4 comp4] in Y0, Y1, Y2, Y3. unfold realM, realV. cbn [c0 vx vy vz vw].
      assert (M2 : forall a x, Rabs a <= b -> Rabs x <= 6 * (b * (b * b)) -> Rabs (a * x) <= 6 * b ^ 4).
      { intros a x Ha Hx. rewrite Rabs_mult. replace (6 * b ^ 4) with (b * (6 * (b * (b * b)))) by ring.
        apply Rmult_le_compat; auto using Rabs_pos. }
      pose proof (M2 _ _ Y0 X0) as Z0. pose proof (M2 _ _ Y1 X1) as Z1. pose proof (M2 _ _ Y2 X2) as Z2. pose proof (M2 _ _ Y3 X3) as Z3.
      apply abs2 in Z0, Z1, Z2, Z3. apply Rabs_le. lra. }
    fold A in LD. unfold g. rewrite <- rA. nra. }
  set (N := 6 * (b ^ 3 * r)). assert (N0 : 0 < N) by (unfold N; nra).
  assert (Nb : N * b = 6 * g) by (unfold N, g; ring).
  assert (BN : forall i j, (i < 4)%nat -> (j < 4)%nat -> Rabs (ent4 n i j) <= N).
  { intros i' j' Hi' Hj'. unfold n. rewrite scale_ent by assumption. rewrite Rabs_mult, Rabs_inv. fold A. fold r.
    pose proof (AB i' j' Hi' Hj'). unfold N. replace (6 * (b ^ 3 * r)) with (r * (6 * (b * (b * b)))) by ring.
    apply Rmult_le_compat_l; lra. }
  pose proof u24_val as UV. pose proof u24_pos as UP. pose proof eta0_pos as EP.
  assert (DD : / (D ^ 2) = r * r).
  { unfold r, A. replace (D ^ 2) with (D * D) by ring. rewrite Rinv_mult, <- Rabs_inv, <- Rabs_mult. symmetry. apply Rabs_pos_eq, Rle_0_sqr. }
  set (cr := cramer b D) in *.
  assert (CR : cr = u24 * (70 * (b ^ 3 * r) + 1900 * (b ^ 3 * r) * g)).
  { unfold cr, cramer, Rdiv. rewrite DD. fold A. fold r. unfold g. rewrite UV. ring. }
  assert (CN : cr <= 0.31 * N).
  { rewrite CR, UV. unfold N. assert (0 < b ^ 3 * r) by (apply Rmult_lt_0_compat; lra). nra. }
  assert (CB : cr * b = u24 * (70 * g + 1900 * (g * g))) by (rewrite CR; unfold g; ring).
  assert (C0' : 0 <= cr) by (rewrite CR; repeat (apply Rmult_le_pos || apply Rplus_le_le_0_compat); lra).
  assert (XB : forall i j, (i < 4)%nat -> (j < 4)%nat -> fin (ent4 (inverse4x4 p m) i j) /\ Rabs (val (ent4 (inverse4x4 p m) i j)) <= 1.31 * N).
  { intros i' j' Hi' Hj'. destruct (NE i' j' Hi' Hj') as [F E]. split; [exact F|].
    pose proof (BN i' j' Hi' Hj'). replace (val (ent4 (inverse4x4 p m) i' j')) with (ent4 n i' j' + (val (ent4 (inverse4x4 p m) i' j') - ent4 n i' j')) by ring.
    eapply Rle_trans; [apply Rabs_triang|]. lra. }
  (* the point *)
  assert (VE : forall j, (j < 4)%nat -> fin (comp4 v j) /\ Rabs (val (comp4 v j)) <= V).
  { destruct v as [x y z w]. unfold allFin, boundedBy, l4 in FV, BV. cbn [vx vy vz vw] in FV, BV.
    repeat match goal with H : Forall _ (_ :: _) |- _ => apply Forall_cons_iff in H; destruct H end.
    intros j Hj. destruct j as [|[|[|[|]]]]; [| | | |lia]; split; assumption. }
  assert (up : forall e f, (e <= f)%Z -> bpow radix2 e <= bpow radix2 f) by (intros; apply bpow_le; assumption).
  pose proof (up 24 60 ltac:(lia))%Z as U1.
  assert (bV : b * V <= bpow radix2 48).
  { change 48%Z with (24 + 24)%Z. rewrite bpow_plus. apply Rmult_le_compat; lra. }
  assert (ebv : 1000 * eta0 <= u24 * (b * V)).
  { apply Rle_trans with (u24 * (bpow radix2 (-24) * bpow radix2 (-24))).
    - change u24 with (bpow radix2 (-24)). change eta0 with (bpow radix2 (-150)). rewrite <- !bpow_plus. cbn. lra.
    - apply Rmult_le_compat_l; [lra|]. apply Rmult_le_compat; lra. }
  assert (bV0 : 0 < b * V) by (apply Rmult_lt_0_compat; lra).
  pose proof (mulV_index p m v b V ltac:(lra) ltac:(lra) ME VE) as YE.
  set (d := 16.05 * (u24 * (b * V))).
  assert (YD : forall k, (k < 4)%nat -> fin (comp4 (mulV p m v) k) /\ Rabs (val (comp4 (mulV p m v) k) - sum 4 (fun j => ent4 (realM m) k j * val (comp4 v j))) <= d).
  { intros k Hk. destruct (YE k Hk) as [F E]. split; [exact F|].
    rewrite sum4 in *. rewrite !real_ent by lia. unfold d. lra. }
  set (Y := 4.0001 * (b * V)).
  assert (YB : forall k, (k < 4)%nat -> fin (comp4 (mulV p m v) k) /\ Rabs (val (comp4 (mulV p m v) k)) <= Y).
  { intros k Hk. destruct (YD k Hk) as [F E]. split; [exact F|]. rewrite sum4 in E. rewrite !real_ent in E by lia.
    assert (M2 : forall a x, Rabs a <= b -> Rabs x <= V -> Rabs (a * x) <= b * V).
    { intros a x Ha Hx. rewrite Rabs_mult. apply Rmult_le_compat; auto using Rabs_pos. }
    pose proof (M2 _ _ (proj2 (ME k 0%nat Hk ltac:(lia))) (proj2 (VE 0%nat ltac:(lia)))) as Z0.
    pose proof (M2 _ _ (proj2 (ME k 1%nat Hk ltac:(lia))) (proj2 (VE 1%nat ltac:(lia)))) as Z1.
    pose proof (M2 _ _ (proj2 (ME k 2%nat Hk ltac:(lia))) (proj2 (VE 2%nat ltac:(lia)))) as Z2.
    pose proof (M2 _ _ (proj2 (ME k 3%nat Hk ltac:(lia))) (proj2 (VE 3%nat ltac:(lia)))) as Z3.
    apply abs2 in Z0, Z1, Z2, Z3, E. unfold d in E. rewrite UV in E. unfold Y. apply Rabs_le. lra. }
  assert (NB : 1.31 * N <= bpow radix2 60).
  { apply Rle_trans with (1.31 * (98304 * bpow radix2 24)); [|cbn; lra].
    apply Rmult_le_compat_l; [lra|]. apply Rmult_le_reg_r with b; [exact P|]. rewrite Nb.
    apply Rle_trans with (98304 * bpow radix2 24 * bpow radix2 (-24)); [rewrite Rmult_assoc, <- bpow_plus; cbn; lra|].
    apply Rmult_le_compat_l; [cbn; lra|lra]. }
  assert (YU : Y <= bpow radix2 60).
  { unfold Y. apply Rle_trans with (4.0001 * bpow radix2 48); [lra|cbn; lra]. }
  destruct (mulV_index p (inverse4x4 p m) (mulV p m v) (1.31 * N) Y ltac:(lra) ltac:(unfold Y in *; lra) XB YB i Hi) as [FW EW].
  split; [exact FW|].
  pose proof (trip_real (ent4 n) (ent4 (realM m)) (fun i k => val (ent4 (inverse4x4 p m) i k)) (fun k => val (comp4 v k))
    (fun k => val (comp4 (mulV p m v) k)) N cr Y d i (fun j Hj => proj1 (IN i j Hi Hj)) Hi (fun k Hk => BN i k Hi Hk)
    (fun k Hk => proj2 (NE i k Hi Hk)) (fun k Hk => proj2 (YB k Hk)) (fun k Hk => proj2 (YD k Hk))) as TR.
  cbv beta in TR.
  assert (TE : tripErr b D * V = u24 * (2200 * g + 33000 * (g * g)) * V).
  { unfold tripErr, Rdiv. rewrite DD. fold A. fold r. unfold g. rewrite UV. ring. }
  rewrite TE.
  assert (E1 : cr * Y = 4.0001 * (u24 * (70 * g + 1900 * (g * g)) * V)).
  { unfold Y. replace (cr * (4.0001 * (b * V))) with (4.0001 * ((cr * b) * V)) by ring. rewrite CB. reflexivity. }
  assert (E2 : N * d = 16.05 * 6 * (u24 * g * V)).
  { unfold d. replace (N * (16.05 * (u24 * (b * V)))) with (16.05 * (u24 * (N * b) * V)) by ring. rewrite Nb. lra. }
  assert (E3 : 1.31 * N * Y = 1.31 * 4.0001 * 6 * (g * V)).
  { unfold Y. replace (1.31 * N * (4.0001 * (b * V))) with (1.31 * 4.0001 * ((N * b) * V)) by ring. rewrite Nb. lra. }
  rewrite E3 in EW. rewrite E1, E2 in TR.
  assert (eg : 10 * eta0 <= u24 * (g * V)).
  { apply Rle_trans with (u24 * (/ 24 * bpow radix2 (-24))).
    - change u24 with (bpow radix2 (-24)). change eta0 with (bpow radix2 (-150)). cbn. lra.
    - apply Rmult_le_compat_l; [lra|]. apply Rmult_le_compat; lra. }
  assert (0 <= u24 * (g * g) * V) by (repeat apply Rmult_le_pos; lra).
  assert (0 <= u24 * g * V) by (repeat apply Rmult_le_pos; lra).
  apply abs2 in TR, EW. apply Rabs_le. split; lra.
Qed.
