(** Matrix products in binary32. *)
From Coq Require Import ZArith Bool List Reals Lra Lia Psatz.
From Flocq Require Import Core.Core IEEE754.BinarySingleNaN IEEE754.Binary IEEE754.Bits.
From Verif.Model Require Import Outcome Scalar Vec Simd Lanes Quaternion Matrix.
From Verif.Spec Require Import MatErrSpec.
From Verif.Proofs Require Import OrdScalar F32Round F32Err Approx ExpProofs ColorProofs NormProofs.
Import ListNotations.
Local Open Scope R_scope.

(** multiply-add, fused or not *)
Lemma eb_fma : forall p (a b z : f32) Z S e, fin a -> fin b -> eb z Z S e ->
  Rabs (val a * val b) * 2 + S + e <= hugeR ->
  eb (simdfma p a b z) (Z + val a * val b) (S + Rabs (val a * val b))
    (e + (u24 * Rabs (val a * val b) + eta0) + (u24 * (S + Rabs (val a * val b) + e + (u24 * Rabs (val a * val b) + eta0)) + eta0)).
Proof.
  intros p a b z Z S e A B (Fz & Ez & Mz) H. set (P := Rabs (val a * val b)) in *.
  pose proof (Rabs_pos (val a * val b)) as PP. fold P in PP. pose proof u24_val as UV. pose proof eta0_small as ES. pose proof eta0_pos as EP.
  assert (G : forall d, Rabs d <= u24 * P + eta0 -> fin (simdfma p a b z) -> val (simdfma p a b z) = rnd (val z + (val a * val b + d)) ->
    eb (simdfma p a b z) (Z + val a * val b) (S + P)
    (e + (u24 * P + eta0) + (u24 * (S + P + e + (u24 * P + eta0)) + eta0))).
  { intros d D F V. split; [exact F|]. assert (K : Rabs (val a * val b) <= P) by apply Rle_refl.
    apply abs2 in D, Ez, Mz, K. split; [|apply Rabs_le; lra]. rewrite V.
    assert (BB : Rabs (val z + (val a * val b + d)) <= S + P + e + (u24 * P + eta0)) by (apply Rabs_le; lra).
    pose proof (rnd_err (val z + (val a * val b + d))) as R.
    assert (u24 * Rabs (val z + (val a * val b + d)) <= u24 * (S + P + e + (u24 * P + eta0)))
      by (apply Rmult_le_compat_l; [left; apply u24_pos|exact BB]).
    apply abs2 in R. apply Rabs_le. lra. }
  assert (K : Rabs (val a * val b) <= P) by apply Rle_refl. pose proof K as K'. apply abs2 in K'.
  pose proof Ez as Ez'. pose proof Mz as Mz'. apply abs2 in Ez', Mz'.
  assert (FM : sfma a b z = simdfma p a b z -> eb (simdfma p a b z) (Z + val a * val b) (S + P)
    (e + (u24 * P + eta0) + (u24 * (S + P + e + (u24 * P + eta0)) + eta0))).
  { intros E. destruct (fma_small a b z A B Fz) as [F V]; [apply small_num, Rabs_le; lra|].
    rewrite E in F, V. apply (G 0); [rewrite Rabs_R0; rewrite UV; lra|exact F|rewrite V; f_equal; ring]. }
  assert (PM : (z + a * b)%sc = simdfma p a b z -> eb (simdfma p a b z) (Z + val a * val b) (S + P)
    (e + (u24 * P + eta0) + (u24 * (S + P + e + (u24 * P + eta0)) + eta0))).
  { intros E. destruct (mul_small a b A B) as [F V]; [apply small_num; lra|].
    pose proof (rnd_err (val a * val b)) as R. fold P in R. pose proof R as R'. apply abs2 in R'.
    destruct (add_small z (a * b)%sc Fz F) as [F' V']; [rewrite V; apply small_num, Rabs_le; rewrite UV in R'; lra|].
    rewrite E in F', V'. apply (G (rnd (val a * val b) - val a * val b)); [exact R|exact F'|].
    rewrite V', V. f_equal. ring. }
  destruct p; first [apply FM; reflexivity | apply PM; reflexivity].
Qed.

Section Sums.
  Variable p : path.
  Variables a0 a1 a2 a3 b0 b1 b2 b3 : f32.
  Hypothesis Fa0 : fin a0. Hypothesis Fa1 : fin a1. Hypothesis Fa2 : fin a2. Hypothesis Fa3 : fin a3.
  Hypothesis Fb0 : fin b0. Hypothesis Fb1 : fin b1. Hypothesis Fb2 : fin b2. Hypothesis Fb3 : fin b3.
  Ltac start3 := pose proof eta0_small as ES; pose proof eta0_pos as EP; pose proof u24_val as UV;
    pose proof (Rabs_pos (val a0 * val b0)) as P0; pose proof (Rabs_pos (val a1 * val b1)) as P1; cbn [innerAbs] in *;
    pose proof (Rabs_pos (val a2 * val b2)) as P2.
  Lemma fdot3_eb : innerAbs [a0; a1; a2] [b0; b1; b2] <= hugeR / 4 ->
    innerErr 3.01 (simdfma p a2 b2 (simdfma p a1 b1 (a0 * b0)%sc)) [a0; a1; a2] [b0; b1; b2].
  Proof.
    intros H. start3. pose proof (eb_mul a0 b0 Fa0 Fb0 ltac:(lra)) as M0. rewrite UV in *.
    pose proof (eb_fma p a1 b1 _ _ _ _ Fa1 Fb1 M0 ltac:(lra)) as A. rewrite UV in A.
    pose proof (eb_fma p a2 b2 _ _ _ _ Fa2 Fb2 A ltac:(lra)) as B. rewrite UV in B.
    eapply within_of; [eapply eb_weak; [eapply eb_eq; [exact B|cbn [inner]; ring]|cbn [innerAbs]; lra|apply Rle_refl]|cbn [innerAbs]; lra].
  Qed.
  Lemma fdot4_eb : innerAbs [a0; a1; a2; a3] [b0; b1; b2; b3] <= hugeR / 4 ->
    innerErr 4.01 (simdfma p a3 b3 (simdfma p a2 b2 (simdfma p a1 b1 (a0 * b0)%sc))) [a0; a1; a2; a3] [b0; b1; b2; b3].
  Proof.
    intros H. start3. pose proof (Rabs_pos (val a3 * val b3)) as P3.
    pose proof (eb_mul a0 b0 Fa0 Fb0 ltac:(lra)) as M0. rewrite UV in *.
    pose proof (eb_fma p a1 b1 _ _ _ _ Fa1 Fb1 M0 ltac:(lra)) as A. rewrite UV in A.
    pose proof (eb_fma p a2 b2 _ _ _ _ Fa2 Fb2 A ltac:(lra)) as B. rewrite UV in B.
    pose proof (eb_fma p a3 b3 _ _ _ _ Fa3 Fb3 B ltac:(lra)) as C. rewrite UV in C.
    eapply within_of; [eapply eb_weak; [eapply eb_eq; [exact C|cbn [inner]; ring]|cbn [innerAbs]; lra|apply Rle_refl]|cbn [innerAbs]; lra].
  Qed.
End Sums.

(** one product of a matrix and a vector *)
Ltac rows4 A H := unfold l2, l3, l4, l43 in *; unfold rowsOf2, rowsOf3, rowsOf4, rowsOf43 in A, H; rewrite !Forall_cons_iff in A, H;
  repeat match goal with K : _ /\ _ |- _ => destruct K end; unfold allFin in *; rewrite ?Forall_cons_iff in *;
  repeat match goal with K : _ /\ _ |- _ => destruct K end.
Ltac lanes := unfold actionErr, rowsOf2, rowsOf3, rowsOf4, rowsOf43; repeat (apply Forall2_cons; [|]); [..|apply Forall2_nil].
Definition under (rows : list (list f32)) (v : list f32) : Prop := Forall (fun row => innerAbs row v <= limit) rows.
Lemma mulv2_err : forall (m : mat2 f32) v, Forall allFin (rowsOf2 m) -> allFin (l2 v) -> under (rowsOf2 m) (l2 v) ->
  actionErr 2.01 (l2 (mulv2 m v)) (rowsOf2 m) (l2 v).
Proof.
  intros [[ax ay] [bx by_]] [x y] A V H. unfold under in H. fins V. rows4 A H. cbn [a0 a1 x2 y2] in *.
  lanes; apply dot2_eb; try assumption; cbn [a0 a1 x2 y2 b0 b1 b2 x3 y3 z3 c0 c1 c2 c3 vx vy vz vw]; lra.
Qed.
Lemma mulv3_err : forall (m : mat3 f32) v, Forall allFin (rowsOf3 m) -> allFin (l3 v) -> under (rowsOf3 m) (l3 v) ->
  actionErr 3.01 (l3 (mulv3 m v)) (rowsOf3 m) (l3 v).
Proof.
  intros [[ax ay az] [bx by_ bz] [cx cy cz]] [x y z] A V H. unfold under in H. fins V. rows4 A H. cbn [b0 b1 b2 x3 y3 z3] in *.
  lanes; apply dot3_eb; try assumption; cbn [a0 a1 x2 y2 b0 b1 b2 x3 y3 z3 c0 c1 c2 c3 vx vy vz vw]; lra.
Qed.
Lemma mulv4_err : forall (m : mat4 f32) v, Forall allFin (rowsOf4 m) -> allFin (l4 v) -> under (rowsOf4 m) (l4 v) ->
  actionErr 4.01 (l4 (mulv4 m v)) (rowsOf4 m) (l4 v).
Proof.
  intros [[ax ay az aw] [bx by_ bz bw] [cx cy cz cw] [dx dy dz dw]] [x y z w] A V H. unfold under in H. fins V. rows4 A H.
  cbn [c0 c1 c2 c3 vx vy vz vw] in *. lanes; apply dot4_eb; try assumption; cbn [a0 a1 x2 y2 b0 b1 b2 x3 y3 z3 c0 c1 c2 c3 vx vy vz vw]; lra.
Qed.
Lemma simdCol_err : forall p (m : mat4 f32) v, Forall allFin (rowsOf4 m) -> allFin (l4 v) -> under (rowsOf4 m) (l4 v) ->
  actionErr 4.01 (l4 (simdCol p m v)) (rowsOf4 m) (l4 v).
Proof.
  intros p [[ax ay az aw] [bx by_ bz bw] [cx cy cz cw] [dx dy dz dw]] [x y z w] A V H. unfold under in H. fins V. rows4 A H.
  cbn [c0 c1 c2 c3 vx vy vz vw] in *. lanes; apply fdot4_eb; try assumption; cbn [a0 a1 x2 y2 b0 b1 b2 x3 y3 z3 c0 c1 c2 c3 vx vy vz vw]; lra.
Qed.
Lemma mulV_err : forall p (m : mat4 f32) v, Forall allFin (rowsOf4 m) -> allFin (l4 v) -> under (rowsOf4 m) (l4 v) ->
  actionErr 4.01 (l4 (mulV p m v)) (rowsOf4 m) (l4 v).
Proof. intros p m v A V H. destruct p; [apply (simdCol_err SSE2)|apply (simdCol_err SSE41)|apply (simdCol_err AVX2)|apply (simdCol_err NEON)|apply mulv4_err]; assumption. Qed.
Lemma simdCol3_err : forall p (m : mat4 f32) v, Forall allFin (rowsOf43 m) -> allFin (l43 v) -> under (rowsOf43 m) (l43 v) ->
  actionErr 3.01 (l43 (simdCol3 p m v)) (rowsOf43 m) (l43 v).
Proof.
  intros p [[ax ay az aw] [bx by_ bz bw] [cx cy cz cw] [dx dy dz dw]] [x y z w] A V H. unfold under in H. fins V. rows4 A H.
  cbn [c0 c1 c2 c3 vx vy vz vw] in *. lanes; apply fdot3_eb; try assumption; cbn [a0 a1 x2 y2 b0 b1 b2 x3 y3 z3 c0 c1 c2 c3 vx vy vz vw]; lra.
Qed.
Lemma rows43 : forall m : mat4 f32, rowsOf3 (to3x3 m) = rowsOf43 m.
Proof. reflexivity. Qed.
Lemma multiply3x3v_err : forall p (m : mat4 f32) v, Forall allFin (rowsOf43 m) -> allFin (l43 v) -> under (rowsOf43 m) (l43 v) ->
  actionErr 3.01 (l43 (multiply3x3v p m v)) (rowsOf43 m) (l43 v).
Proof.
  intros p m v A V H.
  assert (G : actionErr 3.01 (l3 (mulv3 (to3x3 m) (xyz v))) (rowsOf43 m) (l43 v)) by (apply (mulv3_err (to3x3 m) (xyz v)); assumption).
  destruct p; [exact (simdCol3_err SSE2 m v A V H)|exact (simdCol3_err SSE41 m v A V H)|exact (simdCol3_err AVX2 m v A V H)|exact (simdCol3_err NEON m v A V H)|exact G].
Qed.
(** matrix products are column by column *)
Lemma mulM_cols : forall p (a b : mat4 f32), colsOf4 (mulM p a b) = map (fun c => l4 (mulV p a c)) [c0 b; c1 b; c2 b; c3 b].
Proof. intros p [[ax ay az aw] [bx by_ bz bw] [cx cy cz cw] [dx dy dz dw]] [[] [] [] []]. destruct p; reflexivity. Qed.
Lemma mulm3_cols : forall (a b : mat3 f32), colsOf3 (mulm3 a b) = map (fun c => l3 (mulv3 a c)) [b0 b; b1 b; b2 b].
Proof. intros [[ax ay az] [bx by_ bz] [cx cy cz]] [[] [] []]. reflexivity. Qed.
Lemma mulm2_cols : forall (a b : mat2 f32), colsOf2 (mulm2 a b) = map (fun c => l2 (mulv2 a c)) [a0 b; a1 b].
Proof. intros [[ax ay] [bx by_]] [[] []]. reflexivity. Qed.
Lemma multiply3x3_cols : forall p (a b : mat4 f32), colsOf43 (multiply3x3 p a b) = map (fun c => l43 (multiply3x3v p a c)) [c0 b; c1 b; c2 b].
Proof. intros p [[ax ay az aw] [bx by_ bz bw] [cx cy cz cw] [dx dy dz dw]] [[] [] [] []]. destruct p; reflexivity. Qed.
Lemma prod_of_cols : forall {V} k (toL : V -> list f32) (f : V -> V) rows cols,
  (forall c, In c cols -> actionErr k (toL (f c)) rows (toL c)) ->
  productErr k (map (fun c => toL (f c)) cols) rows (map toL cols).
Proof.
  intros V k toL f rows cols H. unfold productErr. induction cols as [|c cols IH]; [constructor|].
  cbn [map]. constructor; [apply H; left; reflexivity|apply IH; intros d D; apply H; right; exact D].
Qed.

(** entries of magnitude at most 2^60 keep every sum below the limit *)
Lemma mild_innerAbs : forall a b, mild a -> mild b -> innerAbs a b <= INR (length a) * 1329227995784915872903807060280344576.
Proof.
  induction a as [|x a IH]; intros b [Fa Ba] [Fb Bb]; cbn [innerAbs length]; [rewrite Rmult_0_l; lra|].
  rewrite S_INR. pose proof (pos_INR (length a)) as PI.
  destruct b as [|y b]; [nra|].
  inversion Fa; inversion Ba; inversion Fb; inversion Bb; subst.
  assert (E : bpow radix2 60 = 1152921504606846976) by (cbn; lra). rewrite E in *.
  assert (innerAbs a b <= INR (length a) * 1329227995784915872903807060280344576) by (apply IH; split; assumption).
  rewrite Rabs_mult. pose proof (Rabs_pos (val x)). pose proof (Rabs_pos (val y)).
  assert (Rabs (val x) * Rabs (val y) <= 1152921504606846976 * 1152921504606846976) by (apply Rmult_le_compat; assumption). lra.
Qed.
Lemma mild_under : forall rows v, mildM rows -> mild v -> Forall (fun r => (length r <= 4)%nat) rows -> under rows v.
Proof.
  intros rows v A V L. unfold under, mildM in *. rewrite Forall_forall in *. intros r Hr.
  pose proof (mild_innerAbs r v (A r Hr) V) as B. specialize (L r Hr). apply le_INR in L. cbn in L. 
  pose proof (pos_INR (length r)). nra.
Qed.
Lemma mildM_fin : forall rows, mildM rows -> Forall allFin rows.
Proof. intros rows H. eapply Forall_impl; [|exact H]. intros r [A _]. exact A. Qed.
Ltac lens := repeat (apply Forall_cons; [cbn; lia|]); apply Forall_nil.
Theorem action_near : forall p,
  (forall (m : mat2 f32) v, mildM (rowsOf2 m) -> mild (l2 v) -> actionErr 2.01 (l2 (mulv2 m v)) (rowsOf2 m) (l2 v)) /\
  (forall (m : mat3 f32) v, mildM (rowsOf3 m) -> mild (l3 v) -> actionErr 3.01 (l3 (mulv3 m v)) (rowsOf3 m) (l3 v)) /\
  (forall (m : mat4 f32) v, mildM (rowsOf4 m) -> mild (l4 v) -> actionErr 4.01 (l4 (mulv4 m v)) (rowsOf4 m) (l4 v)) /\
  (forall (m : mat4 f32) v, mildM (rowsOf4 m) -> mild (l4 v) -> actionErr 4.01 (l4 (mulV p m v)) (rowsOf4 m) (l4 v)) /\
  (forall (m : mat4 f32) v, mildM (rowsOf43 m) -> mild (l43 v) -> actionErr 3.01 (l43 (multiply3x3v p m v)) (rowsOf43 m) (l43 v)).
Proof.
  intros p. repeat split; intros m v A V.
  - apply mulv2_err; [apply mildM_fin; exact A|apply V|apply mild_under; [exact A|exact V|lens]].
  - apply mulv3_err; [apply mildM_fin; exact A|apply V|apply mild_under; [exact A|exact V|lens]].
  - apply mulv4_err; [apply mildM_fin; exact A|apply V|apply mild_under; [exact A|exact V|lens]].
  - apply mulV_err; [apply mildM_fin; exact A|apply V|apply mild_under; [exact A|exact V|lens]].
  - apply multiply3x3v_err; [apply mildM_fin; exact A|apply V|apply mild_under; [exact A|exact V|lens]].
Qed.
Theorem product_near : forall p,
  (forall a b : mat2 f32, mildM (rowsOf2 a) -> mildM (colsOf2 b) -> productErr 2.01 (colsOf2 (mulm2 a b)) (rowsOf2 a) (colsOf2 b)) /\
  (forall a b : mat3 f32, mildM (rowsOf3 a) -> mildM (colsOf3 b) -> productErr 3.01 (colsOf3 (mulm3 a b)) (rowsOf3 a) (colsOf3 b)) /\
  (forall a b : mat4 f32, mildM (rowsOf4 a) -> mildM (colsOf4 b) -> productErr 4.01 (colsOf4 (mulm4 a b)) (rowsOf4 a) (colsOf4 b)) /\
  (forall a b : mat4 f32, mildM (rowsOf4 a) -> mildM (colsOf4 b) -> productErr 4.01 (colsOf4 (mulM p a b)) (rowsOf4 a) (colsOf4 b)) /\
  (forall a b : mat4 f32, mildM (rowsOf43 a) -> mildM (colsOf43 b) -> productErr 3.01 (colsOf43 (multiply3x3 p a b)) (rowsOf43 a) (colsOf43 b)).
Proof.
  intros p. destruct (action_near p) as (A2 & A3 & A4 & AV & A43).
  assert (P4 : forall q (a b : mat4 f32), mildM (rowsOf4 a) -> mildM (colsOf4 b) -> productErr 4.01 (colsOf4 (mulM q a b)) (rowsOf4 a) (colsOf4 b)).
  { intros q a b A B. rewrite mulM_cols.
    change (colsOf4 b) with (map (fun c : vec4 f32 => l4 c) [c0 b; c1 b; c2 b; c3 b]) in *. apply prod_of_cols. intros c C.
    destruct (action_near q) as (_ & _ & _ & Q & _). apply Q; [exact A|].
    unfold mildM in B. rewrite Forall_forall in B. apply B. apply in_map with (f := fun c : vec4 f32 => l4 c). exact C. }
  split; [|split; [|split; [|split]]]; intros a b A B.
  - rewrite mulm2_cols. change (colsOf2 b) with (map (fun c : vec2 f32 => l2 c) [a0 b; a1 b]) in *. apply prod_of_cols. intros c C.
    apply A2; [exact A|]. unfold mildM in B. rewrite Forall_forall in B. apply B. apply in_map with (f := fun c : vec2 f32 => l2 c). exact C.
  - rewrite mulm3_cols. change (colsOf3 b) with (map (fun c : vec3 f32 => l3 c) [b0 b; b1 b; b2 b]) in *. apply prod_of_cols. intros c C.
    apply A3; [exact A|]. unfold mildM in B. rewrite Forall_forall in B. apply B. apply in_map with (f := fun c : vec3 f32 => l3 c). exact C.
  - exact (P4 GEN a b A B).
  - exact (P4 p a b A B).
  - rewrite multiply3x3_cols. change (colsOf43 b) with (map (fun c : vec4 f32 => l43 c) [c0 b; c1 b; c2 b]) in *. apply prod_of_cols. intros c C.
    apply A43; [exact A|]. unfold mildM in B. rewrite Forall_forall in B. apply B. apply in_map with (f := fun c : vec4 f32 => l43 c). exact C.
Qed.
