(** Chains of matrices in binary32. *)
From Coq Require Import ZArith Bool List Reals Lra Lia Psatz.
From Flocq Require Import Core.Core IEEE754.BinarySingleNaN IEEE754.Binary IEEE754.Bits.
From Verif.Model Require Import Outcome Scalar Vec Simd Lanes Quaternion Matrix.
From Verif.Spec Require Import MatErrSpec.
From Verif.Proofs Require Import OrdScalar F32Round F32Err Approx NormProofs MatErrProofs.
Import ListNotations.
Local Open Scope R_scope.

Lemma inner_rdot : forall a b, inner a b = rdot (reals a) (reals b).
Proof. induction a as [|x a IH]; intros [|y b]; try reflexivity. cbn [inner reals map rdot]. rewrite IH. reflexivity. Qed.
Lemma innerAbs_rdot : forall a b, innerAbs a b = rdot (absV (reals a)) (absV (reals b)).
Proof.
  induction a as [|x a IH]; intros [|y b]; try reflexivity. cbn [innerAbs reals map rdot absV]. rewrite IH, Rabs_mult. reflexivity.
Qed.
Notation nearL g := (Forall3 (fun w x m => Rabs (w - x) <= g * m)) (only parsing).
Lemma rdot_nn : forall r m, Forall (fun x => 0 <= x) m -> 0 <= rdot (absV r) m.
Proof.
  induction r as [|a r IH]; intros m H; [cbn; lra|]. destruct m as [|y m]; [cbn; lra|]. inversion H; subst.
  cbn [absV map rdot]. specialize (IH m H3). pose proof (Rabs_pos a). fold (absV r). nra.
Qed.
Lemma rdot_diff : forall g r w x m, nearL g w x m -> Rabs (rdot r w - rdot r x) <= g * rdot (absV r) m.
Proof.
  intros g r. induction r as [|a r IH]; intros w x m H; [cbn; rewrite Rminus_0_r, Rabs_R0; lra|].
  destruct H as [|w0 x0 m0 w x m H0 H]; [cbn; rewrite Rminus_0_r, Rabs_R0; lra|].
  cbn [rdot absV map]. fold (absV r). specialize (IH w x m H).
  replace (a * w0 + rdot r w - (a * x0 + rdot r x)) with (a * (w0 - x0) + (rdot r w - rdot r x)) by ring.
  eapply Rle_trans; [apply Rabs_triang|]. rewrite Rabs_mult.
  pose proof (Rabs_pos a). assert (Rabs a * Rabs (w0 - x0) <= Rabs a * (g * m0)) by (apply Rmult_le_compat_l; assumption). lra.
Qed.
Lemma rdot_abs : forall r x m, Forall2 (fun x m => Rabs x <= m) x m -> Rabs (rdot r x) <= rdot (absV r) m.
Proof.
  induction r as [|a r IH]; intros x m H; [cbn; rewrite Rabs_R0; lra|].
  destruct H as [|x0 m0 x m H0 H]; [cbn; rewrite Rabs_R0; lra|].
  cbn [rdot absV map]. fold (absV r). eapply Rle_trans; [apply Rabs_triang|]. rewrite Rabs_mult. specialize (IH x m H).
  pose proof (Rabs_pos a). assert (Rabs a * Rabs x0 <= Rabs a * m0) by (apply Rmult_le_compat_l; assumption). lra.
Qed.
Lemma rdot_mag : forall g r w x m, nearL g w x m -> Forall2 (fun x m => Rabs x <= m) x m ->
  rdot (absV r) (absV w) <= (1 + g) * rdot (absV r) m.
Proof.
  intros g r. induction r as [|a r IH]; intros w x m H K; [cbn; lra|].
  destruct H as [|w0 x0 m0 w x m H0 H]; [cbn; lra|]. inversion K; subst.
  cbn [rdot absV map]. fold (absV r). fold (absV w). specialize (IH w x m H ltac:(assumption)).
  assert (Rabs w0 <= (1 + g) * m0).
  { replace w0 with (x0 + (w0 - x0)) by ring. eapply Rle_trans; [apply Rabs_triang|]. lra. }
  pose proof (Rabs_pos a). assert (Rabs a * Rabs w0 <= Rabs a * ((1 + g) * m0)) by (apply Rmult_le_compat_l; assumption). lra.
Qed.

Lemma grow_ge1 : forall n, 1 <= grow n.
Proof. intros n. unfold grow. apply pow_R1_Rle. lra. Qed.
Lemma grow_S : forall n, grow (S n) = grow n + 4.01 / 16777216 * grow n.
Proof. intros n. unfold grow. cbn [pow]. lra. Qed.
Definition tiny : R := bpow radix2 (-124).
Lemma tiny_eta : 10 * bpow radix2 (-150) <= 4.01 / 16777216 * tiny.
Proof. unfold tiny. replace (bpow radix2 (-150)) with (bpow radix2 (-26) * bpow radix2 (-124)) by (rewrite <- bpow_plus; reflexivity).
  pose proof (bpow_gt_0 radix2 (-124)) as P. assert (E : bpow radix2 (-26) = / 67108864) by (cbn; lra). rewrite E. nra. Qed.
Lemma tiny_pos : 0 < tiny. Proof. apply bpow_gt_0. Qed.

Lemma nearV_real : forall g w x m, nearV g w x m -> nearL g (reals w) x m.
Proof. intros g w x m H. induction H as [|a b c l m n [_ H] _ IH]; constructor; assumption. Qed.
Lemma nearV_fin : forall g w x m, nearV g w x m -> allFin w.
Proof. intros g w x m H. induction H as [|a b c l m n [H _] _ IH]; constructor; assumption. Qed.
Lemma Forall2_nn : forall x m : list R, Forall2 (fun x m => Rabs x <= m) x m -> Forall (fun y => 0 <= y) m.
Proof. intros x m H. induction H as [|a b l m H _ IH]; constructor; [pose proof (Rabs_pos a); lra|exact IH]. Qed.

(** one more matrix *)
Lemma step_near : forall n rows w x m res, nearV (grow n - 1) w x m -> Forall2 (fun x m => Rabs x <= m) x m ->
  actionErr 4.01 res rows w ->
  nearV (grow (S n) - 1) res (act (realsM rows) x) (map (fun y => y + tiny) (act (map absV (realsM rows)) m)) /\
  Forall2 (fun x m => Rabs x <= m) (act (realsM rows) x) (map (fun y => y + tiny) (act (map absV (realsM rows)) m)).
Proof.
  intros n rows w x m res N B A. pose proof (nearV_real _ _ _ _ N) as NL.
  unfold actionErr in A. induction A as [|r row res rows (F & E) A IH]; [split; constructor|].
  destruct IH as [I J]. cbn [realsM map act]. split.
  - constructor; [|exact I]. split; [exact F|].
    rewrite inner_rdot, innerAbs_rdot in E.
    pose proof (rdot_diff _ (reals row) _ _ _ NL) as D. pose proof (rdot_mag _ (reals row) _ _ _ NL B) as M.
    pose proof (rdot_nn (reals row) m (Forall2_nn _ _ B)) as NN. pose proof tiny_eta as TE. pose proof tiny_pos as TP.
    set (s := rdot (absV (reals row)) m) in *. set (X := rdot (reals row) x) in *. set (W := rdot (reals row) (reals w)) in *.
    set (Z := rdot (absV (reals row)) (absV (reals w))) in *.
    replace (val r - X) with ((val r - W) + (W - X)) by ring. eapply Rle_trans; [apply Rabs_triang|].
    rewrite grow_S. pose proof (grow_ge1 n) as G. set (g := grow n) in *.
    assert (4.01 / 16777216 * Z <= 4.01 / 16777216 * (g * s)) by (apply Rmult_le_compat_l; lra).
    assert (0 <= (g - 1) * tiny) by (apply Rmult_le_pos; lra). assert (4.01 / 16777216 * tiny * 1 <= 4.01 / 16777216 * tiny * g) by (apply Rmult_le_compat_l; lra). lra.
  - constructor; [|exact J]. pose proof (rdot_abs (reals row) x m B). pose proof tiny_pos. lra.
Qed.
Lemma absV_self : forall v, Forall2 (fun x m => Rabs x <= m) v (absV v).
Proof. induction v as [|x v IH]; constructor; [apply Rle_refl|exact IH]. Qed.

Lemma near_self : forall l, allFin l -> nearV (grow 0 - 1) l (reals l) (absV (reals l)).
Proof.
  induction l as [|x l IH]; intros H; [constructor|]. inversion H; subst. constructor; [|apply IH; assumption].
  split; [assumption|]. rewrite Rminus_diag_eq by reflexivity. rewrite Rabs_R0. unfold grow. cbn [pow]. lra.
Qed.
Section Chain.
  Context {M V : Type}.
  Variables (rowsF : M -> list (list f32)) (lanesF : V -> list f32) (mul : M -> V -> V).
  Hypothesis Hmul : forall m v, Forall allFin (rowsF m) -> allFin (lanesF v) -> under (rowsF m) (lanesF v) ->
    actionErr 4.01 (lanesF (mul m v)) (rowsF m) (lanesF v).
  Lemma chain_near : forall ms v, Forall (fun m => Forall allFin (rowsF m)) ms -> allFin (lanesF v) ->
    tame (map (fun m => realsM (rowsF m)) ms) (reals (lanesF v)) ->
    nearV (grow (length ms) - 1) (lanesF (fold_right mul v ms)) (image (map (fun m => realsM (rowsF m)) ms) (reals (lanesF v)))
      (mag (map (fun m => realsM (rowsF m)) ms) (reals (lanesF v))) /\
    Forall2 (fun x m => Rabs x <= m) (image (map (fun m => realsM (rowsF m)) ms) (reals (lanesF v)))
      (mag (map (fun m => realsM (rowsF m)) ms) (reals (lanesF v))).
  Proof.
    induction ms as [|m ms IH]; intros v HM HV T.
    - split; [apply near_self; exact HV|apply absV_self].
    - inversion HM as [|? ? Hm HM']; subst. cbn [map tame] in T. destruct T as [T1 T2].
      destruct (IH v HM' HV T1) as [N B]. cbn [map image mag fold_right length].
      apply step_near with (w := lanesF (fold_right mul v ms)); [exact N|exact B|].
      apply Hmul; [exact Hm|eapply nearV_fin; exact N|].
      unfold under. rewrite Forall_forall. intros row Hrow. rewrite innerAbs_rdot.
      pose proof (rdot_mag _ (reals row) _ _ _ (nearV_real _ _ _ _ N) B) as Q.
      assert (C : In (rdot (absV (reals row)) (mag (map (fun m0 => realsM (rowsF m0)) ms) (reals (lanesF v))) + tiny)
         (mag (realsM (rowsF m) :: map (fun m0 => realsM (rowsF m0)) ms) (reals (lanesF v)))).
      { cbn [mag fold_right]. apply (in_map (fun x => x + bpow radix2 (-124))). unfold act.
        apply (in_map (fun r => rdot r (mag (map (fun m0 => realsM (rowsF m0)) ms) (reals (lanesF v))))).
        apply in_map. unfold realsM. apply in_map. exact Hrow. }
      rewrite Forall_forall in T2. specialize (T2 _ C). cbn [length] in T2. rewrite map_length in T2.
      pose proof (rdot_nn (reals row) _ (Forall2_nn _ _ B)) as NN. pose proof tiny_pos as TP.
      set (s := rdot (absV (reals row)) _) in *. rewrite grow_S in T2. pose proof (grow_ge1 (length ms)) as G.
      set (g := grow (length ms)) in *. assert (E : bpow radix2 120 = 1329227995784915872903807060280344576) by (cbn; lra).
      rewrite E in T2. assert (0 <= g * s) by (apply Rmult_le_pos; lra). assert (0 <= g * tiny) by (apply Rmult_le_pos; lra). lra.
  Qed.
End Chain.
Lemma innerErr_weak : forall k l d a b, innerErr k d a b -> k <= l -> innerErr l d a b.
Proof.
  intros k l d a b (F & E) H. split; [exact F|].
  assert (P : 0 <= innerAbs a b).
  { rewrite innerAbs_rdot. apply rdot_nn. rewrite Forall_forall. intros x Hx. unfold absV in Hx. apply in_map_iff in Hx.
    destruct Hx as (y & <- & _). apply Rabs_pos. }
  assert (k / 16777216 * innerAbs a b <= l / 16777216 * innerAbs a b) by (apply Rmult_le_compat_r; lra). lra.
Qed.
Lemma actionErr_weak : forall k l w rows v, actionErr k w rows v -> k <= l -> actionErr l w rows v.
Proof.
  intros k l w rows v H K. unfold actionErr in *. induction H; constructor; [|assumption]. eapply innerErr_weak; eassumption.
Qed.
Theorem chain4 : forall p ms v, Forall (fun m => Forall allFin (rowsOf4 m)) ms -> allFin (l4 v) ->
  tame (map (fun m => realsM (rowsOf4 m)) ms) (reals (l4 v)) ->
  nearV (grow (length ms) - 1) (l4 (fold_right (mulV p) v ms)) (image (map (fun m => realsM (rowsOf4 m)) ms) (reals (l4 v)))
    (mag (map (fun m => realsM (rowsOf4 m)) ms) (reals (l4 v))).
Proof. intros p ms v A B C. refine (proj1 (chain_near rowsOf4 l4 (mulV p) _ ms v A B C)). intros m w. apply mulV_err. Qed.
Theorem chain3 : forall ms v, Forall (fun m => Forall allFin (rowsOf3 m)) ms -> allFin (l3 v) ->
  tame (map (fun m => realsM (rowsOf3 m)) ms) (reals (l3 v)) ->
  nearV (grow (length ms) - 1) (l3 (fold_right mulv3 v ms)) (image (map (fun m => realsM (rowsOf3 m)) ms) (reals (l3 v)))
    (mag (map (fun m => realsM (rowsOf3 m)) ms) (reals (l3 v))).
Proof.
  intros ms v A B C. refine (proj1 (chain_near rowsOf3 l3 mulv3 _ ms v A B C)). intros m w X Y Z.
  eapply actionErr_weak; [apply mulv3_err; assumption|lra].
Qed.
(** a product of matrices is a chain on each column *)
Lemma cols_chain : forall p (ms : list (mat4 f32)) b, colsOf4 (fold_right (mulM p) b ms) = map (fun c => l4 (fold_right (mulV p) c ms)) [c0 b; c1 b; c2 b; c3 b].
Proof.
  intros p ms b. induction ms as [|m ms IH]; [reflexivity|]. cbn [fold_right]. rewrite mulM_cols.
  unfold colsOf4 in IH. cbn [map] in IH |- *. injection IH as A0 A1 A2 A3 B0 B1 B2 B3 C0 C1 C2 C3 D0 D1 D2 D3.
  assert (E : forall v w : vec4 f32, vx v = vx w -> vy v = vy w -> vz v = vz w -> vw v = vw w -> v = w)
    by (intros [] []; cbn; intros; subst; reflexivity).
  rewrite (E _ _ A0 A1 A2 A3), (E _ _ B0 B1 B2 B3), (E _ _ C0 C1 C2 C3), (E _ _ D0 D1 D2 D3). reflexivity.
Qed.
Theorem product_chain : forall p ms (b : mat4 f32), Forall (fun m => Forall allFin (rowsOf4 m)) ms -> Forall allFin (colsOf4 b) ->
  Forall (fun c => tame (map (fun m => realsM (rowsOf4 m)) ms) (reals c)) (colsOf4 b) ->
  Forall2 (fun r c => nearV (grow (length ms) - 1) r (image (map (fun m => realsM (rowsOf4 m)) ms) (reals c))
      (mag (map (fun m => realsM (rowsOf4 m)) ms) (reals c))) (colsOf4 (fold_right (mulM p) b ms)) (colsOf4 b).
Proof.
  intros p ms b A B C. rewrite cols_chain. unfold colsOf4 in *. cbn [map]. rewrite !Forall_cons_iff in B, C.
  destruct B as (B0 & B1 & B2 & B3 & _), C as (C0 & C1 & C2 & C3 & _).
  repeat (apply Forall2_cons; [apply chain4; assumption|]). apply Forall2_nil.
Qed.

(** the combined matrix of two *)
Lemma rdot_comm : forall a b, rdot a b = rdot b a.
Proof. induction a as [|x a IH]; intros [|y b]; try reflexivity. cbn [rdot]. rewrite IH. ring. Qed.
Lemma F3_iff : forall {A B C} (R : A -> B -> C -> Prop) a b c l m n, Forall3 R (a :: l) (b :: m) (c :: n) <-> R a b c /\ Forall3 R l m n.
Proof. intros A B C R a b c l m n. split; [intros H; inversion H; subst; split; assumption|intros [H K]; constructor; assumption]. Qed.
Lemma F2_iff : forall {A B} (R : A -> B -> Prop) a b l m, Forall2 R (a :: l) (b :: m) <-> R a b /\ Forall2 R l m.
Proof. intros A B R a b l m. split; [intros H; inversion H; subst; split; assumption|intros [H K]; constructor; assumption]. Qed.
Lemma row_near : forall n r row v X M, nearV (grow n - 1) row X M -> Forall2 (fun x m => Rabs x <= m) X M -> innerErr 4.01 r row v ->
  fin r /\ Rabs (val r - rdot X (reals v)) <= (grow (S n) - 1) * (rdot M (absV (reals v)) + tiny).
Proof.
  intros n r row v X M N B (F & E). split; [exact F|]. pose proof (nearV_real _ _ _ _ N) as NL.
  rewrite inner_rdot, innerAbs_rdot, (rdot_comm (reals row)), (rdot_comm (absV (reals row))) in E.
  rewrite (rdot_comm X), (rdot_comm M).
  pose proof (rdot_diff _ (reals v) _ _ _ NL) as D. pose proof (rdot_mag _ (reals v) _ _ _ NL B) as Q.
  pose proof (rdot_nn (reals v) M (Forall2_nn _ _ B)) as NN. pose proof tiny_eta as TE. pose proof tiny_pos as TP.
  set (s := rdot (absV (reals v)) M) in *. set (Y := rdot (reals v) X) in *. set (W := rdot (reals v) (reals row)) in *.
  set (Z := rdot (absV (reals v)) (absV (reals row))) in *.
  replace (val r - Y) with ((val r - W) + (W - Y)) by ring. eapply Rle_trans; [apply Rabs_triang|].
  rewrite grow_S. pose proof (grow_ge1 n) as G. set (g := grow n) in *.
  assert (4.01 / 16777216 * Z <= 4.01 / 16777216 * (g * s)) by (apply Rmult_le_compat_l; lra).
  assert (0 <= (g - 1) * tiny) by (apply Rmult_le_pos; lra). assert (4.01 / 16777216 * tiny * 1 <= 4.01 / 16777216 * tiny * g) by (apply Rmult_le_compat_l; lra). lra.
Qed.
Lemma row_under : forall n row v X M, nearV (grow n - 1) row X M -> Forall2 (fun x m => Rabs x <= m) X M ->
  grow (S n) * (rdot M (absV (reals v)) + tiny) <= bpow radix2 120 -> innerAbs row v <= limit.
Proof.
  intros n row v X M N B T2. rewrite innerAbs_rdot, rdot_comm.
  pose proof (rdot_mag _ (reals v) _ _ _ (nearV_real _ _ _ _ N) B) as Q. rewrite (rdot_comm M) in T2.
  pose proof (rdot_nn (reals v) _ (Forall2_nn _ _ B)) as NN. pose proof tiny_pos as TP.
  set (s := rdot (absV (reals v)) M) in *. rewrite grow_S in T2. pose proof (grow_ge1 n) as G.
  set (g := grow n) in *. assert (E : bpow radix2 120 = 1329227995784915872903807060280344576) by (cbn; lra).
  rewrite E in T2. assert (0 <= g * s) by (apply Rmult_le_pos; lra). assert (0 <= g * tiny) by (apply Rmult_le_pos; lra). lra.
Qed.
Lemma mulM_eq : forall p (a b : mat4 f32), mulM p a b = M4 (mulV p a (c0 b)) (mulV p a (c1 b)) (mulV p a (c2 b)) (mulV p a (c3 b)).
Proof. intros p [[ax ay az aw] [bx by_ bz bw] [cx cy cz cw] [dx dy dz dw]] [[] [] [] []]. destruct p; reflexivity. Qed.
Lemma entry_near : forall r row c, allFin row -> innerErr 4.01 r row c ->
  fin r /\ Rabs (val r - rdot (reals row) (reals c)) <= (grow 1 - 1) * (rdot (absV (reals row)) (absV (reals c)) + tiny).
Proof. intros r row c F E. eapply row_near; [apply near_self; exact F|apply absV_self|exact E]. Qed.
Lemma entry_mag : forall a b, Rabs (rdot a b) <= rdot (absV a) (absV b) + tiny.
Proof. intros a b. pose proof (rdot_abs a b (absV b) (absV_self b)). pose proof tiny_pos. lra. Qed.
Lemma row4_near : forall r0 r1 r2 r3 row d0 d1 d2 d3, allFin row -> innerErr 4.01 r0 row d0 -> innerErr 4.01 r1 row d1 ->
  innerErr 4.01 r2 row d2 -> innerErr 4.01 r3 row d3 ->
  let X := map (rdot (reals row)) (map reals [d0; d1; d2; d3]) in
  let M := map (fun c => rdot (absV (reals row)) (absV c) + bpow radix2 (-124)) (map reals [d0; d1; d2; d3]) in
  nearV (grow 1 - 1) [r0; r1; r2; r3] X M /\ Forall2 (fun x m => Rabs x <= m) X M.
Proof.
  intros r0 r1 r2 r3 row d0 d1 d2 d3 F E0 E1 E2 E3 X M. split.
  - repeat (apply F3_cons; [apply entry_near; assumption|]). apply F3_nil.
  - repeat (apply Forall2_cons; [apply entry_mag|]). apply Forall2_nil.
Qed.
Lemma reassoc : forall r c0 c1 c2 c3 v : vec4 R,
  rdot (map (rdot (l4 r)) [l4 c0; l4 c1; l4 c2; l4 c3]) (l4 v) =
  rdot (l4 r) (act (rowsOf4 (M4 c0 c1 c2 c3)) (l4 v)).
Proof. intros [] [] [] [] [] []. cbn. ring. Qed.
Theorem compose_near : forall p (a b : mat4 f32) v, Forall allFin (rowsOf4 a) -> Forall allFin (colsOf4 b) -> allFin (l4 v) ->
  Forall (Forall (fun x => grow 2 * x <= bpow radix2 120)) (magP (realsM (rowsOf4 a)) (realsM (colsOf4 b))) ->
  Forall (fun x => grow 2 * x <= bpow radix2 120)
    (map (fun x => x + bpow radix2 (-124)) (act (magP (realsM (rowsOf4 a)) (realsM (colsOf4 b))) (absV (reals (l4 v))))) ->
  nearV (grow 2 - 1) (l4 (mulV p (mulM p a b) v)) (image [realsM (rowsOf4 a); realsM (rowsOf4 b)] (reals (l4 v)))
    (map (fun x => x + bpow radix2 (-124)) (act (magP (realsM (rowsOf4 a)) (realsM (colsOf4 b))) (absV (reals (l4 v))))).
Proof.
  intros p a b v A B V T1 T2.
  assert (K : forall c, In c [c0 b; c1 b; c2 b; c3 b] -> actionErr 4.01 (l4 (mulV p a c)) (rowsOf4 a) (l4 c)).
  { intros c Hc.
    assert (Hc' : In (l4 c) (colsOf4 b)) by (apply (in_map (fun c : vec4 f32 => l4 c) [c0 b; c1 b; c2 b; c3 b]); exact Hc).
    apply mulV_err; [exact A|rewrite Forall_forall in B; apply B; exact Hc'|].
    unfold under. rewrite Forall_forall. intros row Hrow.
    eapply (row_under 0 row (l4 c) (reals row) (absV (reals row))); [apply near_self; rewrite Forall_forall in A; apply A; exact Hrow|apply absV_self|].
    rewrite Forall_forall in T1.
    assert (I : In (map (fun c => rdot (absV (reals row)) (absV c) + bpow radix2 (-124)) (realsM (colsOf4 b))) (magP (realsM (rowsOf4 a)) (realsM (colsOf4 b)))).
    { unfold magP. apply (in_map (fun r => map (fun c => rdot (absV r) (absV c) + bpow radix2 (-124)) (realsM (colsOf4 b)))).
      unfold realsM. apply in_map. exact Hrow. }
    specialize (T1 _ I). rewrite Forall_forall in T1.
    specialize (T1 (rdot (absV (reals row)) (absV (reals (l4 c))) + tiny)). eapply Rle_trans; [|apply T1].
    - apply Rmult_le_compat_r.
      + pose proof (rdot_nn (reals row) (absV (reals (l4 c))) (Forall2_nn _ _ (absV_self _))). pose proof tiny_pos. lra.
      + rewrite (grow_S 1). pose proof (grow_ge1 1). lra.
    - apply (in_map (fun c => rdot (absV (reals row)) (absV c) + bpow radix2 (-124)) (realsM (colsOf4 b)) (reals (l4 c))).
      unfold realsM. apply in_map. exact Hc'. }
  pose proof (K (c0 b) ltac:(cbn; tauto)) as K0. pose proof (K (c1 b) ltac:(cbn; tauto)) as K1.
  pose proof (K (c2 b) ltac:(cbn; tauto)) as K2. pose proof (K (c3 b) ltac:(cbn; tauto)) as K3. clear K.
  rewrite mulM_eq. unfold actionErr in *. set (rows := rowsOf4 a) in *.
  change (l4 (mulV p a (c0 b))) with [vx (mulV p a (c0 b)); vy (mulV p a (c0 b)); vz (mulV p a (c0 b)); vw (mulV p a (c0 b))] in K0.
  change (l4 (mulV p a (c1 b))) with [vx (mulV p a (c1 b)); vy (mulV p a (c1 b)); vz (mulV p a (c1 b)); vw (mulV p a (c1 b))] in K1.
  change (l4 (mulV p a (c2 b))) with [vx (mulV p a (c2 b)); vy (mulV p a (c2 b)); vz (mulV p a (c2 b)); vw (mulV p a (c2 b))] in K2.
  change (l4 (mulV p a (c3 b))) with [vx (mulV p a (c3 b)); vy (mulV p a (c3 b)); vz (mulV p a (c3 b)); vw (mulV p a (c3 b))] in K3.
  set (m0 := mulV p a (c0 b)) in *. set (m1 := mulV p a (c1 b)) in *. set (m2 := mulV p a (c2 b)) in *. set (m3 := mulV p a (c3 b)) in *.
  clearbody m0 m1 m2 m3.
  assert (R : rows = [nth 0 rows []; nth 1 rows []; nth 2 rows []; nth 3 rows []]) by reflexivity.
  rewrite R in A, K0, K1, K2, K3. rewrite !F2_iff in K0, K1, K2, K3. rewrite !Forall_cons_iff in A.
  destruct A as (A0 & A1 & A2 & A3 & _), K0 as (K00 & K01 & K02 & K03 & _), K1 as (K10 & K11 & K12 & K13 & _),
    K2 as (K20 & K21 & K22 & K23 & _), K3 as (K30 & K31 & K32 & K33 & _).
  destruct (row4_near _ _ _ _ _ _ _ _ _ A0 K00 K10 K20 K30) as [N0 B0].
  destruct (row4_near _ _ _ _ _ _ _ _ _ A1 K01 K11 K21 K31) as [N1 B1].
  destruct (row4_near _ _ _ _ _ _ _ _ _ A2 K02 K12 K22 K32) as [N2 B2].
  destruct (row4_near _ _ _ _ _ _ _ _ _ A3 K03 K13 K23 K33) as [N3 B3].
  clear K00 K01 K02 K03 K10 K11 K12 K13 K20 K21 K22 K23 K30 K31 K32 K33.
  rewrite R in T1, T2 |- *. clear T1.
  change (realsM [nth 0 rows []; nth 1 rows []; nth 2 rows []; nth 3 rows []]) with
    [reals (nth 0 rows []); reals (nth 1 rows []); reals (nth 2 rows []); reals (nth 3 rows [])] in T2 |- *.
  unfold magP, act in T2 |- *. cbn [map image fold_right] in T2 |- *.
  rewrite !Forall_cons_iff in T2. destruct T2 as (U0 & U1 & U2 & U3 & _).
  assert (E : actionErr 4.01 (l4 (mulV p (M4 m0 m1 m2 m3) v)) (rowsOf4 (M4 m0 m1 m2 m3)) (l4 v)).
  { apply mulV_err; [|exact V|].
    - repeat (apply Forall_cons; [eapply nearV_fin; eassumption|]). apply Forall_nil.
    - repeat (apply Forall_cons; [eapply row_under; eassumption|]). apply Forall_nil. }
  unfold actionErr in E. set (W := mulV p (M4 m0 m1 m2 m3) v) in *.
  change (l4 W) with [vx W; vy W; vz W; vw W] in E |- *. unfold rowsOf4 in E. cbn [c0 c1 c2 c3] in E.
  rewrite !F2_iff in E. destruct E as (E0 & E1 & E2 & E3 & _).
  assert (Q : forall r row X M t, nearV (grow 1 - 1) row X M -> Forall2 (fun x m => Rabs x <= m) X M -> innerErr 4.01 r row (l4 v) ->
     rdot X (reals (l4 v)) = t -> fin r /\ Rabs (val r - t) <= (grow 2 - 1) * (rdot M (absV (reals (l4 v))) + tiny))
    by (intros r row X M t H H0 H1 <-; eapply row_near; eassumption).
  assert (RA : forall (x y z w : f32), rdot (map (rdot (reals [x; y; z; w])) (map reals (colsOf4 b))) (reals (l4 v)) =
     rdot (reals [x; y; z; w]) (act (realsM (rowsOf4 b)) (reals (l4 v)))).
  { intros x y z w. exact (reassoc (V4 (val x) (val y) (val z) (val w)) (map_4 (fun x : f32 => val x) (c0 b)) (map_4 (fun x : f32 => val x) (c1 b))
      (map_4 (fun x : f32 => val x) (c2 b)) (map_4 (fun x : f32 => val x) (c3 b)) (map_4 (fun x : f32 => val x) v)). }
  unfold nearV. apply F3_cons; [eapply Q; [exact N0|exact B0|exact E0|apply RA]|].
  apply F3_cons; [eapply Q; [exact N1|exact B1|exact E1|apply RA]|].
  apply F3_cons; [eapply Q; [exact N2|exact B2|exact E2|apply RA]|].
  apply F3_cons; [eapply Q; [exact N3|exact B3|exact E3|apply RA]|]. apply F3_nil.
Qed.

(** a concrete chain: a quarter turn with a translation, applied twice *)
Definition turn : mat4 f32 :=
  rows4 (slit 0 0) (slit (-1) 0) (slit 0 0) (slit 3 0) (slit 1 0) (slit 0 0) (slit 0 0) (slit (-2) 0)
        (slit 0 0) (slit 0 0) (slit 1 0) (slit 5 0) (slit 0 0) (slit 0 0) (slit 0 0) (slit 1 0).
Definition place : vec4 f32 := V4 (slit 1 0) (slit 2 0) (slit (-3) 0) (slit 1 0).
Lemma turn_rows : Forall allFin (rowsOf4 turn) /\ Forall allFin (colsOf4 turn) /\ allFin (l4 place) /\
  realsM (rowsOf4 turn) = map (map IZR) [[0; -1; 0; 3]; [1; 0; 0; -2]; [0; 0; 1; 5]; [0; 0; 0; 1]]%Z /\
  realsM (colsOf4 turn) = map (map IZR) [[0; 1; 0; 0]; [-1; 0; 0; 0]; [0; 0; 1; 0]; [3; -2; 5; 1]]%Z /\
  reals (l4 place) = map IZR [1; 2; -3; 1]%Z.
Proof.
  assert (L : forall z, (Z.abs z < 2 ^ 24)%Z -> fin (slit z 0 : f32) /\ val (slit z 0 : f32) = IZR z).
  { intros z Hz. exact (lit_Z z Hz). }
  split; [|split; [|split; [|split; [|split]]]].
  1-2: repeat (apply Forall_cons; [repeat (apply Forall_cons; [apply L; lia|]); apply Forall_nil|]); apply Forall_nil.
  1: repeat (apply Forall_cons; [apply L; lia|]); apply Forall_nil.
  all: cbv [rowsOf4 colsOf4 turn place rows4 realsM reals l4 map vx vy vz vw c0 c1 c2 c3]; rewrite !(fun z H => proj2 (L z H)) by lia; reflexivity.
Qed.
Lemma turn_tame : Forall (fun m => Forall allFin (rowsOf4 m)) [turn; turn] /\ allFin (l4 place) /\
  tame (map (fun m => realsM (rowsOf4 m)) [turn; turn]) (reals (l4 place)) /\
  Forall (Forall (fun x => grow 2 * x <= bpow radix2 120)) (magP (realsM (rowsOf4 turn)) (realsM (colsOf4 turn))) /\
  Forall (fun x => grow 2 * x <= bpow radix2 120)
    (map (fun x => x + bpow radix2 (-124)) (act (magP (realsM (rowsOf4 turn)) (realsM (colsOf4 turn))) (absV (reals (l4 place))))).
Proof.
  destruct turn_rows as (A & A' & B & C & C' & D). split; [repeat constructor; exact A|]. split; [exact B|].
  cbn [map]. rewrite C, C', D. assert (T : bpow radix2 (-124) <= 1) by (cbn; lra). pose proof (bpow_gt_0 radix2 (-124)) as TP.
  assert (E : bpow radix2 120 = 1329227995784915872903807060280344576) by (cbn; lra).
  unfold tame, mag, magP, act, absV. cbn [map fold_right rdot length]. rewrite E. set (t := bpow radix2 (-124)) in *.
  rewrite !Rabs_Zabs. cbn [Z.abs]. unfold grow. cbn [pow].
  repeat split; repeat (apply Forall_cons; [try lra; try (repeat (apply Forall_cons; [lra|]); apply Forall_nil)|]); apply Forall_nil.
Qed.
Lemma turn_image : image (map (fun m => realsM (rowsOf4 m)) [turn; turn]) (reals (l4 place)) = map IZR [4; -1; 7; 1]%Z.
Proof.
  destruct turn_rows as (_ & _ & _ & C & _ & D). cbn [map]. rewrite C, D. unfold image, act. cbn [map fold_right rdot].
  repeat (apply f_equal2; [lra|]). reflexivity.
Qed.
