(** The split-plane search returns the cheapest candidate plane. *)
From Coq Require Import ZArith List Lia Bool Reals Lra Permutation.
From Flocq Require Import Core.Core IEEE754.BinarySingleNaN IEEE754.Binary IEEE754.Bits.
From Verif.Model Require Import Outcome Scalar Vec Simd Aabb Packed Bvh BvhSplit.
From Verif.Spec Require Import BvhSpec SahSpec.
From Verif.Proofs Require Import OrdScalar ArrayLemmas.
Import ListNotations.
Local Open Scope Z_scope.

Lemma slt_num : forall a b : f32, slt a b = true -> num a /\ num b.
Proof.
  intros a b H. cbn in *. unfold b32_cmp_is, b32_compare in H.
  destruct (is_nan 24 128 a) eqn:Ea, (is_nan 24 128 b) eqn:Eb; auto;
    destruct a as [?|?|? ? ?|? ? ? ?], b as [?|?|? ? ?|? ? ? ?]; discriminate.
Qed.
Lemma slt_trans : forall a b c : f32, slt a b = true -> slt b c = true -> slt a c = true.
Proof.
  intros a b c H1 H2. destruct (slt_num _ _ H1) as [Na Nb], (slt_num _ _ H2) as [_ Nc].
  apply slt_iff in H1; [|assumption..]. apply slt_iff in H2; [|assumption..].
  apply slt_iff; [assumption..|lra].
Qed.
Lemma slt_irrefl : forall a : f32, slt a a = false.
Proof.
  intros a. destruct (slt a a) eqn:E; [|reflexivity]. destruct (slt_num _ _ E) as [Na _].
  apply slt_iff in E; [lra|assumption..].
Qed.

Lemma skipn_cons : forall A (l : list A) i x, nth_error l i = Some x -> skipn i l = x :: skipn (S i) l.
Proof.
  induction l; destruct i; cbn; intros x H; try discriminate; [congruence|]. now apply IHl.
Qed.

Section Search.
  Variable p : path.
  Variable cen : Z -> outcome (vec4 f32).
  Variable add : aabb f32 -> Z -> outcome (aabb f32).

  Lemma centroidAt_Ok : forall q a v, centroidAt cen q a = Ok v <-> exists w, cen q = Ok w /\ lane w a = v.
  Proof.
    intros q a v. unfold centroidAt, omap. destruct (cen q) as [w| | |]; split; intros H; try discriminate;
      try (destruct H as (w' & E & _); discriminate).
    - inversion H. eauto.
    - destruct H as (w' & E & <-). inversion E. reflexivity.
  Qed.

  Lemma boundsLoop_spec : forall prims a k i mn mx mn' mx',
    boundsLoop cen prims a (Z.of_nat i) k mn mx = Ok (mn', mx') ->
    (i + k <= length prims)%nat -> Z.of_nat (length prims) < 2 ^ 32 ->
    exists vs, coords cen (firstn k (skipn i prims)) a vs /\
      mn' = fold_left stdmin vs mn /\ mx' = fold_left stdmax vs mx.
  Proof.
    intros prims a. induction k as [|k IH]; intros i mn mx mn' mx' H Hl Hp; cbn [boundsLoop] in H.
    - inversion H; subst. exists []. cbn. split; [constructor|]. auto.
    - apply bind_Ok in H. destruct H as (q & Hq & H). apply bind_Ok in H. destruct H as (v & Hv & H).
      rewrite wrap_id in H by lia. replace (Z.of_nat i + 1) with (Z.of_nat (S i)) in H by lia.
      apply IH in H; [|lia..]. destruct H as (vs & C & E1 & E2).
      apply readAt_Ok in Hq. destruct Hq as [_ Hq]. rewrite Nat2Z.id in Hq.
      rewrite (skipn_cons _ _ _ _ Hq). cbn [firstn]. exists (v :: vs).
      split; [|cbn; auto]. constructor; [now apply centroidAt_Ok|exact C].
  Qed.

  Lemma coords_fun : forall qs a vs vs', coords cen qs a vs -> coords cen qs a vs' -> vs = vs'.
  Proof.
    intros qs a vs vs' H. revert vs'. induction H; intros vs' H'; inversion H'; subst; [reflexivity|].
    f_equal; [|auto]. destruct H as (w & E & <-), H3 as (w' & E' & <-). congruence.
  Qed.

  Lemma binIndex_spec : forall v mn mx t, binIndex v mn (ofInt 8 / (mx - mn))%sc = Ok t ->
    binNumber mn mx v = Ok t.
  Proof.
    intros v mn mx t H. unfold binIndex in H. unfold binNumber.
    apply bind_Ok in H. destruct H as (z & Hz & H). unfold ofInt in Hz. rewrite Hz. cbn [bind].
    inversion H; subst. f_equal. destruct (Z.ltb_spec z 7); lia.
  Qed.

  Lemma inBin_is : forall mn mx a j q v t, centroidAt cen q a = Ok v -> binNumber mn mx v = Ok t ->
    inBin cen mn mx a j q = (t =? j).
  Proof.
    intros mn mx a j q v t Hv Ht. apply centroidAt_Ok in Hv. destruct Hv as (w & Hw & <-).
    unfold inBin. now rewrite Hw, Ht.
  Qed.

  Lemma binLoop_spec : forall prims a mn mx k i bins bins',
    binLoop cen add prims a (Z.of_nat i) k mn (ofInt 8 / (mx - mn))%sc bins = Ok bins' ->
    (i + k <= length prims)%nat -> Z.of_nat (length prims) < 2 ^ 32 ->
    length bins' = length bins /\
    (forall q, In q (firstn k (skipn i prims)) ->
       exists w t, cen q = Ok w /\ binNumber mn mx (lane w a) = Ok t /\ 0 <= t) /\
    (forall j b, at_ bins j b -> exists b', at_ bins' j b' /\
       boxOf add (filter (inBin cen mn mx a j) (firstn k (skipn i prims))) b = Ok b').
  Proof.
    intros prims a mn mx. induction k as [|k IH]; intros i bins bins' H Hl Hp; cbn [binLoop] in H.
    - inversion H; subst. split; [reflexivity|]. split; [intros q []|]. intros j b Hb. exists b. cbn. auto.
    - apply bind_Ok in H. destruct H as (q & Hq & H). apply bind_Ok in H. destruct H as (v & Hv & H).
      apply bind_Ok in H. destruct H as (j0 & Hj & H). apply bind_Ok in H. destruct H as (b0 & Hb0 & H).
      apply bind_Ok in H. destruct H as (b1 & Hb1 & H). apply bind_Ok in H. destruct H as (b2 & Hb2 & H).
      apply bind_Ok in H. destruct H as (bins1 & Hw & H).
      rewrite wrap_id in H by lia. replace (Z.of_nat i + 1) with (Z.of_nat (S i)) in H by lia.
      apply IH in H; [|lia..]. destruct H as (L & HQ & HB).
      apply readAt_Ok in Hq. destruct Hq as [_ Hq]. rewrite Nat2Z.id in Hq.
      apply writeAt_at in Hw. destruct Hw as (W1 & W2 & W3).
      apply readAt_Ok in Hb0. apply binIndex_spec in Hj.
      rewrite (skipn_cons _ _ _ _ Hq). cbn [firstn].
      split; [congruence|]. split.
      + intros q' [<-|Hin]; [|auto]. apply centroidAt_Ok in Hv. destruct Hv as (w & E & <-).
        exists w, j0. split; [exact E|]. split; [exact Hj|]. apply at_bound in Hb0. lia.
      + intros j b Hb. cbn [filter]. rewrite (inBin_is _ _ _ _ _ _ _ Hv Hj).
        destruct (Z.eqb_spec j0 j) as [->|Hne].
        * assert (b = b0) by (eapply at_fun; eassumption). subst b.
          destruct (HB j b2 W1) as (b' & A & C). exists b'. split; [exact A|].
          cbn [boxOf]. rewrite Hb1. cbn [bind]. rewrite Hb2. exact C.
        * destruct (HB j b) as (b' & A & C); [apply W2; [auto|exact Hb]|]. eauto.
  Qed.

  Lemma binsOf_fun : forall qs a mn mx b1 b2, binsOf cen add qs a mn mx b1 -> binsOf cen add qs a mn mx b2 -> b1 = b2.
  Proof.
    intros qs a mn mx b1 b2 (L1 & _ & H1) (L2 & _ & H2). apply nth_error_ext. intros k.
    destruct (Nat.lt_ge_cases k 8) as [Hk|Hk].
    - destruct (H1 (Z.of_nat k) ltac:(lia)) as (x & [_ A] & B), (H2 (Z.of_nat k) ltac:(lia)) as (y & [_ C] & D).
      rewrite Nat2Z.id in *. congruence.
    - rewrite (proj2 (nth_error_None b1 k)), (proj2 (nth_error_None b2 k)) by lia. reflexivity.
  Qed.

  Lemma int32Ok_Ok : forall z x, int32Ok z = Ok x -> x = z /\ - 2 ^ 31 <= z < 2 ^ 31.
  Proof.
    intros z x H. unfold int32Ok in H. destruct (Z.leb_spec (- 2 ^ 31) z), (Z.ltb_spec z (2 ^ 31));
      try discriminate H. cbn [andb] in H. inversion H. lia.
  Qed.

  Lemma sweep_spec : forall bins sum acc l, sweep p bins sum acc = Ok l ->
    length l = length bins /\ forall i, (i < length bins)%nat ->
      nth_error l i = Some (sum + counters (firstn (S i) bins),
        calcAreaHalf p (fold_left (joinBox p) (firstn (S i) bins) acc)).
  Proof.
    induction bins as [|b bins IH]; intros sum acc l H; cbn [sweep] in H.
    - inversion H. split; [reflexivity|]. cbn. lia.
    - apply bind_Ok in H. destruct H as (s & Hs & H). apply int32Ok_Ok in Hs. destruct Hs as [-> _].
      apply bind_Ok in H. destruct H as (l' & Hl & H). inversion H; subst l. clear H.
      apply IH in Hl. destruct Hl as [L N]. split; [cbn; lia|]. intros [|i] Hi.
      + cbn. apply f_equal, f_equal2; [lia|reflexivity].
      + cbn [nth_error]. rewrite N by (cbn in Hi; lia).
        change (firstn (S (S i)) (b :: bins)) with (b :: firstn (S i) bins).
        apply f_equal, f_equal2; [|reflexivity]. unfold counters. cbn [fold_right]. lia.
  Qed.

  Lemma counters_app : forall a b, counters (a ++ b) = counters a + counters b.
  Proof. induction a as [|x a IH]; intros b; [reflexivity|]. unfold counters in *. cbn [app fold_right]. rewrite IH. lia. Qed.
  Lemma counters_rev : forall a, counters (rev a) = counters a.
  Proof. induction a; [reflexivity|]. cbn [rev]. rewrite counters_app, IHa. unfold counters. cbn [fold_right]. lia. Qed.

  Lemma leftSweep_spec : forall bins l, length bins = 8%nat -> leftSweep p bins = Ok l ->
    length l = 7%nat /\ forall i, (i < 7)%nat ->
      nth_error l i = Some (counters (firstn (S i) bins), unionArea p (firstn (S i) bins)).
  Proof.
    intros bins l L H. apply sweep_spec in H. destruct H as [H1 H2].
    rewrite firstn_length, L in H1, H2. cbn in H1. split; [exact H1|]. intros i Hi.
    rewrite H2 by (cbn; lia). rewrite firstn_firstn. replace (Nat.min (S i) 7) with (S i) by lia.
    rewrite Z.add_0_l. reflexivity.
  Qed.

  Lemma nth_error_rev : forall A (l : list A) i, (i < length l)%nat ->
    nth_error (rev l) i = nth_error l (length l - S i).
  Proof.
    intros A l. induction l as [|x l IH] using rev_ind; intros i Hi; [cbn in Hi; lia|].
    rewrite rev_app_distr, app_length in *. cbn [length rev app] in *.
    destruct i as [|i].
    - cbn. replace (length l + 1 - 1)%nat with (length l) by lia.
      rewrite nth_error_app2, Nat.sub_diag by lia. reflexivity.
    - cbn [nth_error]. rewrite IH by lia. rewrite nth_error_app1 by lia. f_equal. lia.
  Qed.

  Lemma rightSweep_spec : forall bins l, length bins = 8%nat -> rightSweep p bins = Ok l ->
    length l = 7%nat /\ forall i, (i < 7)%nat ->
      nth_error l i = Some (counters (skipn (S i) bins), unionArea p (rev (skipn (S i) bins))).
  Proof.
    intros bins l L H. unfold rightSweep, omap in H.
    destruct (sweep p (firstn 7 (rev bins)) 0 emptyBox) as [l'| | |] eqn:E; try discriminate.
    inversion H; subst l. clear H. apply sweep_spec in E. destruct E as [H1 H2].
    rewrite firstn_length, rev_length, L in H1, H2. cbn in H1. split; [rewrite rev_length; exact H1|].
    intros i Hi. rewrite nth_error_rev by lia. rewrite H1. rewrite H2 by lia.
    rewrite firstn_firstn. replace (Nat.min (S (7 - S i)) 7) with (7 - i)%nat by lia.
    rewrite Z.add_0_l. rewrite firstn_rev, L. replace (8 - (7 - i))%nat with (S i) by lia.
    rewrite counters_rev. reflexivity.
  Qed.

  (** a list of planes, each with its cost, and the choice among them *)
  Definition costOf (l r : Z * f32) : f32 := (ofInt (fst l) * snd l + ofInt (fst r) * snd r)%sc.
  Lemma bestPlane_spec : forall a mn scale ls rs i best,
    length ls = length rs ->
    let r := bestPlane a mn scale i ls rs best in
    (r = best \/ exists j l0 r0, nth_error ls j = Some l0 /\ nth_error rs j = Some r0 /\
       r = (a, (mn + scale * ofInt (i + Z.of_nat j + 1))%sc, costOf l0 r0)) /\
    (forall c, slt c (snd best) = false -> slt c (snd r) = false) /\
    (forall j l0 r0, nth_error ls j = Some l0 -> nth_error rs j = Some r0 -> slt (costOf l0 r0) (snd r) = false).
  Proof.
    intros a mn scale. induction ls as [|[lc la] ls IH]; intros [|[rc ra] rs] i best L; try discriminate L.
    - cbn. split; [auto|]. split; [auto|]. intros [|j]; discriminate.
    - cbn [bestPlane]. destruct best as [[a0 p0] c0].
      set (cost := (ofInt lc * la + ofInt rc * ra)%sc).
      set (best' := if slt cost c0 then (a, (mn + scale * ofInt (i + 1))%sc, cost) else (a0, p0, c0)).
      destruct (IH rs (i + 1) best') as (H1 & H2 & H3); [cbn in L; lia|]. cbv zeta in *.
      assert (Hm : forall c, slt c c0 = false -> slt c (snd best') = false).
      { intros c Hc. unfold best'. destruct (slt cost c0) eqn:E; [|exact Hc]. cbn [snd].
        destruct (slt c cost) eqn:E2; [|reflexivity]. rewrite (slt_trans _ _ _ E2 E) in Hc. discriminate. }
      assert (Hc0 : slt cost (snd best') = false).
      { unfold best'. destruct (slt cost c0) eqn:E; [apply slt_irrefl|exact E]. }
      split; [|split].
      + destruct H1 as [->|(j & l0 & r0 & E1 & E2 & E3)].
        * unfold best'. destruct (slt cost c0); [|auto]. right. exists 0%nat, (lc, la), (rc, ra).
          cbn [nth_error]. split; [reflexivity|]. split; [reflexivity|].
          rewrite Z.add_0_r. reflexivity.
        * right. exists (S j), l0, r0. cbn [nth_error]. split; [exact E1|]. split; [exact E2|].
          rewrite E3. replace (i + 1 + Z.of_nat j + 1) with (i + Z.of_nat (S j) + 1) by lia. reflexivity.
      + intros c Hc. apply H2, Hm. exact Hc.
      + intros [|j] l0 r0 E1 E2; cbn [nth_error] in E1, E2.
        * inversion E1; inversion E2; subst. apply H2. exact Hc0.
        * eauto.
  Qed.

  Definition axisBest (qs : list Z) (a : Z) (best r : Z * f32 * f32) : Prop :=
    (r = best \/ candidate p cen add qs a (snd (fst r)) (snd r) /\ fst (fst r) = a) /\
    (forall c, slt c (snd best) = false -> slt c (snd r) = false) /\
    (forall pos cost, candidate p cen add qs a pos cost -> slt cost (snd r) = false).

  Lemma splitAxis_spec : forall prims first last a best r,
    0 <= first <= last -> last <= Z.of_nat (length prims) -> Z.of_nat (length prims) < 2 ^ 32 -> 0 <= a < 3 ->
    splitAxis p cen add first last prims a best = Ok r ->
    axisBest (entries prims first (last - first)) a best r.
  Proof.
    intros prims first last a best r Hf Hl Hp Ha H. unfold splitAxis in H.
    apply bind_Ok in H. destruct H as ([mn mx] & Hb & H).
    replace first with (Z.of_nat (Z.to_nat first)) in Hb, H by lia.
    rewrite Z2Nat.id in Hb at 2 by lia. rewrite Z2Nat.id in H at 2 by lia.
    apply boundsLoop_spec in Hb; [|lia..]. destruct Hb as (vs & C & E1 & E2).
    change (firstn (Z.to_nat (last - first)) (skipn (Z.to_nat first) prims))
      with (entries prims first (last - first)) in C.
    fold (least vs) in E1. fold (greatest vs) in E2.
    set (qs := entries prims first (last - first)) in *.
    destruct (seq mn mx) eqn:Es.
    - inversion H; subst r. split; [auto|]. split; [auto|]. intros pos cost (_ & vs' & bins & i & C' & Hs & _).
      rewrite (coords_fun _ _ _ _ C' C), <- E1, <- E2 in Hs. congruence.
    - apply bind_Ok in H. destruct H as (bins & Hbins & H). apply bind_Ok in H. destruct H as (ls & Hls & H).
      apply bind_Ok in H. destruct H as (rs & Hrs & H). inversion H; subst r. clear H.
      apply binLoop_spec in Hbins; [|lia..]. destruct Hbins as (L & HQ & HB).
      change (firstn (Z.to_nat (last - first)) (skipn (Z.to_nat first) prims)) with qs in HQ, HB.
      rewrite repeat_length in L.
      assert (BO : binsOf cen add qs a mn mx bins).
      { split; [exact L|]. split; [exact HQ|]. intros j Hj. apply HB. split; [lia|].
        rewrite (nth_error_nth' _ emptyBox) by (rewrite repeat_length; lia). now rewrite nth_repeat. }
      destruct (leftSweep_spec _ _ L Hls) as (L1 & N1). destruct (rightSweep_spec _ _ L Hrs) as (L2 & N2).
      destruct (bestPlane_spec a mn ((mx - mn) / ofInt 8)%sc ls rs 0 best ltac:(congruence)) as (B1 & B2 & B3).
      cbv zeta in *. set (r := bestPlane _ _ _ _ _ _ _) in *.
      split; [|split].
      + destruct B1 as [B1|(j & l0 & r0 & J1 & J2 & J3)]; [auto|]. right. rewrite J3. cbn [fst snd].
        split; [|reflexivity].
        assert (Hj : (j < 7)%nat) by (rewrite <- L1; apply nth_error_Some; congruence).
        rewrite N1 in J1 by exact Hj. rewrite N2 in J2 by exact Hj. inversion J1; inversion J2; subst l0 r0.
        split; [exact Ha|]. exists vs, bins, (Z.of_nat j). rewrite <- E1, <- E2.
        split; [exact C|]. split; [exact Es|]. split; [exact BO|]. split; [lia|]. split.
        * unfold planeAt. rewrite Z.add_0_l. reflexivity.
        * unfold planeCost. replace (Z.to_nat (Z.of_nat j + 1)) with (S j) by lia. reflexivity.
      + exact B2.
      + intros pos cost (_ & vs' & bins' & i & C' & Hs & BO' & Hi & -> & ->).
        rewrite (coords_fun _ _ _ _ C' C), <- E1, <- E2 in BO'.
        rewrite (binsOf_fun _ _ _ _ _ _ BO' BO).
        assert (Hi' : (Z.to_nat i < 7)%nat) by lia.
        specialize (B3 (Z.to_nat i) _ _ (N1 _ Hi') (N2 _ Hi')).
        unfold planeCost. replace (Z.to_nat (i + 1)) with (S (Z.to_nat i)) by lia. exact B3.
  Qed.

  Theorem search_best : forall prims first last r,
    0 <= first <= last -> last <= Z.of_nat (length prims) -> Z.of_nat (length prims) < 2 ^ 32 ->
    findBestSplitPlane p cen add first last prims = Ok r ->
    bestOf p cen add (entries prims first (last - first)) r.
  Proof.
    intros prims first last r Hf Hl Hp H. unfold findBestSplitPlane in H.
    apply bind_Ok in H. destruct H as (b0 & H0 & H). apply bind_Ok in H. destruct H as (b1 & H1 & H2).
    apply splitAxis_spec in H0; [|lia..]. apply splitAxis_spec in H1; [|lia..]. apply splitAxis_spec in H2; [|lia..].
    set (qs := entries _ _ _) in *.
    destruct H0 as (A0 & M0 & C0), H1 as (A1 & M1 & C1), H2 as (A2 & M2 & C2).
    destruct r as [[a pos] cost]. cbn [bestOf]. split.
    - destruct A2 as [A2|[A2 E2]]; [|left; cbn [fst snd] in *; subst a; exact A2].
      rewrite A2. destruct A1 as [A1|[A1 E1]].
      + rewrite A1. destruct A0 as [A0|[A0 E0]]; [right; exact A0|left].
        destruct b0 as [[a0 p0] c0]. cbn [fst snd] in *. subst. inversion A2. subst. exact A0.
      + left. destruct b1 as [[a1 p1] c1]. cbn [fst snd] in *. inversion A2. subst. exact A1.
    - intros a' pos' cost' HC. assert (Ha : 0 <= a' < 3) by exact (proj1 HC).
      assert (D : a' = 0 \/ a' = 1 \/ a' = 2) by lia. cbn [snd] in *.
      destruct D as [->|[->| ->]]; eauto.
  Qed.
End Search.
