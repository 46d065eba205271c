(** Partial and total correctness of the BVH build loop. *)
From Coq Require Import ZArith List Lia Permutation Bool.
From Verif.Model Require Import Outcome Scalar Packed Bvh.
From Verif.Spec Require Import BvhSpec.
From Verif.Proofs Require Import ArrayLemmas BvhLoops BvhTree.
Import ListNotations.
Local Open Scope Z_scope.
Local Opaque Z.mul.

Section Build.
  Context {F : Type} {S : Scalar F} {B : Type}.
  Variable centroid : Z -> Z -> outcome F.
  Variable findSplit : Z -> Z -> list Z -> outcome (Z * F * F).
  Variable nodeCost : B -> Z -> F.
  Variable boxInit : B.
  Variable boxAdd : B -> Z -> outcome B.
  Variables (root : B) (n : Z).
  Hypothesis Hn : 1 <= n <= 2 ^ 31.

  Notation inv := (inv boxInit boxAdd root n).
  Notation wft := (wft boxInit boxAdd root n).
  Notation buildStep := (buildStep centroid findSplit nodeCost boxInit boxAdd).
  Notation buildLoop := (buildLoop centroid findSplit nodeCost boxInit boxAdd).
  Notation recreate := (recreate centroid findSplit nodeCost boxInit boxAdd).

  Definition stInv (st : bstate) (t : tree) (cs : list Z) : Prop :=
    inv (sprims st) (snodes st) (snodeCount st) (scur st :: sstack st) t cs.
  Definition doneInv (st : bstate) (t : tree) : Prop :=
    inv (sprims st) (snodes st) (snodeCount st) [] t [].

  Definition stepOk (r : stepResult) (m : Z) : Prop :=
    match r with
    | Continue st' => exists t' cs', stInv st' t' cs' /\ meas cs' < m
    | Done st' => exists t', doneInv st' t' /\ sstack st' = []
    end.

  Lemma pop_ok : forall prims nodes nc stack cur t cs,
    inv prims nodes nc stack t cs -> forall m, meas cs < m ->
    stepOk (popNode prims nodes nc stack cur) m.
  Proof.
    intros prims nodes nc stack cur t cs H m Hm. unfold popNode. destruct stack as [|id rest]; cbn.
    - exists t. split; [|reflexivity]. unfold doneInv; cbn.
      assert (cs = []) by (destruct H as (_ & _ & _ & _ & _ & _ & _ & F2); inversion F2; reflexivity).
      subst. exact H.
    - exists t, cs. split; [exact H|exact Hm].
  Qed.

  (** Facts about the node being visited. *)
  Lemma cur_facts : forall st t cs, stInv st t cs ->
    exists f0 c0 cs' b, cs = c0 :: cs' /\ leafIn t (scur st) f0 c0 /\
      at_ (snodes st) (scur st) (mkNode b f0 c0) /\
      boxOK boxInit boxAdd root n (sprims st) (scur st) b f0 c0 /\
      0 <= f0 /\ 0 < c0 /\ f0 + c0 <= n /\ leaves t + c0 - 1 <= n /\
      Z.of_nat (length (sprims st)) = n.
  Proof.
    intros st t cs H. assert (Hpl := inv_prims_length _ _ _ _ Hn _ _ _ _ _ _ H).
    destruct H as (P & L & W & R0 & PI & Enc & ND & F2).
    inversion F2 as [|x c0 l cs' (f0 & Hl) F2']; subst x l cs.
    destruct (leafIn_range _ _ _ _ _ _ _ _ _ _ _ _ W Hl) as (R1 & R2 & R3 & R4 & b & Ha & Hb).
    exists f0, c0, cs', b. ands; auto; lia.
  Qed.

  Lemma partition_slice : forall fuel axis split f c prims i' prims',
    partition centroid fuel axis split f (wrap (wrap (f + c) - 1)) prims = Ok (i', prims') ->
    0 <= f -> 0 < c -> f + c <= Z.of_nat (length prims) -> Z.of_nat (length prims) < 2 ^ 32 ->
    permutedIn prims prims' f c /\ f <= i' <= f + c /\ length prims' = length prims.
  Proof.
    intros fuel axis split f c prims i' prims' H Hf Hc Hfc Hlen.
    destruct (slice_split _ prims f c Hf ltac:(lia) Hfc) as (a & b & E & La).
    assert (Ls := slice_length _ prims f c Hf ltac:(lia) Hfc).
    eapply partition_spec with (a := a) (L := []) (M := slice prims f c) (R := []) (b := b) in H.
    - destruct H as (L' & R' & E1 & E2 & E3 & _ & _).
      cbn [app] in E2. rewrite app_nil_r in E2.
      assert (Hl := Permutation_length E2). rewrite app_length in Hl.
      split; [|split].
      + exists a, (slice prims f c), (L' ++ R'), b. ands; auto. rewrite E1, <- app_assoc; reflexivity.
      + lia.
      + rewrite E1. assert (HE := f_equal (@length Z) E). rewrite !app_length in *. lia.
    - exact E.
    - cbn. lia.
    - rewrite (wrap_id (f + c)) by lia. f_equal. lia.
    - cbn [app]. rewrite app_nil_r. intros Hc'. rewrite Hc' in Ls. cbn in Ls. lia.
    - exact Hlen.
    - constructor.
    - constructor.
  Qed.

  Lemma wrap_wrap_sub : forall f c, 0 <= f -> 0 < c -> f + c < 2 ^ 32 ->
    wrap (wrap (f + c) - 1) = f + c - 1.
  Proof. intros. rewrite (wrap_id (f + c)) by lia. apply wrap_id. lia. Qed.

  Lemma step_partial : forall st t cs r, stInv st t cs -> buildStep st = Ok r -> stepOk r (meas cs).
  Proof.
    intros st t cs r HI H.
    destruct (cur_facts _ _ _ HI) as (f0 & c0 & cs' & b & -> & Hl & Ha & Hb & Hf & Hc & Hfc & Hlv & Hpl).
    unfold Bvh.buildStep in H.
    assert (Hr : readAt (snodes st) (scur st) = Ok (mkNode b f0 c0)) by (apply readAt_Ok; exact Ha).
    rewrite Hr in H. cbn [bind nlink ncount nbox] in H.
    apply bind_Ok in H. destruct H as (((axis, split), cost) & _ & H).
    assert (Hm : meas cs' < meas (c0 :: cs')) by (cbn [meas fold_right]; unfold meas; lia).
    assert (HIs := HI). unfold stInv in HIs.
    destruct (sge cost (nodeCost b c0)).
    { inversion H; subst r. eapply pop_ok; [|exact Hm].
      eapply inv_drop; [exact Hn|exact HIs|exact Hl|]. apply permutedIn_refl; lia. }
    apply bind_Ok in H. destruct H as ((i, prims') & Hpart & H).
    destruct (partition_slice _ _ _ _ _ _ _ _ Hpart) as (Hperm & Hi & Hpl'); [lia..|].
    rewrite (wrap_id (i - f0)) in H by lia.
    set (k1 := i - f0) in *.
    destruct ((k1 =? 0) || (k1 =? c0)) eqn:Ek.
    { inversion H; subst r. eapply pop_ok; [|exact Hm].
      eapply inv_drop; [exact Hn|exact HIs|exact Hl|exact Hperm]. }
    apply orb_false_iff in Ek. destruct Ek as [Ek1 Ek2].
    apply Z.eqb_neq in Ek1, Ek2.
    assert (HIs' := HIs).
    destruct HIs' as (P & L & W & R0 & PI & Enc & ND & F2).
    assert (LL := leaves_le _ _ _ _ _ _ _ _ _ W).
    assert (Hcur : 0 <= scur st < snodeCount st).
    { apply In_iota. eapply Permutation_in; [exact PI|]. eapply leafIn_ids, Hl. }
    set (nc := snodeCount st) in *.
    rewrite (wrap_id (c0 - k1)), (wrap_id (nc + 1)), (wrap_id (nc + 2)) in H by lia.
    apply bind_Ok in H. destruct H as (nodes1 & Hw1 & H).
    apply bind_Ok in H. destruct H as (b1 & Hb1 & H).
    apply bind_Ok in H. destruct H as (nodes2 & Hw2 & H).
    apply bind_Ok in H. destruct H as (b2 & Hb2 & H).
    apply bind_Ok in H. destruct H as (nodes3 & Hw3 & H).
    rewrite calculateNodeAabb_fold in Hb1 by lia.
    rewrite calculateNodeAabb_fold in Hb2 by lia.
    replace i with (f0 + k1) in Hb2, Hw3 by (unfold k1; lia).
    apply writeAt_at in Hw1. destruct Hw1 as (A1 & A2 & A3).
    apply writeAt_at in Hw2. destruct Hw2 as (A4 & A5 & A6).
    apply writeAt_at in Hw3. destruct Hw3 as (A7 & A8 & A9).
    destruct (inv_split boxInit boxAdd root n Hn (sprims st) (snodes st) nc (scur st) (sstack st) t cs'
      f0 c0 prims' nodes3 b b1 b2 k1) as (t' & HI' & Hl1 & Hl2 & Hni1 & Hni2 & _).
    - exact HIs.
    - exact Hl.
    - exact Hperm.
    - lia.
    - destruct Hb as [Hb|(Hid & s & Hs & Hfold)]; [now left|]. right. split; [exact Hid|].
      exists s. split; [|exact Hfold]. rewrite Hs. eapply permutedIn_slice_contains; [exact Hperm|lia..].
    - apply A8; [lia|]. apply A5; [lia|]. exact A1.
    - apply A8; [lia|]. exact A4.
    - exact Hb1.
    - exact A7.
    - exact Hb2.
    - intros id nd H1 H2 H3 H4. apply A8; [lia|]. apply A5; [lia|]. apply A2; [lia|]. exact H4.
    - congruence.
    - assert (Hcs : 0 <= meas cs').
      { eapply Forall2_leaf_pos; [exact W|]. inversion F2; eassumption. }
      assert (Hms : meas (c0 :: cs') = 2 * c0 - 1 + meas cs') by reflexivity.
      destruct HI' as (P' & L' & W' & R0' & PI' & Enc' & ND' & F2').
      destruct (k1 <? c0 - k1) eqn:Ec.
      + destruct (2 <? c0 - k1).
        * inversion H; subst r. cbn [stepOk].
          destruct (2 <? k1).
          -- exists t', (c0 - k1 :: k1 :: cs'). split.
             ++ unfold stInv, BvhTree.inv; cbn [sprims snodes snodeCount scur sstack]. ands; try assumption.
                ** constructor; [cbn; intros [?|?]; [lia|contradiction]|]. constructor; assumption.
                ** constructor; [exists (f0 + k1); exact Hl2|]. constructor; [exists f0; exact Hl1|exact F2'].
             ++ unfold meas in *. cbn [fold_right] in *. lia.
          -- exists t', (c0 - k1 :: cs'). split.
             ++ unfold stInv, BvhTree.inv; cbn [sprims snodes snodeCount scur sstack]. ands; try assumption.
                ** constructor; assumption.
                ** constructor; [exists (f0 + k1); exact Hl2|exact F2'].
             ++ unfold meas in *. cbn [fold_right] in *. lia.
        * inversion H; subst r. eapply pop_ok; [|exact Hm]. unfold BvhTree.inv. ands; eassumption.
      + destruct (2 <? k1).
        * inversion H; subst r. cbn [stepOk].
          destruct (2 <? c0 - k1).
          -- exists t', (k1 :: c0 - k1 :: cs'). split.
             ++ unfold stInv, BvhTree.inv; cbn [sprims snodes snodeCount scur sstack]. ands; try assumption.
                ** constructor; [cbn; intros [?|?]; [lia|contradiction]|]. constructor; assumption.
                ** constructor; [exists f0; exact Hl1|]. constructor; [exists (f0 + k1); exact Hl2|exact F2'].
             ++ unfold meas in *. cbn [fold_right] in *. lia.
          -- exists t', (k1 :: cs'). split.
             ++ unfold stInv, BvhTree.inv; cbn [sprims snodes snodeCount scur sstack]. ands; try assumption.
                ** constructor; assumption.
                ** constructor; [exists f0; exact Hl1|exact F2'].
             ++ unfold meas in *. cbn [fold_right] in *. lia.
        * inversion H; subst r. eapply pop_ok; [|exact Hm]. unfold BvhTree.inv. ands; eassumption.
  Qed.

  Lemma loop_partial : forall fuel st t cs st', stInv st t cs -> buildLoop fuel st = Ok st' ->
    exists t', doneInv st' t' /\ sstack st' = [].
  Proof.
    induction fuel as [|fuel IH]; intros st t cs st' HI H; [discriminate|]. cbn [Bvh.buildLoop] in H.
    apply bind_Ok in H. destruct H as (r & Hr & H).
    assert (HO := step_partial _ _ _ _ HI Hr). destruct r as [st1|st1]; cbn in HO.
    - destruct HO as (t' & cs' & HI' & _). eapply IH; eassumption.
    - inversion H; subst. exact HO.
  Qed.

  Lemma nodeArraySize_eq : nodeArraySize n = 2 * n - 1.
  Proof.
    unfold nodeArraySize. destruct (Z.eq_dec n (2 ^ 31)) as [->|E]; [reflexivity|].
    rewrite (wrap_id (n * 2)) by lia. rewrite wrap_id by lia. lia.
  Qed.

  Lemma init_inv : exists st0, initState root n = Ok st0 /\ stInv st0 (Leaf 0 0 n) [n].
  Proof.
    unfold initState. rewrite nodeArraySize_eq.
    set (l := repeat (mkNode root 0 0) (Z.to_nat (2 * n - 1))).
    assert (Ll : Z.of_nat (length l) = 2 * n - 1) by (unfold l; rewrite repeat_length; lia).
    rewrite writeAt_in by lia. cbn [bind]. eexists. split; [reflexivity|].
    assert (Hw := writeAt_in _ l 0 (mkNode root 0 n) ltac:(lia)). apply writeAt_at in Hw.
    destruct Hw as (A1 & A2 & A3).
    unfold stInv; cbn [sprims snodes snodeCount scur sstack]. split; [reflexivity|].
    split; [rewrite A3; exact Ll|]. split.
    { cbn. ands; try lia. exists root. split; [exact A1|]. left. auto. }
    cbn [rootId ids leaves]. ands; auto.
    - constructor; [intros []|constructor].
    - constructor; [|constructor]. exists 0. cbn. auto.
  Qed.

  (** The finished tree. *)
  Definition finished (nodes : list (node B)) (prims : list Z) (t : tree) : Prop :=
    Permutation (iota n) prims /\ wft nodes prims t 0 n /\ rootId t = 0 /\
    Permutation (ids t) (iota (Z.of_nat (length nodes))) /\
    Z.of_nat (length nodes) = 2 * leaves t - 1.

  Lemma done_finished : forall st t, doneInv st t ->
    finished (firstn (Z.to_nat (snodeCount st)) (snodes st)) (sprims st) t.
  Proof.
    intros st t (P & L & W & R0 & PI & Enc & ND & F2).
    assert (LL := leaves_le _ _ _ _ _ _ _ _ _ W).
    assert (Hlen : Z.of_nat (length (firstn (Z.to_nat (snodeCount st)) (snodes st))) = snodeCount st).
    { rewrite firstn_length. lia. }
    unfold finished. rewrite Hlen. ands; auto.
    eapply wft_frame; [exact W| |reflexivity].
    intros id nd Hid [Ha0 Ha]. split; [exact Ha0|]. rewrite nth_error_firstn_lt; [exact Ha|].
    assert (0 <= id < snodeCount st) by (apply In_iota; eapply Permutation_in; [exact PI|exact Hid]).
    lia.
  Qed.

  Theorem recreate_partial : forall nodes prims, recreate root n = Ok (nodes, prims) ->
    exists t, finished nodes prims t.
  Proof.
    intros nodes prims H. unfold Bvh.recreate in H.
    destruct init_inv as (st0 & E0 & HI). rewrite E0 in H. cbn [bind] in H.
    apply bind_Ok in H. destruct H as (st & Hloop & H). inversion H; subst.
    destruct (loop_partial _ _ _ _ _ HI Hloop) as (t & HD & _). exists t. apply done_finished. exact HD.
  Qed.

  (** ** Total correctness *)
  (** The box a node over the slots [f, f+c) can have. *)
  Definition possibleBox (prims : list Z) (f c : Z) (b : B) : Prop :=
    (b = root /\ f = 0 /\ c = n) \/
    (exists s, Permutation s (slice prims f c) /\ foldBox boxAdd s boxInit = Ok b).

  Definition centroidsDefined : Prop :=
    forall q axis, 0 <= q < n -> 0 <= axis < 3 -> exists c, centroid q axis = Ok c.
  Definition boxesDefined : Prop := forall b q, 0 <= q < n -> exists b', boxAdd b q = Ok b'.
  (** At every node the search returns a plane, and if the plane is used by a node starting
      at slot 0, some centroid lies below it. *)
  Definition splitsSeparate : Prop :=
    forall prims f c b, Permutation (iota n) prims -> 0 <= f -> 0 < c -> f + c <= n ->
    possibleBox prims f c b ->
    exists axis split cost, findSplit f (f + c) prims = Ok (axis, split, cost) /\ 0 <= axis < 3 /\
      (sge cost (nodeCost b c) = true \/ 0 < f \/
       exists k q, f <= k < f + c /\ at_ prims k q /\ below centroid axis split q).

  Hypothesis Hcentroid : centroidsDefined.
  Hypothesis Hboxes : boxesDefined.
  Hypothesis Hsep : splitsSeparate.

  Lemma foldBox_total : forall l b, Forall (fun q => 0 <= q < n) l -> exists b', foldBox boxAdd l b = Ok b'.
  Proof.
    induction l; intros b H; cbn; [eauto|]. inversion H; subst.
    destruct (Hboxes b a H2) as (b' & E). rewrite E. cbn. apply IHl. assumption.
  Qed.

  Lemma slice_valid : forall prims f c, Permutation (iota n) prims -> 0 <= f -> 0 <= c ->
    Forall (fun q => 0 <= q < n) (slice prims f c).
  Proof.
    intros prims f c P Hf Hc. apply Forall_forall. intros q Hq.
    apply In_slice in Hq; [|lia..]. destruct Hq as (k & _ & Hk).
    apply In_iota. eapply Permutation_in; [symmetry; exact P|]. apply In_at. eauto.
  Qed.

  Lemma step_total : forall st t cs, stInv st t cs -> exists r, buildStep st = Ok r.
  Proof.
    intros st t cs HI.
    destruct (cur_facts _ _ _ HI) as (f0 & c0 & cs' & b & -> & Hl & Ha & Hb & Hf & Hc & Hfc & Hlv & Hpl).
    assert (HIs := HI). unfold stInv in HIs.
    destruct HIs as (P & L & W & R0 & PI & Enc & ND & F2).
    assert (LL := leaves_le _ _ _ _ _ _ _ _ _ W).
    unfold Bvh.buildStep.
    assert (Hr : readAt (snodes st) (scur st) = Ok (mkNode b f0 c0)) by (apply readAt_Ok; exact Ha).
    rewrite Hr. cbn [bind nlink ncount nbox].
    rewrite (wrap_id (f0 + c0)) by lia.
    destruct (Hsep (sprims st) f0 c0 b P Hf Hc Hfc) as (axis & split & cost & E & Hax & Hs).
    { destruct Hb as [(_ & ? & ? & ?)|(_ & s & ? & ?)]; [left; auto|right; eauto]. }
    rewrite E. cbn [bind].
    destruct (sge cost (nodeCost b c0)) eqn:Eg; [eauto|].
    assert (Hpart : exists r, partition centroid (Z.to_nat c0 + 2) axis split f0
              (wrap (f0 + c0 - 1)) (sprims st) = Ok r).
    { destruct (slice_split _ (sprims st) f0 c0 Hf ltac:(lia) ltac:(lia)) as (pa & pb & Es & La).
      assert (Ls := slice_length _ (sprims st) f0 c0 Hf ltac:(lia) ltac:(lia)).
      eapply partition_total with (a := pa) (L := []) (M := slice (sprims st) f0 c0) (R := []) (b := pb).
      - exact Es.
      - cbn. lia.
      - f_equal. lia.
      - lia.
      - lia.
      - intros q Hq. apply Hcentroid; [|exact Hax].
        assert (V := slice_valid _ f0 c0 P Hf ltac:(lia)). rewrite Forall_forall in V. auto.
      - destruct Hs as [Hs|[Hs|(k & q & Hk & Hq & Hbl)]]; [congruence|left; lia|].
        right. exists q. split; [|exact Hbl]. apply In_slice; [lia..|]. eauto. }
    destruct Hpart as ((i, prims') & Hpart). rewrite Hpart. cbn [bind].
    rewrite <- (wrap_id (f0 + c0)) in Hpart by lia.
    destruct (partition_slice _ _ _ _ _ _ _ _ Hpart) as (Hperm & Hi & Hpl'); [lia..|].
    rewrite (wrap_id (i - f0)) by lia.
    set (k1 := i - f0) in *.
    destruct ((k1 =? 0) || (k1 =? c0)) eqn:Ek; [eauto|].
    apply orb_false_iff in Ek. destruct Ek as [Ek1 Ek2]. apply Z.eqb_neq in Ek1, Ek2.
    assert (Hcur : 0 <= scur st < snodeCount st).
    { apply In_iota. eapply Permutation_in; [exact PI|]. eapply leafIn_ids, Hl. }
    set (nc := snodeCount st) in *.
    rewrite (wrap_id (c0 - k1)), (wrap_id (nc + 1)), (wrap_id (nc + 2)) by lia.
    assert (P' : Permutation (iota n) prims') by (rewrite P; eapply permutedIn_perm, Hperm).
    rewrite writeAt_in by lia. cbn [bind].
    rewrite calculateNodeAabb_fold by lia.
    destruct (foldBox_total (slice prims' f0 k1) boxInit) as (b1 & E1); [apply slice_valid; [exact P'|lia..]|].
    rewrite E1. cbn [bind].
    rewrite writeAt_in by (rewrite PackedProofs.updNth_length; lia). cbn [bind].
    rewrite calculateNodeAabb_fold by lia.
    destruct (foldBox_total (slice prims' i (c0 - k1)) boxInit) as (b2 & E2); [apply slice_valid; [exact P'|lia..]|].
    rewrite E2. cbn [bind].
    rewrite writeAt_in by (rewrite !PackedProofs.updNth_length; lia). cbn [bind].
    destruct (k1 <? c0 - k1); [destruct (2 <? c0 - k1)|destruct (2 <? k1)]; eauto.
  Qed.

  Lemma loop_total : forall fuel st t cs, stInv st t cs -> meas cs <= Z.of_nat fuel ->
    exists st', buildLoop fuel st = Ok st'.
  Proof.
    induction fuel as [|fuel IH]; intros st t cs HI Hm.
    - destruct (cur_facts _ _ _ HI) as (f0 & c0 & cs' & b & -> & Hl & _ & _ & _ & Hc & _).
      destruct HI as (_ & _ & W & _ & _ & _ & _ & F2). inversion F2; subst.
      assert (0 <= meas cs') by (eapply Forall2_leaf_pos; eassumption).
      unfold meas in *. cbn [fold_right] in Hm. lia.
    - cbn [Bvh.buildLoop]. destruct (step_total _ _ _ HI) as (r & Hr). rewrite Hr. cbn [bind].
      assert (HO := step_partial _ _ _ _ HI Hr). destruct r as [st1|st1]; [|eauto].
      destruct HO as (t' & cs' & HI' & Hlt). eapply IH; [exact HI'|lia].
  Qed.

  Theorem recreate_total : exists nodes prims, recreate root n = Ok (nodes, prims).
  Proof.
    unfold Bvh.recreate. destruct init_inv as (st0 & E0 & HI). rewrite E0. cbn [bind].
    destruct (loop_total (Z.to_nat (2 * n - 1)) _ _ _ HI) as (st & E).
    - unfold meas; cbn [fold_right]. lia.
    - rewrite E. cbn [bind]. eauto.
  Qed.
End Build.
