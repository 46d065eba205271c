(** The splits of a finished tree: every inner node is divided by the plane found for it, every
    large leaf was kept for a reason. *)
From Coq Require Import ZArith List Lia Permutation Bool.
From Verif.Model Require Import Outcome Scalar Vec Simd Aabb Packed Bvh BvhSplit.
From Verif.Spec Require Import BvhSpec SahSpec.
From Verif.Proofs Require Import ArrayLemmas BvhLoops BvhTree BvhBuild BvhArrays SahProofs.
Import ListNotations.
Local Open Scope Z_scope.
Local Opaque Z.mul.

Section Decide.
  Context {F : Type} {S : Scalar F} {B : Type}.
  Variable centroid : Z -> Z -> outcome F.
  Variable findSplit : Z -> Z -> list Z -> outcome (Z * F * F).
  Variable nodeCost : B -> Z -> F.
  Variable boxInit : B.
  Variable boxAdd : B -> Z -> outcome B.
  Variables (root : B) (n : Z).
  Hypothesis Hn : 1 <= n <= 2 ^ 31.

  Notation inv := (inv boxInit boxAdd root n).
  Notation wft := (wft boxInit boxAdd root n).
  Notation buildStep := (buildStep centroid findSplit nodeCost boxInit boxAdd).
  Notation buildLoop := (buildLoop centroid findSplit nodeCost boxInit boxAdd).
  Notation recreate := (recreate centroid findSplit nodeCost boxInit boxAdd).
  Notation stInv := (stInv boxInit boxAdd root n).
  Notation doneInv := (doneInv boxInit boxAdd root n).
  Notation lower := (below centroid).
  Notation upper := (notBelow centroid).

  (** the plane was found for the primitives in the slots [f, f+c) *)
  Definition found (prims : list Z) (f c axis : Z) (split cost : F) : Prop :=
    exists order, length order = length prims /\ Permutation (slice order f c) (slice prims f c) /\
      findSplit f (f + c) order = Ok (axis, split, cost).
  Definition kept (prims : list Z) (f c : Z) (b : B) : Prop :=
    exists axis split cost, found prims f c axis split cost /\
      (sge cost (nodeCost b c) = true \/ Forall (lower axis split) (slice prims f c) \/
       Forall (upper axis split) (slice prims f c)).
  Definition divided (prims : list Z) (f c c1 : Z) (b : B) : Prop :=
    exists axis split cost, found prims f c axis split cost /\ sge cost (nodeCost b c) = false /\
      Forall (lower axis split) (slice prims f c1) /\ Forall (upper axis split) (slice prims (f + c1) (c - c1)).

  Fixpoint dec (pend : list Z) (nodes : list (node B)) (prims : list Z) (t : tree) (f c : Z) : Prop :=
    match t with
    | Leaf id f' c' => f' = f /\ c' = c /\
        (In id pend \/ c <= 2 \/ exists b, at_ nodes id (mkNode b f c) /\ kept prims f c b)
    | Inner id l r => exists b c1, 0 <= c1 <= c /\
        at_ nodes id (mkNode b (rootId l) 0) /\ divided prims f c c1 b /\
        dec pend nodes prims l f c1 /\ dec pend nodes prims r (f + c1) (c - c1)
    end.

  Lemma found_perm : forall prims prims' f c axis split cost, found prims f c axis split cost ->
    length prims' = length prims -> Permutation (slice prims f c) (slice prims' f c) -> found prims' f c axis split cost.
  Proof.
    intros prims prims' f c axis split cost (o & L & P & E) L' P'. exists o. split; [congruence|]. split; [|exact E].
    now rewrite P.
  Qed.
  Lemma divided_perm : forall prims prims' f c c1 b, divided prims f c c1 b ->
    length prims' = length prims -> Permutation (slice prims f c) (slice prims' f c) ->
    Permutation (slice prims f c1) (slice prims' f c1) ->
    Permutation (slice prims (f + c1) (c - c1)) (slice prims' (f + c1) (c - c1)) -> divided prims' f c c1 b.
  Proof.
    intros prims prims' f c c1 b (axis & split & cost & Hf & Hc & H1 & H2) L P P1 P2.
    exists axis, split, cost. split; [eapply found_perm; eassumption|]. split; [exact Hc|].
    split; eapply Permutation_Forall; eassumption.
  Qed.

  Lemma size_unique : forall t pend nodes prims nodes' prims' f c c', wft nodes prims t f c -> dec pend nodes' prims' t f c' -> c = c'.
  Proof.
    induction t; cbn [BvhTree.wft dec]; intros pend nodes prims nodes' prims' f c c' H D.
    - destruct H as (-> & <- & _). destruct D as (_ & -> & _). reflexivity.
    - destruct H as (b & c1 & _ & _ & _ & _ & _ & _ & H1 & H2).
      destruct D as (b' & c1' & _ & _ & _ & D1 & D2).
      assert (c1 = c1') by (eapply IHt1; eassumption). subst c1'.
      assert (c - c1 = c' - c1) by (eapply IHt2; eassumption). lia.
  Qed.

  Lemma dec_frame : forall t pend nodes prims pend' nodes' prims' f c,
    dec pend nodes prims t f c -> 0 <= f -> 0 <= c ->
    (forall id, In id (ids t) -> In id pend -> In id pend') ->
    (forall id nd, In id (ids t) -> at_ nodes id nd -> at_ nodes' id nd) ->
    length prims' = length prims ->
    (forall f' c', f <= f' -> 0 <= c' -> f' + c' <= f + c -> slice prims' f' c' = slice prims f' c') ->
    dec pend' nodes' prims' t f c.
  Proof.
    induction t; cbn [dec ids]; intros pend nodes prims pend' nodes' prims' f c H Hf Hc Hp Hnd Hl Hs.
    - destruct H as (-> & -> & H). split; [reflexivity|]. split; [reflexivity|].
      destruct H as [H|[H|(b & Ha & axis & split & cost & K1 & K2)]]; [left; apply Hp; [now left|exact H]|auto|].
      right; right. exists b. split; [apply Hnd; [now left|exact Ha]|].
      exists axis, split, cost. rewrite Hs by lia. split; [|exact K2].
      eapply found_perm; [exact K1|exact Hl|]. now rewrite Hs by lia.
    - destruct H as (b & c1 & Hc1 & Ha & Hd & H1 & H2). exists b, c1. split; [exact Hc1|].
      split; [apply Hnd; [now left|exact Ha]|]. split.
      { eapply divided_perm; [exact Hd|exact Hl|..]; rewrite Hs by lia; reflexivity. }
      split.
      + eapply IHt1; try eassumption; try lia.
        * intros i Hi. apply Hp. right. apply in_or_app; auto.
        * intros i nd Hi. apply Hnd. right. apply in_or_app; auto.
        * intros f' c' ? ? ?. apply Hs; lia.
      + eapply IHt2; try eassumption; try lia.
        * intros i Hi. apply Hp. right. apply in_or_app; auto.
        * intros i nd Hi. apply Hnd. right. apply in_or_app; auto.
        * intros f' c' ? ? ?. apply Hs; lia.
  Qed.

  Lemma permutedIn_length : forall A (l l' : list A) f c, permutedIn l l' f c -> length l' = length l.
  Proof. intros A l l' f c H. symmetry. apply Permutation_length. eapply permutedIn_perm, H. Qed.

  Lemma dec_subst : forall t pend nodes prims pend' nodes' prims' f c cur f0 c0 t',
    wft nodes prims t f c -> dec pend nodes prims t f c -> leafIn t cur f0 c0 -> NoDup (ids t) ->
    (forall id, In id (ids t) -> id <> cur -> In id pend -> In id pend') ->
    (forall id nd, In id (ids t) -> id <> cur -> at_ nodes id nd -> at_ nodes' id nd) ->
    permutedIn prims prims' f0 c0 -> f + c <= Z.of_nat (length prims) ->
    dec pend' nodes' prims' t' f0 c0 -> rootId t' = cur ->
    dec pend' nodes' prims' (subst cur t' t) f c.
  Proof.
    induction t; intros pend nodes prims pend' nodes' prims' f c cur f0 c0 t' W D Hl N Hpe Hnd Hp Hlen Ht' Hr.
    - cbn [leafIn] in Hl. destruct Hl as (-> & -> & ->). cbn [subst BvhTree.wft] in *. rewrite Z.eqb_refl.
      destruct W as (-> & -> & _). exact Ht'.
    - cbn [BvhTree.wft dec ids leafIn subst] in *.
      destruct W as (b0 & c1' & _ & _ & _ & _ & Hf & Hc1' & W1 & W2).
      destruct D as (b & c1 & Hc1 & Ha & Hd & D1 & D2).
      assert (c1' = c1) by (eapply size_unique; eassumption). subst c1'.
      inversion N as [|x l Hni N']; subst x l.
      apply NoDup_app_inv in N'. destruct N' as (N1 & N2 & Dj).
      assert (Hcur : In cur (ids t1 ++ ids t2)).
      { apply in_or_app. destruct Hl as [Hl|Hl]; [left|right]; eapply leafIn_ids, Hl. }
      assert (Hne : id <> cur) by (intros ->; contradiction).
      assert (PL := permutedIn_length _ _ _ _ _ Hp).
      exists b, c1. rewrite !rootId_subst by exact Hr. split; [exact Hc1|].
      split; [apply Hnd; [now left|exact Hne|exact Ha]|].
      destruct Hl as [Hl|Hl].
      + destruct (leafIn_range _ _ _ _ _ _ _ _ _ _ _ _ W1 Hl) as (? & ? & ? & _).
        split; [|split].
        * eapply divided_perm; [exact Hd|exact PL|..].
          -- eapply permutedIn_slice_contains; [exact Hp|lia..].
          -- eapply permutedIn_slice_contains; [exact Hp|lia..].
          -- rewrite (permutedIn_slice_disjoint _ _ _ _ _ (f + c1) (c - c1) Hp) by lia. reflexivity.
        * eapply IHt1; try eassumption; try lia.
          -- intros i Hi. apply Hpe. right. apply in_or_app; auto.
          -- intros i nd Hi. apply Hnd. right. apply in_or_app; auto.
        * rewrite subst_notin by (eapply Dj, leafIn_ids, Hl).
          assert (Hin : forall i, In i (ids t2) -> i <> cur).
          { intros i Hi ->. eapply Dj; [eapply leafIn_ids, Hl|exact Hi]. }
          eapply dec_frame; [exact D2|lia|lia| | |exact PL|].
          -- intros i Hi. apply Hpe; [right; apply in_or_app; auto|auto].
          -- intros i nd Hi. apply Hnd; [right; apply in_or_app; auto|auto].
          -- intros f' c' ? ? ?. eapply permutedIn_slice_disjoint; [exact Hp|lia..].
      + destruct (leafIn_range _ _ _ _ _ _ _ _ _ _ _ _ W2 Hl) as (? & ? & ? & _).
        split; [|split].
        * eapply divided_perm; [exact Hd|exact PL|..].
          -- eapply permutedIn_slice_contains; [exact Hp|lia..].
          -- rewrite (permutedIn_slice_disjoint _ _ _ _ _ f c1 Hp) by lia. reflexivity.
          -- eapply permutedIn_slice_contains; [exact Hp|lia..].
        * rewrite subst_notin by (intros Hc; eapply Dj; [exact Hc|eapply leafIn_ids, Hl]).
          assert (Hin : forall i, In i (ids t1) -> i <> cur).
          { intros i Hi ->. eapply Dj; [exact Hi|eapply leafIn_ids, Hl]. }
          eapply dec_frame; [exact D1|lia|lia| | |exact PL|].
          -- intros i Hi. apply Hpe; [right; apply in_or_app; auto|auto].
          -- intros i nd Hi. apply Hnd; [right; apply in_or_app; auto|auto].
          -- intros f' c' ? ? ?. eapply permutedIn_slice_disjoint; [exact Hp|lia..].
        * eapply IHt2; try eassumption; try lia.
          -- intros i Hi. apply Hpe. right. apply in_or_app; auto.
          -- intros i nd Hi. apply Hnd. right. apply in_or_app; auto.
  Qed.

  (** the partition with what it says about the two sides *)
  Lemma partition_sides : forall fuel axis split f c prims i' prims',
    partition centroid fuel axis split f (wrap (wrap (f + c) - 1)) prims = Ok (i', prims') ->
    0 <= f -> 0 < c -> f + c <= Z.of_nat (length prims) -> Z.of_nat (length prims) < 2 ^ 32 ->
    permutedIn prims prims' f c /\ f <= i' <= f + c /\ length prims' = length prims /\
    Forall (lower axis split) (slice prims' f (i' - f)) /\
    Forall (upper axis split) (slice prims' i' (f + c - i')).
  Proof.
    intros fuel axis split f c prims i' prims' H Hf Hc Hfc Hlen.
    destruct (slice_split _ prims f c Hf ltac:(lia) Hfc) as (a & b & E & La).
    assert (Ls := slice_length _ prims f c Hf ltac:(lia) Hfc).
    eapply partition_spec with (a := a) (L := []) (M := slice prims f c) (R := []) (b := b) in H.
    - destruct H as (L' & R' & E1 & E2 & E3 & HL & HR).
      cbn [app] in E2. rewrite app_nil_r in E2.
      assert (Hl := Permutation_length E2). rewrite app_length in Hl.
      split; [|split; [|split; [|split]]].
      + exists a, (slice prims f c), (L' ++ R'), b. ands; auto. rewrite E1, <- app_assoc; reflexivity.
      + lia.
      + rewrite E1. assert (HE := f_equal (@length Z) E). rewrite !app_length in *. lia.
      + rewrite E1. rewrite (slice_app _ a L' (R' ++ b)) by lia. exact HL.
      + rewrite E1. replace (a ++ L' ++ R' ++ b) with ((a ++ L') ++ R' ++ b) by now rewrite <- app_assoc.
        rewrite (slice_app _ (a ++ L') R' b) by (rewrite ?app_length; lia). exact HR.
    - exact E.
    - cbn. lia.
    - rewrite (wrap_id (f + c)) by lia. f_equal. lia.
    - cbn [app]. rewrite app_nil_r. intros Hc'. rewrite Hc' in Ls. cbn in Ls. lia.
    - exact Hlen.
    - constructor.
    - constructor.
  Qed.

  Definition stDec (st : bstate) (t : tree) : Prop :=
    dec (scur st :: sstack st) (snodes st) (sprims st) t 0 n.
  Definition stepDec (r : stepResult) : Prop :=
    match r with
    | Continue st' => exists t' cs', stInv st' t' cs' /\ stDec st' t'
    | Done st' => exists t', doneInv st' t' /\ dec [] (snodes st') (sprims st') t' 0 n
    end.

  Lemma pop_dec : forall prims nodes nc stack cur t cs,
    inv prims nodes nc stack t cs -> dec stack nodes prims t 0 n ->
    stepDec (popNode prims nodes nc stack cur).
  Proof.
    intros prims nodes nc stack cur t cs H D. unfold popNode. destruct stack as [|id rest]; cbn.
    - exists t. split; [|exact D]. unfold BvhBuild.doneInv; cbn.
      assert (cs = []) by (destruct H as (_ & _ & _ & _ & _ & _ & _ & F2); inversion F2; reflexivity).
      subst. exact H.
    - exists t, cs. split; [exact H|exact D].
  Qed.

  Lemma step_dec : forall st t cs r, stInv st t cs -> stDec st t -> buildStep st = Ok r -> stepDec r.
  Proof.
    intros st t cs r HI HD H.
    destruct (cur_facts _ _ _ _ Hn _ _ _ HI) as (f0 & c0 & cs' & b & -> & Hl & Ha & Hb & Hf & Hc & Hfc & Hlv & Hpl).
    unfold Bvh.buildStep in H.
    assert (Hr : readAt (snodes st) (scur st) = Ok (mkNode b f0 c0)) by (apply readAt_Ok; exact Ha).
    rewrite Hr in H. cbn [bind nlink ncount nbox] in H.
    apply bind_Ok in H. destruct H as (((axis, split), cost) & Hfind & H).
    rewrite (wrap_id (f0 + c0)) in Hfind by lia.
    assert (HIs := HI). unfold BvhBuild.stInv in HIs.
    assert (HIs' := HIs).
    destruct HIs' as (P & L & W & R0 & PI & Enc & ND & F2).
    assert (NI := ids_NoDup _ _ PI).
    assert (Hstack : forall id, id <> scur st -> In id (scur st :: sstack st) -> In id (sstack st))
      by (intros id Hne [E|Hin]; [congruence|exact Hin]).
    (* the node is kept as a leaf, its slots being permuted *)
    assert (Hkeep : forall prims', permutedIn (sprims st) prims' f0 c0 -> kept prims' f0 c0 b ->
      inv prims' (snodes st) (snodeCount st) (sstack st) t cs' /\ dec (sstack st) (snodes st) prims' t 0 n).
    { intros prims' Hp Hk. split; [eapply inv_drop; [exact Hn|exact HIs|exact Hl|exact Hp]|].
      rewrite <- (subst_same t (scur st) f0 c0 Hl NI).
      eapply dec_subst; try eassumption; try reflexivity; try lia.
      - intros id _ Hne. now apply Hstack.
      - auto.
      - cbn. split; [reflexivity|]. split; [reflexivity|]. right; right. eauto. }
    destruct (sge cost (nodeCost b c0)) eqn:Ecost.
    { inversion H; subst r.
      destruct (Hkeep (sprims st)) as [K1 K2]; [apply permutedIn_refl; lia| |eapply pop_dec; eassumption].
      exists axis, split, cost. split; [|auto]. exists (sprims st). auto. }
    apply bind_Ok in H. destruct H as ((i, prims') & Hpart & H).
    destruct (partition_sides _ _ _ _ _ _ _ _ Hpart) as (Hperm & Hi & Hpl' & HLo & HUp); [lia..|].
    assert (Hfound : found prims' f0 c0 axis split cost).
    { exists (sprims st). split; [congruence|]. split; [|exact Hfind].
      eapply permutedIn_slice_contains; [exact Hperm|lia..]. }
    rewrite (wrap_id (i - f0)) in H by lia.
    set (k1 := i - f0) in *.
    destruct ((k1 =? 0) || (k1 =? c0)) eqn:Ek.
    { inversion H; subst r.
      destruct (Hkeep prims') as [K1 K2]; [exact Hperm| |eapply pop_dec; eassumption].
      exists axis, split, cost. split; [exact Hfound|]. right.
      apply orb_true_iff in Ek. destruct Ek as [Ek|Ek]; apply Z.eqb_eq in Ek.
      - right. replace i with f0 in HUp by (unfold k1 in Ek; lia). replace (f0 + c0 - f0) with c0 in HUp by lia. exact HUp.
      - left. rewrite Ek in HLo. exact HLo. }
    apply orb_false_iff in Ek. destruct Ek as [Ek1 Ek2].
    apply Z.eqb_neq in Ek1, Ek2.
    assert (LL := leaves_le _ _ _ _ _ _ _ _ _ W).
    assert (Hids : forall id, In id (ids t) -> 0 <= id < snodeCount st).
    { intros id Hid. apply In_iota. eapply Permutation_in; [exact PI|exact Hid]. }
    assert (Hcur : 0 <= scur st < snodeCount st) by (apply Hids; eapply leafIn_ids, Hl).
    set (nc := snodeCount st) in *.
    rewrite (wrap_id (c0 - k1)), (wrap_id (nc + 1)), (wrap_id (nc + 2)) in H by lia.
    apply bind_Ok in H. destruct H as (nodes1 & Hw1 & H).
    apply bind_Ok in H. destruct H as (b1 & Hb1 & H).
    apply bind_Ok in H. destruct H as (nodes2 & Hw2 & H).
    apply bind_Ok in H. destruct H as (b2 & Hb2 & H).
    apply bind_Ok in H. destruct H as (nodes3 & Hw3 & H).
    rewrite calculateNodeAabb_fold in Hb1 by lia.
    rewrite calculateNodeAabb_fold in Hb2 by lia.
    replace i with (f0 + k1) in Hb2, Hw3, HUp by (unfold k1; lia).
    replace (f0 + c0 - (f0 + k1)) with (c0 - k1) in HUp by lia.
    apply writeAt_at in Hw1. destruct Hw1 as (A1 & A2 & A3).
    apply writeAt_at in Hw2. destruct Hw2 as (A4 & A5 & A6).
    apply writeAt_at in Hw3. destruct Hw3 as (A7 & A8 & A9).
    assert (Acur : at_ nodes3 (scur st) (mkNode b nc 0)) by (apply A8; [lia|]; apply A5; [lia|]; exact A1).
    destruct (inv_split boxInit boxAdd root n Hn (sprims st) (snodes st) nc (scur st) (sstack st) t cs'
      f0 c0 prims' nodes3 b b1 b2 k1) as (t' & HI' & Hl1 & Hl2 & Hni1 & Hni2 & Et').
    - exact HIs.
    - exact Hl.
    - exact Hperm.
    - lia.
    - destruct Hb as [Hb|(Hid & s & Hs & Hfold)]; [now left|]. right. split; [exact Hid|].
      exists s. split; [|exact Hfold]. rewrite Hs. eapply permutedIn_slice_contains; [exact Hperm|lia..].
    - exact Acur.
    - apply A8; [lia|]. exact A4.
    - exact Hb1.
    - exact A7.
    - exact Hb2.
    - intros id nd H1 H2 H3 H4. apply A8; [lia|]. apply A5; [lia|]. apply A2; [lia|]. exact H4.
    - congruence.
    - (* the decisions of the new tree, whatever the new pending nodes *)
      assert (HD' : forall pend', (forall id, In id (sstack st) -> In id pend') ->
        (2 < k1 -> In nc pend') -> (2 < c0 - k1 -> In (nc + 1) pend') -> dec pend' nodes3 prims' t' 0 n).
      { intros pend' Hp1 Hp2 Hp3. rewrite Et'. eapply dec_subst; try eassumption; try reflexivity; try lia.
        - intros id _ Hne Hin. apply Hp1. apply Hstack; assumption.
        - intros id nd Hid Hne Hat. apply Hids in Hid. apply A8; [lia|]. apply A5; [lia|]. apply A2; [lia|]. exact Hat.
        - cbn [dec rootId]. exists b, k1. split; [lia|]. split; [exact Acur|]. split.
          { exists axis, split, cost. ands; assumption. }
          split; (split; [reflexivity|]; split; [reflexivity|]).
          + destruct (Z.lt_ge_cases 2 k1); auto.
          + destruct (Z.lt_ge_cases 2 (c0 - k1)); auto. }
      destruct HI' as (P' & L' & W' & R0' & PI' & Enc' & ND' & F2').
      destruct (Z.ltb_spec k1 (c0 - k1)) as [Ec|Ec].
      + destruct (Z.ltb_spec 2 (c0 - k1)) as [E2|E2].
        * inversion H; subst r. cbn [stepDec].
          destruct (Z.ltb_spec 2 k1) as [E1|E1].
          -- exists t', (c0 - k1 :: k1 :: cs'). split.
             ++ unfold BvhBuild.stInv, BvhTree.inv; cbn [sprims snodes snodeCount scur sstack]. ands; try assumption.
                ** constructor; [cbn; intros [?|?]; [lia|contradiction]|]. constructor; assumption.
                ** constructor; [exists (f0 + k1); exact Hl2|]. constructor; [exists f0; exact Hl1|exact F2'].
             ++ apply HD'; cbn; auto.
          -- exists t', (c0 - k1 :: cs'). split.
             ++ unfold BvhBuild.stInv, BvhTree.inv; cbn [sprims snodes snodeCount scur sstack]. ands; try assumption.
                ** constructor; assumption.
                ** constructor; [exists (f0 + k1); exact Hl2|exact F2'].
             ++ apply HD'; cbn; auto. lia.
        * inversion H; subst r. eapply pop_dec; [unfold BvhTree.inv; ands; eassumption|]. apply HD'; auto; lia.
      + destruct (Z.ltb_spec 2 k1) as [E1|E1].
        * inversion H; subst r. cbn [stepDec].
          destruct (Z.ltb_spec 2 (c0 - k1)) as [E2|E2].
          -- exists t', (k1 :: c0 - k1 :: cs'). split.
             ++ unfold BvhBuild.stInv, BvhTree.inv; cbn [sprims snodes snodeCount scur sstack]. ands; try assumption.
                ** constructor; [cbn; intros [?|?]; [lia|contradiction]|]. constructor; assumption.
                ** constructor; [exists f0; exact Hl1|]. constructor; [exists (f0 + k1); exact Hl2|exact F2'].
             ++ apply HD'; cbn; auto.
          -- exists t', (k1 :: cs'). split.
             ++ unfold BvhBuild.stInv, BvhTree.inv; cbn [sprims snodes snodeCount scur sstack]. ands; try assumption.
                ** constructor; assumption.
                ** constructor; [exists f0; exact Hl1|exact F2'].
             ++ apply HD'; cbn; auto. lia.
        * inversion H; subst r. eapply pop_dec; [unfold BvhTree.inv; ands; eassumption|]. apply HD'; auto; lia.
  Qed.

  Lemma loop_dec : forall fuel st t cs st', stInv st t cs -> stDec st t -> buildLoop fuel st = Ok st' ->
    exists t', doneInv st' t' /\ dec [] (snodes st') (sprims st') t' 0 n.
  Proof.
    induction fuel as [|fuel IH]; intros st t cs st' HI HD H; [discriminate|]. cbn [Bvh.buildLoop] in H.
    apply bind_Ok in H. destruct H as (r & Hr & H).
    assert (HO := step_dec _ _ _ _ HI HD Hr). destruct r as [st1|st1]; cbn in HO.
    - destruct HO as (t' & cs' & HI' & HD'). eapply IH; eassumption.
    - inversion H; subst. exact HO.
  Qed.

  (** from the tree to the arrays *)
  Lemma dec_arrays : forall t nodes prims f c,
    wft nodes prims t f c -> dec [] nodes prims t f c -> f + c <= Z.of_nat (length prims) -> NoDup (ids t) ->
    (forall id left, In id (ids t) -> innerAt nodes id left ->
       exists b f c order axis split cost,
         at_ nodes id (mkNode b left 0) /\ 0 <= f /\ 0 < c /\ f + c <= Z.of_nat (length prims) /\
         (forall k, under nodes id k <-> f <= k < f + c) /\
         reordered prims order f c /\ findSplit f (f + c) order = Ok (axis, split, cost) /\
         sge cost (nodeCost b c) = false /\
         (forall k q, under nodes left k -> at_ prims k q -> lowerSide centroid axis split q) /\
         (forall k q, under nodes (left + 1) k -> at_ prims k q -> upperSide centroid axis split q)) /\
    (forall id f c, In id (ids t) -> leafAt nodes id f c -> 2 < c ->
       exists b order axis split cost,
         at_ nodes id (mkNode b f c) /\ 0 <= f /\ f + c <= Z.of_nat (length prims) /\
         reordered prims order f c /\ findSplit f (f + c) order = Ok (axis, split, cost) /\
         (sge cost (nodeCost b c) = true \/
          (forall k q, f <= k < f + c -> at_ prims k q -> lowerSide centroid axis split q) \/
          (forall k q, f <= k < f + c -> at_ prims k q -> upperSide centroid axis split q))).
  Proof.
    assert (Sl : forall (Q : Z -> Prop) prims f c, 0 <= f -> 0 <= c -> Forall Q (slice prims f c) ->
      forall k q, f <= k < f + c -> at_ prims k q -> Q q).
    { intros Q prims f c Hf Hc HF k q Hk Hat. rewrite Forall_forall in HF. apply HF. apply In_slice; [assumption..|]. eauto. }
    induction t; cbn [BvhTree.wft dec ids]; intros nodes prims f c W D Hlen N.
    - destruct W as (-> & -> & Hf & Hc & b & Ha & _). destruct D as (_ & _ & D). split.
      + intros i left [<-|[]] (nd & Hnd & Hz & _). rewrite (at_fun _ _ _ _ _ Hnd Ha) in Hz. cbn in Hz. lia.
      + intros i f' c' [<-|[]] (nd & Hnd & Hz & E1 & E2) H2. rewrite (at_fun _ _ _ _ _ Hnd Ha) in E1, E2.
        cbn in E1, E2. subst f' c'. destruct D as [[]|[D|(b' & Ha' & axis & split & cost & (o & O1 & O2 & O3) & K)]]; [lia|].
        exists b', o, axis, split, cost. split; [exact Ha'|]. split; [lia|]. split; [lia|]. split; [split; assumption|]. split; [exact O3|].
        destruct K as [K|[K|K]]; [auto|right; left|right; right]; apply Sl; (lia || assumption).
    - assert (W0 := W). destruct W as (b0 & c1' & Ha0 & _ & _ & Hr & Hf & Hc1' & W1 & W2).
      destruct D as (b & c1 & Hc1 & Ha & Hd & D1 & D2).
      assert (c1' = c1) by (eapply size_unique; eassumption). subst c1'.
      inversion N as [|x l Hni N']; subst x l. apply NoDup_app_inv in N'. destruct N' as (N1 & N2 & _).
      destruct (IHt1 _ _ _ _ W1 D1 ltac:(lia) N1) as [I1 J1]. destruct (IHt2 _ _ _ _ W2 D2 ltac:(lia) N2) as [I2 J2].
      split.
      + intros i left Hin HA. destruct Hin as [<-|Hin].
        * destruct HA as (nd & Hnd & Hz & El). rewrite (at_fun _ _ _ _ _ Hnd Ha) in El. cbn in El. subst left.
          destruct Hd as (axis & split & cost & (o & O1 & O2 & O3) & Hcost & HL & HU).
          exists b, f, c, o, axis, split, cost. split; [exact Ha|].
          split; [lia|]. split; [lia|]. split; [lia|].
          assert (HA : innerAt nodes id (rootId t1)) by (exists (mkNode b (rootId t1) 0); cbn; auto).
          split.
          { intros k. split.
            - intros Hu. eapply under_range with (s := Inner id t1 t2) in Hu; [exact Hu| |reflexivity].
              exact W0.
            - intros Hk. destruct (Z.lt_ge_cases k (f + c1)).
              + eapply under_left; [exact HA|]. eapply range_under; [exact W1|lia].
              + eapply under_right; [exact HA|]. rewrite <- Hr. eapply range_under; [exact W2|lia]. }
          split; [split; assumption|]. split; [exact O3|]. split; [exact Hcost|]. split.
          -- intros k q Hu Hq. eapply under_range in Hu; [|exact W1|reflexivity].
             eapply (Sl _ prims f c1); try eassumption; lia.
          -- intros k q Hu Hq. rewrite <- Hr in Hu. eapply under_range in Hu; [|exact W2|reflexivity].
             eapply (Sl _ prims (f + c1) (c - c1)); try eassumption; lia.
        * apply in_app_or in Hin. destruct Hin; eauto.
      + intros i f' c' Hin HA H2. destruct Hin as [<-|Hin].
        * destruct HA as (nd & Hnd & Hz & _). rewrite (at_fun _ _ _ _ _ Hnd Ha) in Hz. cbn in Hz. lia.
        * apply in_app_or in Hin. destruct Hin; eauto.
  Qed.

  Theorem recreate_decisions : forall nodes prims, recreate root n = Ok (nodes, prims) ->
    splitDecisions centroid findSplit nodeCost nodes prims.
  Proof.
    intros nodes prims H. unfold Bvh.recreate in H.
    destruct (init_inv boxInit boxAdd root n Hn) as (st0 & E0 & HI). rewrite E0 in H. cbn [bind] in H.
    apply bind_Ok in H. destruct H as (st & Hloop & H). inversion H; subst. clear H.
    assert (HD0 : stDec st0 (Leaf 0 0 n)).
    { unfold stDec. cbn. split; [reflexivity|]. split; [reflexivity|]. left. left.
      unfold initState in E0. apply bind_Ok in E0. destruct E0 as (nd & _ & E0). inversion E0. reflexivity. }
    destruct (loop_dec _ _ _ _ _ HI HD0 Hloop) as (t & HDn & HDec).
    assert (HF := done_finished boxInit boxAdd root n _ _ HDn).
    assert (Hpl := inv_prims_length boxInit boxAdd root n Hn _ _ _ _ _ _ HDn).
    destruct HDn as (P & L & W & R0 & PI & Enc & ND & F2).
    assert (NI := ids_NoDup _ _ PI).
    assert (Hfr : forall id nd, In id (ids t) -> at_ (snodes st) id nd ->
      at_ (firstn (Z.to_nat (snodeCount st)) (snodes st)) id nd).
    { intros id nd Hid [Ha0 Ha]. split; [exact Ha0|]. rewrite nth_error_firstn_lt; [exact Ha|].
      assert (0 <= id < snodeCount st) by (apply In_iota; eapply Permutation_in; [exact PI|exact Hid]). lia. }
    assert (HDec' : dec [] (firstn (Z.to_nat (snodeCount st)) (snodes st)) (sprims st) t 0 n).
    { eapply dec_frame; [exact HDec|lia|lia|auto|exact Hfr|reflexivity|reflexivity]. }
    destruct HF as (_ & W' & _ & PI' & EL).
    destruct (dec_arrays _ _ _ _ _ W' HDec' ltac:(lia) NI) as [I J].
    set (nodes := firstn (Z.to_nat (snodeCount st)) (snodes st)) in *.
    assert (Hids : forall id nd, at_ nodes id nd -> In id (ids t)).
    { intros id nd Hat. apply at_bound in Hat. eapply Permutation_in; [symmetry; exact PI'|]. apply In_iota. exact Hat. }
    split.
    - intros id left HA. apply I; [|exact HA]. destruct HA as (nd & Hnd & _). eapply Hids, Hnd.
    - intros id f c HA H2. apply J; [|exact HA|exact H2]. destruct HA as (nd & Hnd & _). eapply Hids, Hnd.
  Qed.
End Decide.

(** ** The two overloads *)
Section Overloads.
  Variable p : path.
  Variable cen : Z -> outcome (vec4 f32).
  Variable add : aabb f32 -> Z -> outcome (aabb f32).

  Lemma omap_Ok : forall A C (g : A -> C) (o : outcome A) c, omap g o = Ok c -> exists a, o = Ok a /\ g a = c.
  Proof. intros A C g [a| | |] c H; try discriminate. injection H as <-. eauto. Qed.

  Lemma lower_beneath : forall axis split q, lowerSide (centroidAt cen) axis split q -> beneath cen axis split q.
  Proof. intros axis split q (c & H & Hs). apply omap_Ok in H. destruct H as (w & Hw & <-). exists w. auto. Qed.
  Lemma upper_above : forall axis split q, upperSide (centroidAt cen) axis split q -> above cen axis split q.
  Proof. intros axis split q (c & H & Hs). apply omap_Ok in H. destruct H as (w & Hw & <-). exists w. auto. Qed.

  Lemma buildWith_sah : forall root n nodes prims, 1 <= n <= 2 ^ 31 ->
    buildWith p cen add root n = Ok (nodes, prims) -> sahTree p cen add nodes prims.
  Proof.
    intros root n nodes prims Hn H.
    assert (HF := recreate_partial _ _ _ _ _ _ _ Hn _ _ H). destruct HF as (t & HF).
    assert (Hlen : Z.of_nat (length prims) = n).
    { destruct (finished_permutation _ _ _ _ Hn _ _ _ HF) as (E & _). exact E. }
    destruct (recreate_decisions _ _ _ _ _ _ _ Hn _ _ H) as [I J].
    assert (Best : forall f c order axis split cost, 0 <= f -> 0 <= c -> f + c <= n -> reordered prims order f c ->
      findBestSplitPlane p cen add f (f + c) order = Ok (axis, split, cost) ->
      Permutation (entries order f c) (entries prims f c) /\ bestOf p cen add (entries order f c) (axis, split, cost)).
    { intros f c order axis split cost Hf Hc Hfc [O1 O2] Hb. split; [exact O2|].
      apply search_best in Hb; [|lia..]. replace (f + c - f) with c in Hb by lia. exact Hb. }
    split.
    - intros id left HA.
      destruct (I id left HA) as (b & f & c & order & axis & split & cost & H1 & B1 & B2 & B3 & H2 & H3 & H4 & H5 & H6 & H7).
      destruct (Best f c order axis split cost) as [P1 P2]; [lia..|exact H3|exact H4|].
      exists b, f, c, (entries order f c), axis, split, cost. ands; try assumption.
      + intros k q Hu Hq. apply lower_beneath. eapply H6; eassumption.
      + intros k q Hu Hq. apply upper_above. eapply H7; eassumption.
    - intros id f c HA H2.
      destruct (J id f c HA H2) as (b & order & axis & split & cost & H1 & B1 & B3 & H3 & H4 & H5).
      destruct (Best f c order axis split cost) as [P1 P2]; [lia..|exact H3|exact H4|].
      exists b, (entries order f c), axis, split, cost. ands; try assumption.
      destruct H5 as [H5|[H5|H5]]; [left; exact H5|right; left|right; right]; intros k q Hk Hq.
      + apply lower_beneath. eapply H5; eassumption.
      + apply upper_above. eapply H5; eassumption.
  Qed.
End Overloads.

Theorem recreateBoxes_sah : forall p boxes root given nodes prims,
  1 <= Z.of_nat (length boxes) <= 2 ^ 31 -> recreateBoxes p boxes root given = Ok (nodes, prims) ->
  sahTree p (boxCentroids boxes given) (addBox p boxes) nodes prims.
Proof. intros p boxes root given nodes prims Hn H. eapply buildWith_sah; eassumption. Qed.
Theorem recreateTriangles_sah : forall p im vm root ic vs is given nodes prims,
  1 <= ic / 3 <= 2 ^ 31 -> recreateTriangles p im vm root ic vs is given = Ok (nodes, prims) ->
  sahTree p (triCentroids im vm vs is given) (addTriangle p im vm vs is) nodes prims.
Proof.
  intros p im vm root ic vs is given nodes prims Hn H. unfold recreateTriangles in H.
  destruct (negb _); [discriminate|]. eapply buildWith_sah; eassumption.
Qed.
