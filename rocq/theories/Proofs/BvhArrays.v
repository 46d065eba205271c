(** From the tree of the build invariant to statements about the raw arrays, and the
    traversals. *)
From Coq Require Import ZArith List Lia Permutation Bool Sorted.
From Verif.Model Require Import Outcome Scalar Packed Bvh.
From Verif.Spec Require Import BvhSpec.
From Verif.Proofs Require Import ArrayLemmas BvhLoops BvhTree BvhBuild.
Import ListNotations.
Local Open Scope Z_scope.
Local Opaque Z.mul.

Section Arrays.
  Context {B : Type}.
  Variable boxInit : B.
  Variable boxAdd : B -> Z -> outcome B.
  Variables (root : B) (n : Z).
  Hypothesis Hn : 1 <= n <= 2 ^ 31.

  Notation wft := (wft boxInit boxAdd root n).
  Notation finished := (finished boxInit boxAdd root n).

  Lemma wft_leaf : forall t nodes prims f c p nd, wft nodes prims t f c -> In p (ids t) ->
    at_ nodes p nd -> ncount nd <> 0 -> leafIn t p (nlink nd) (ncount nd).
  Proof.
    induction t; cbn [wft BvhTree.wft ids leafIn]; intros nodes prims f c p nd H Hin Ha Hnz.
    - destruct Hin as [->|[]]. destruct H as (-> & -> & _ & _ & b & Hb & _).
      rewrite (at_fun _ _ _ _ _ Ha Hb). cbn. auto.
    - destruct H as (b & c1 & Hb & _ & _ & _ & _ & _ & H1 & H2). destruct Hin as [->|Hin].
      + rewrite (at_fun _ _ _ _ _ Ha Hb) in Hnz. cbn in Hnz. lia.
      + apply in_app_or in Hin. destruct Hin; [left|right]; eauto.
  Qed.

  Fixpoint edges (t : tree) : list (Z * Z) :=
    match t with
    | Leaf _ _ _ => []
    | Inner id l r => (rootId l, id) :: (rootId r, id) :: edges l ++ edges r
    end.

  Lemma edges_ids : forall t, Permutation (rootId t :: map fst (edges t)) (ids t).
  Proof.
    induction t; cbn [edges ids map fst rootId]; [reflexivity|].
    apply perm_skip. rewrite map_app. rewrite <- IHt1, <- IHt2. cbn.
    apply perm_skip. rewrite <- Permutation_middle. reflexivity.
  Qed.

  Lemma edges_sound : forall t nodes prims f c ch p, wft nodes prims t f c -> In (ch, p) (edges t) ->
    exists left, innerAt nodes p left /\ (ch = left \/ ch = left + 1) /\ p < left.
  Proof.
    induction t; cbn [wft BvhTree.wft edges]; intros nodes prims f c ch p H Hin; [destruct Hin|].
    destruct H as (b & c1 & Hb & _ & Hlt & Hr & _ & _ & H1 & H2).
    destruct Hin as [E|[E|Hin]]; [inversion E; subst..|].
    - exists (rootId t1). split; [|auto]. exists (mkNode b (rootId t1) 0). auto.
    - exists (rootId t1). split; [|auto]. exists (mkNode b (rootId t1) 0). auto.
    - apply in_app_or in Hin. destruct Hin; eauto.
  Qed.

  Lemma edges_complete : forall t nodes prims f c p nd, wft nodes prims t f c -> In p (ids t) ->
    at_ nodes p nd -> ncount nd = 0 ->
    In (nlink nd, p) (edges t) /\ In (nlink nd + 1, p) (edges t).
  Proof.
    induction t; cbn [wft BvhTree.wft ids edges]; intros nodes prims f c p nd H Hin Ha Hnz.
    - destruct Hin as [->|[]]. destruct H as (-> & -> & _ & ? & b & Hb & _).
      rewrite (at_fun _ _ _ _ _ Ha Hb) in Hnz. cbn in Hnz. lia.
    - destruct H as (b & c1 & Hb & _ & _ & Hr & _ & _ & H1 & H2). destruct Hin as [->|Hin].
      + rewrite (at_fun _ _ _ _ _ Ha Hb). cbn [nlink]. split; [now left|right; left].
        now rewrite Hr.
      + apply in_app_or in Hin. destruct Hin as [Hin|Hin].
        * destruct (IHt1 _ _ _ _ _ _ H1 Hin Ha Hnz). split; right; right; apply in_or_app; auto.
        * destruct (IHt2 _ _ _ _ _ _ H2 Hin Ha Hnz). split; right; right; apply in_or_app; auto.
  Qed.

  Lemma NoDup_fst_fun : forall A C (l : list (A * C)) a c c', NoDup (map fst l) ->
    In (a, c) l -> In (a, c') l -> c = c'.
  Proof.
    induction l as [|[a0 c0] l IH]; intros a c c' N H H'; [destruct H|]. cbn in N. inversion N; subst.
    destruct H as [E|H], H' as [E'|H'].
    - congruence.
    - inversion E; subst. exfalso. apply H2. apply in_map_iff. exists (a, c'). auto.
    - inversion E'; subst. exfalso. apply H2. apply in_map_iff. exists (a, c). auto.
    - eauto.
  Qed.

  Lemma finished_ids : forall nodes prims t, finished nodes prims t ->
    forall id, In id (ids t) <-> 0 <= id < Z.of_nat (length nodes).
  Proof.
    intros nodes prims t (P & W & R0 & PI & LN) id. rewrite <- In_iota. split; intros H.
    - eapply Permutation_in; [exact PI|exact H].
    - eapply Permutation_in; [symmetry; exact PI|exact H].
  Qed.

  Lemma leaf_cover : forall t nodes prims f c k, wft nodes prims t f c -> f <= k < f + c ->
    exists id f0 c0, leafIn t id f0 c0 /\ f0 <= k < f0 + c0.
  Proof.
    induction t; cbn [wft BvhTree.wft leafIn]; intros nodes prims f c k H Hk.
    - destruct H as (-> & -> & _). exists id, f, c. auto.
    - destruct H as (b & c1 & _ & _ & _ & _ & _ & Hc & H1 & H2).
      destruct (Z.lt_ge_cases k (f + c1)).
      + destruct (IHt1 _ _ _ _ k H1 ltac:(lia)) as (i & f0 & c0 & ? & ?). exists i, f0, c0. auto.
      + destruct (IHt2 _ _ _ _ k H2 ltac:(lia)) as (i & f0 & c0 & ? & ?). exists i, f0, c0. auto.
  Qed.

  Lemma leaf_unique : forall t nodes prims f c k id f0 c0 id' f0' c0', wft nodes prims t f c ->
    leafIn t id f0 c0 -> f0 <= k < f0 + c0 -> leafIn t id' f0' c0' -> f0' <= k < f0' + c0' -> id = id'.
  Proof.
    induction t; intros nodes prims f c k i f0 c0 i' f0' c0' W H Hk H' Hk'.
    - cbn in H, H'. destruct H as (-> & _), H' as (-> & _). reflexivity.
    - cbn [wft BvhTree.wft leafIn] in *.
      destruct W as (b & c1 & _ & _ & _ & _ & _ & Hc & H1 & H2).
      destruct H as [H|H], H' as [H'|H'].
      + eapply IHt1; eassumption.
      + destruct (leafIn_range _ _ _ _ _ _ _ _ _ _ _ _ H1 H) as (? & ? & ? & _).
        destruct (leafIn_range _ _ _ _ _ _ _ _ _ _ _ _ H2 H') as (? & ? & ? & _). lia.
      + destruct (leafIn_range _ _ _ _ _ _ _ _ _ _ _ _ H2 H) as (? & ? & ? & _).
        destruct (leafIn_range _ _ _ _ _ _ _ _ _ _ _ _ H1 H') as (? & ? & ? & _). lia.
      + eapply IHt2; eassumption.
  Qed.

  Lemma leafAt_leafIn : forall nodes prims t, finished nodes prims t -> forall id f c,
    leafAt nodes id f c <-> leafIn t id f c.
  Proof.
    intros nodes prims t HF id f c. assert (HI := finished_ids _ _ _ HF).
    destruct HF as (P & W & R0 & PI & LN). split.
    - intros (nd & Ha & Hz & <- & <-). eapply wft_leaf; try eassumption.
      apply HI. eapply at_bound, Ha.
    - intros Hl. destruct (leafIn_range _ _ _ _ _ _ _ _ _ _ _ _ W Hl) as (? & ? & ? & _ & b & Ha & _).
      exists (mkNode b f c). cbn. ands; auto. lia.
  Qed.

  Theorem finished_permutation : forall nodes prims t, finished nodes prims t ->
    isPermutationOfFirst prims n.
  Proof.
    intros nodes prims t (P & _). split; [|split].
    - rewrite <- (Permutation_length P). apply iota_length. lia.
    - eapply Permutation_NoDup; [exact P|apply NoDup_iota].
    - intros q. rewrite <- In_iota. split; intros H.
      + eapply Permutation_in; [symmetry; exact P|exact H].
      + eapply Permutation_in; [exact P|exact H].
  Qed.

  Theorem finished_leaves : forall nodes prims t, finished nodes prims t -> leavesPartition nodes n.
  Proof.
    intros nodes prims t HF. assert (HL := leafAt_leafIn _ _ _ HF).
    assert (HF' := HF). destruct HF' as (P & W & R0 & PI & LN). split.
    - intros id f c H. apply HL in H.
      destruct (leafIn_range _ _ _ _ _ _ _ _ _ _ _ _ W H) as (? & ? & ? & _). lia.
    - intros k Hk. destruct (leaf_cover _ _ _ _ _ k W ltac:(lia)) as (id & f0 & c0 & Hl & Hr).
      exists id. split.
      + exists f0, c0. split; [|exact Hr]. apply HL. exact Hl.
      + intros id' (f0' & c0' & Hl' & Hr'). apply HL in Hl'. eapply leaf_unique; eassumption.
  Qed.

  Theorem finished_tree : forall nodes prims t, finished nodes prims t -> fullBinaryTree nodes n.
  Proof.
    intros nodes prims t HF. assert (HI := finished_ids _ _ _ HF).
    destruct HF as (P & W & R0 & PI & LN).
    assert (LL := leaves_le _ _ _ _ _ _ _ _ _ W).
    assert (NI := ids_NoDup _ _ PI).
    assert (NE : NoDup (rootId t :: map fst (edges t))).
    { eapply Permutation_NoDup; [symmetry; apply edges_ids|exact NI]. }
    inversion NE as [|x l _ NE']; subst x l.
    assert (Hch : forall ch p, In (ch, p) (edges t) -> 0 <= ch < Z.of_nat (length nodes)).
    { intros ch p Hin. apply HI. eapply Permutation_in; [apply edges_ids|]. right.
      apply in_map_iff. exists (ch, p). auto. }
    unfold fullBinaryTree. split; [lia|]. split; [exists (leaves t - 1); lia|]. split.
    - intros id left (nd & Ha & Hz & <-).
      destruct (edges_complete _ _ _ _ _ id nd W) as (E1 & E2); auto.
      { apply HI. eapply at_bound, Ha. }
      destruct (edges_sound _ _ _ _ _ _ _ W E1) as (left & (nd' & Ha' & _ & El) & _ & Hlt).
      rewrite (at_fun _ _ _ _ _ Ha Ha') in *. apply Hch in E2. lia.
    - intros id Hid. assert (Hin : In id (ids t)) by (apply HI; lia).
      assert (Hin' : In id (rootId t :: map fst (edges t))).
      { eapply Permutation_in; [symmetry; apply edges_ids|exact Hin]. }
      destruct Hin' as [E|Hin']; [lia|]. apply in_map_iff in Hin'.
      destruct Hin' as ((ch & p) & E & Hp). cbn in E. subst ch.
      exists p. split.
      + destruct (edges_sound _ _ _ _ _ _ _ W Hp) as (left & ? & ? & _). eauto.
      + intros p' (left & (nd & Ha & Hz & <-) & Hor).
        destruct (edges_complete _ _ _ _ _ p' nd W) as (E1 & E2); auto.
        { apply HI. eapply at_bound, Ha. }
        eapply NoDup_fst_fun; [exact NE'|exact Hp|]. destruct Hor as [->| ->]; assumption.
  Qed.

  (** ** Subtrees and boxes *)
  Lemma under_range : forall nodes id k, under nodes id k -> forall prims s f c,
    wft nodes prims s f c -> rootId s = id -> f <= k < f + c.
  Proof.
    intros nodes id k H. induction H as [id fi ci k Hl Hk|id left k Hi Hu IH|id left k Hi Hu IH];
      intros prims s f c W E.
    - destruct Hl as (nd & Ha & Hz & <- & <-). destruct s; cbn in *.
      + destruct W as (-> & -> & _ & ? & b & Hb & _). subst.
        assert (Eq := at_fun _ _ _ _ _ Ha Hb); subst nd; cbn in *. lia.
      + destruct W as (b & c1 & Hb & _). subst. assert (Eq := at_fun _ _ _ _ _ Ha Hb); subst nd; cbn in *. lia.
    - destruct Hi as (nd & Ha & Hz & <-). destruct s; cbn in *.
      + destruct W as (-> & -> & _ & ? & b & Hb & _). subst.
        assert (Eq := at_fun _ _ _ _ _ Ha Hb); subst nd; cbn in *. lia.
      + destruct W as (b & c1 & Hb & _ & _ & Hr & _ & Hc & W1 & W2). subst.
        assert (Eq := at_fun _ _ _ _ _ Ha Hb); subst nd; cbn in *.
        specialize (IH _ _ _ _ W1 eq_refl). lia.
    - destruct Hi as (nd & Ha & Hz & <-). destruct s; cbn in *.
      + destruct W as (-> & -> & _ & ? & b & Hb & _). subst.
        assert (Eq := at_fun _ _ _ _ _ Ha Hb); subst nd; cbn in *. lia.
      + destruct W as (b & c1 & Hb & _ & _ & Hr & _ & Hc & W1 & W2). subst.
        assert (Eq := at_fun _ _ _ _ _ Ha Hb); subst nd; cbn in *.
        specialize (IH _ _ _ _ W2 Hr). lia.
  Qed.

  Lemma range_under : forall s nodes prims f c k, wft nodes prims s f c -> f <= k < f + c ->
    under nodes (rootId s) k.
  Proof.
    induction s; cbn [wft BvhTree.wft rootId]; intros nodes prims f c k W Hk.
    - destruct W as (-> & -> & _ & ? & b & Ha & _). eapply under_leaf; [|exact Hk].
      exists (mkNode b f c). cbn. ands; auto. lia.
    - destruct W as (b & c1 & Ha & _ & _ & Hr & _ & Hc & W1 & W2).
      assert (Hi : innerAt nodes id (rootId s1)) by (exists (mkNode b (rootId s1) 0); auto).
      destruct (Z.lt_ge_cases k (f + c1)).
      + eapply under_left; [exact Hi|]. eapply IHs1; [exact W1|lia].
      + eapply under_right; [exact Hi|]. rewrite <- Hr. eapply IHs2; [exact W2|lia].
  Qed.

  Lemma wft_at : forall t nodes prims f c id, wft nodes prims t f c -> In id (ids t) ->
    exists s f' c', rootId s = id /\ wft nodes prims s f' c' /\ f <= f' /\ f' + c' <= f + c.
  Proof.
    induction t; intros nodes prims f c i W Hin.
    - destruct Hin as [<-|[]]. exists (Leaf id first count), f, c. split; [reflexivity|]. split; [exact W|lia].
    - cbn [ids] in Hin. destruct Hin as [<-|Hin].
      + exists (Inner id t1 t2), f, c. split; [reflexivity|]. split; [exact W|lia].
      + cbn [wft BvhTree.wft] in W. destruct W as (b & c1 & Ha & _ & _ & Hr & _ & Hc & W1 & W2).
        apply in_app_or in Hin. destruct Hin as [Hin|Hin].
        * destruct (IHt1 _ _ _ _ _ W1 Hin) as (s & f' & c' & ? & ? & ? & ?). exists s, f', c'. ands; auto; lia.
        * destruct (IHt2 _ _ _ _ _ W2 Hin) as (s & f' & c' & ? & ? & ? & ?). exists s, f', c'. ands; auto; lia.
  Qed.

  Lemma wft_box : forall s nodes prims f c nd, wft nodes prims s f c -> at_ nodes (rootId s) nd ->
    boxOK boxInit boxAdd root n prims (rootId s) (nbox nd) f c.
  Proof.
    intros s nodes prims f c nd W Ha. destruct s; cbn in *.
    - destruct W as (-> & -> & _ & _ & b & Hb & Hbox). rewrite (at_fun _ _ _ _ _ Ha Hb). exact Hbox.
    - destruct W as (b & c1 & Hb & Hbox & _). rewrite (at_fun _ _ _ _ _ Ha Hb). exact Hbox.
  Qed.

  (** A non-root node's box is the accumulation of exactly the primitives below it. *)
  Theorem finished_boxes : forall nodes prims t, finished nodes prims t ->
    (forall nd, at_ nodes 0 nd -> nbox nd = root) /\
    (forall id nd, 1 <= id -> at_ nodes id nd ->
       exists l, NoDup l /\ foldBox boxAdd l boxInit = Ok (nbox nd) /\
         forall q, In q l <-> exists k, under nodes id k /\ at_ prims k q).
  Proof.
    intros nodes prims t HF. assert (HI := finished_ids _ _ _ HF).
    assert (HP := finished_permutation _ _ _ HF). destruct HP as (HPl & HPn & _).
    destruct HF as (P & W & R0 & PI & LN). split.
    - intros nd Ha. assert (Hb := wft_box _ _ _ _ _ nd W).
      rewrite R0 in Hb. specialize (Hb Ha). destruct Hb as [(_ & ? & _)|(? & _)]; [assumption|lia].
    - intros id nd Hid Ha.
      destruct (wft_at _ _ _ _ _ id W) as (s & f & c & E & Ws & Hf & Hc).
      { apply HI. eapply at_bound, Ha. }
      assert (Hb := wft_box _ _ _ _ _ nd Ws). rewrite E in Hb. specialize (Hb Ha).
      destruct Hb as [(? & _)|(_ & l & Hl & Hfold)]; [lia|].
      destruct (wft_pos _ _ _ _ _ _ _ _ _ Ws) as (? & ?).
      exists l. split; [|split; [exact Hfold|]].
      + eapply Permutation_NoDup; [symmetry; exact Hl|].
        destruct (slice_split _ prims f c) as (a & b & Ep & _); [lia..|].
        rewrite Ep in HPn. apply NoDup_app_inv in HPn. destruct HPn as (_ & HPn & _).
        apply NoDup_app_inv in HPn. destruct HPn as (HPn & _). exact HPn.
      + intros q. split; intros Hq.
        * assert (Hq' : In q (slice prims f c)) by (eapply Permutation_in; eassumption).
          apply In_slice in Hq'; [|lia..]. destruct Hq' as (k & Hk & Hq').
          exists k. split; [|exact Hq']. rewrite <- E. eapply range_under; eassumption.
        * destruct Hq as (k & Hu & Hq). eapply Permutation_in; [symmetry; exact Hl|].
          apply In_slice; [lia..|]. exists k. split; [|exact Hq]. eapply under_range; eassumption.
  Qed.

  (** ** Traversal *)
  Section Traverse.
    Variables (nodes : list (node B)) (prims : list Z) (accept : node B -> bool).

    Definition acc (id : Z) : bool := match readAt nodes id with Ok nd => accept nd | _ => false end.
    Lemma acc_at : forall id nd, at_ nodes id nd -> acc id = accept nd.
    Proof. intros id nd H. unfold acc. apply readAt_Ok in H. now rewrite H. Qed.

    Fixpoint size (t : tree) : nat :=
      match t with Leaf _ _ _ => 1%nat | Inner _ l r => (1 + size l + size r)%nat end.
    Lemma size_ids : forall t, size t = length (ids t).
    Proof. induction t; cbn; [reflexivity|]. rewrite app_length. lia. Qed.
    Lemma size_pos : forall t, (1 <= size t)%nat.
    Proof. destruct t; cbn; lia. Qed.

    Fixpoint tcalls (t : tree) : list (Z * Z) :=
      if acc (rootId t) then
        match t with Leaf _ f c => [(f, c)] | Inner _ l r => tcalls l ++ tcalls r end
      else [].

    Definition okTree (t : tree) : Prop := exists f c, wft nodes prims t f c.
    Definition total (ts : list tree) : nat := fold_right (fun t s => (size t + s)%nat) O ts.

    Hypothesis Hlen : Z.of_nat (length nodes) < 2 ^ 32.

    Lemma okTree_root : forall t, okTree t -> exists nd, at_ nodes (rootId t) nd.
    Proof.
      intros t (f & c & W). destruct t; cbn in W.
      - destruct W as (_ & _ & _ & _ & b & Ha & _). eauto.
      - destruct W as (b & c1 & Ha & _). eauto.
    Qed.

    Lemma okTree_inner : forall id l r, okTree (Inner id l r) -> okTree l /\ okTree r /\
      exists b, at_ nodes id (mkNode b (rootId l) 0) /\ rootId r = rootId l + 1 /\ wrap (rootId l + 1) = rootId r.
    Proof.
      intros id l r (f & c & W). cbn in W. destruct W as (b & c1 & Ha & _ & _ & Hr & _ & _ & W1 & W2).
      assert (O2 : okTree r) by (exists (f + c1), (c - c1); exact W2).
      assert (O1 : okTree l) by (exists f, c1; exact W1).
      split; [exact O1|]. split; [exact O2|].
      exists b. split; [exact Ha|]. split; [exact Hr|]. rewrite <- Hr. apply wrap_id.
      destruct (okTree_root _ O2) as (nd & Hnd). apply at_bound in Hnd. lia.
    Qed.

    Lemma traverse_tree : forall fuel t ts, okTree t -> Forall okTree ts ->
      (total (t :: ts) <= fuel)%nat ->
      traverseLoop fuel nodes accept (rootId t) (map rootId ts) = Ok (tcalls t ++ flat_map tcalls ts).
    Proof.
      induction fuel as [|fuel IH]; intros t ts Ht Hts Hf.
      { cbn in Hf. assert (H := size_pos t). lia. }
      cbn [traverseLoop]. cbn [total fold_right] in Hf. fold (total ts) in Hf.
      assert (Hnext : match map rootId ts with
                      | [] => Ok [] | id :: rest => traverseLoop fuel nodes accept id rest end
                      = Ok (flat_map tcalls ts)).
      { destruct ts as [|t' ts]; [reflexivity|]. inversion Hts; subst. cbn [map flat_map].
        apply IH; auto. assert (H := size_pos t). lia. }
      destruct (okTree_root _ Ht) as (nd & Hnd).
      assert (Hr : readAt nodes (rootId t) = Ok nd) by (apply readAt_Ok; exact Hnd).
      rewrite Hr. cbn [bind]. assert (Hacc := acc_at _ _ Hnd).
      destruct (accept nd) eqn:Ea; cbn [negb].
      2:{ rewrite Hnext. destruct t; cbn [tcalls]; rewrite Hacc; reflexivity. }
      destruct t as [id f c|id l r].
      - destruct Ht as (f' & c' & W). cbn in W. destruct W as (-> & -> & _ & Hc & b & Ha & _).
        cbn [rootId] in *. assert (E := at_fun _ _ _ _ _ Hnd Ha). subst nd.
        unfold isLeaf. cbn [ncount nlink]. destruct (Z.eqb_spec c' 0); [lia|]. cbn [negb].
        rewrite Hnext. cbn [omap bind tcalls rootId]. rewrite Hacc. reflexivity.
      - destruct (okTree_inner _ _ _ Ht) as (O1 & O2 & b & Ha & Er & Ew).
        cbn [rootId] in *. assert (E := at_fun _ _ _ _ _ Hnd Ha). subst nd.
        unfold isLeaf. cbn [ncount nlink Z.eqb negb].
        rewrite Ew. change (rootId r :: map rootId ts) with (map rootId (r :: ts)).
        rewrite IH; auto.
        + cbn [flat_map tcalls rootId]. rewrite Hacc. now rewrite app_assoc.
        + cbn [total fold_right]. fold (total ts). cbn [size] in Hf. lia.
    Qed.

    (** calls lie in the tree's range and are sorted *)
    Lemma tcalls_range : forall t f c, wft nodes prims t f c -> forall x, In x (tcalls t) ->
      f <= fst x /\ 0 < snd x /\ fst x + snd x <= f + c.
    Proof.
      induction t; intros f c W x Hx; cbn [tcalls] in Hx; destruct (acc _); try (destruct Hx; fail).
      - destruct Hx as [<-|[]]. cbn in W |- *. destruct W as (-> & -> & ? & ? & _). lia.
      - cbn in W. destruct W as (b & c1 & _ & _ & _ & _ & _ & Hc & W1 & W2).
        apply in_app_or in Hx. destruct Hx as [Hx|Hx].
        + destruct (IHt1 _ _ W1 _ Hx) as (? & ? & ?). lia.
        + destruct (IHt2 _ _ W2 _ Hx) as (? & ? & ?). lia.
    Qed.

    Lemma StronglySorted_app : forall A (R : A -> A -> Prop) l1 l2,
      StronglySorted R l1 -> StronglySorted R l2 -> (forall x y, In x l1 -> In y l2 -> R x y) ->
      StronglySorted R (l1 ++ l2).
    Proof.
      induction l1; intros l2 S1 S2 H; cbn; [exact S2|]. inversion S1; subst. constructor.
      - apply IHl1; auto. intros x y Hx. apply H. now right.
      - apply Forall_app. split; [assumption|]. apply Forall_forall. intros y Hy. apply H; [now left|exact Hy].
    Qed.

    Lemma tcalls_sorted : forall t f c, wft nodes prims t f c ->
      StronglySorted (fun a b => fst a + snd a <= fst b) (tcalls t).
    Proof.
      induction t; intros f c W; cbn [tcalls]; destruct (acc _); try constructor; try constructor.
      cbn in W. destruct W as (b & c1 & _ & _ & _ & _ & _ & Hc & W1 & W2).
      apply StronglySorted_app; eauto. intros x y Hx Hy.
      destruct (tcalls_range _ _ _ W1 _ Hx) as (? & ? & ?).
      destruct (tcalls_range _ _ _ W2 _ Hy) as (? & ? & ?). lia.
    Qed.

    Fixpoint vsub (t s : tree) : Prop :=
      acc (rootId t) = true /\
      (s = t \/ match t with Leaf _ _ _ => False | Inner _ l r => vsub l s \/ vsub r s end).

    Lemma vsub_self : forall t, acc (rootId t) = true -> vsub t t.
    Proof. destruct t; cbn; auto. Qed.

    Lemma vsub_child : forall t id l r, vsub t (Inner id l r) ->
      (acc (rootId l) = true -> vsub t l) /\ (acc (rootId r) = true -> vsub t r).
    Proof.
      induction t; intros i l r H; cbn [vsub rootId] in *.
      - destruct H as (_ & [H|[]]). discriminate.
      - destruct H as (Ha & [H|[H|H]]).
        + inversion H; subst. split; intros Hc; (split; [exact Ha|]); right; [left|right]; now apply vsub_self.
        + destruct (IHt1 _ _ _ H). split; intros Hc; (split; [exact Ha|]); right; left; auto.
        + destruct (IHt2 _ _ _ H). split; intros Hc; (split; [exact Ha|]); right; right; auto.
    Qed.

    Lemma vsub_ok : forall t s, okTree t -> vsub t s -> okTree s.
    Proof.
      induction t; intros s Ht H; cbn [vsub] in H.
      - destruct H as (_ & [->|[]]). exact Ht.
      - destruct (okTree_inner _ _ _ Ht) as (O1 & O2 & _).
        destruct H as (_ & [->|[H|H]]); auto.
    Qed.

    Lemma okTree_innerAt : forall s left, okTree s -> innerAt nodes (rootId s) left ->
      exists l r, s = Inner (rootId s) l r /\ rootId l = left /\ rootId r = left + 1.
    Proof.
      intros s left (f & c & W) (nd & Ha & Hz & <-). destruct s; cbn in *.
      - destruct W as (-> & -> & _ & ? & b & Hb & _). rewrite (at_fun _ _ _ _ _ Ha Hb) in Hz. cbn in Hz. lia.
      - destruct W as (b & c1 & Hb & _ & _ & Hr & _). rewrite (at_fun _ _ _ _ _ Ha Hb). cbn.
        exists s1, s2. auto.
    Qed.

    Lemma visited_vsub : forall t, okTree t -> rootId t = 0 -> forall id,
      visited nodes accept id -> exists s, vsub t s /\ rootId s = id.
    Proof.
      intros t Ht R0 id H. induction H as [nd Ha Hacc|id left nd Hv IH Hi Ha Hacc|id left nd Hv IH Hi Ha Hacc].
      - exists t. split; [|exact R0]. apply vsub_self. rewrite R0. now rewrite (acc_at _ _ Ha).
      - destruct IH as (s & Hs & Es). assert (Os := vsub_ok _ _ Ht Hs). rewrite <- Es in Hi.
        destruct (okTree_innerAt _ _ Os Hi) as (l & r & E & El & Er).
        rewrite E in Hs. exists l. split; [|exact El].
        apply (proj1 (vsub_child _ _ _ _ Hs)). rewrite El. now rewrite (acc_at _ _ Ha).
      - destruct IH as (s & Hs & Es). assert (Os := vsub_ok _ _ Ht Hs). rewrite <- Es in Hi.
        destruct (okTree_innerAt _ _ Os Hi) as (l & r & E & El & Er).
        rewrite E in Hs. exists r. split; [|exact Er].
        apply (proj2 (vsub_child _ _ _ _ Hs)). rewrite Er. now rewrite (acc_at _ _ Ha).
    Qed.

    Lemma vsub_leaf_calls : forall t id f c, vsub t (Leaf id f c) -> In (f, c) (tcalls t).
    Proof.
      induction t; intros i f c H; cbn [vsub tcalls] in *; destruct H as (Ha & H); rewrite Ha.
      - destruct H as [H|[]]. inversion H; subst. now left.
      - destruct H as [H|[H|H]]; [discriminate| |]; apply in_or_app; eauto.
    Qed.

    Lemma calls_visited : forall t, okTree t ->
      (acc (rootId t) = true -> visited nodes accept (rootId t)) -> forall f c,
      In (f, c) (tcalls t) -> exists id, visited nodes accept id /\ leafAt nodes id f c.
    Proof.
      induction t; intros Ht Hv f c Hin; cbn [tcalls rootId] in *; destruct (acc id) eqn:Ea;
        try (destruct Hin; fail).
      - destruct Hin as [E|[]]. inversion E; subst. exists id. split; [auto|].
        destruct Ht as (f' & c' & W). cbn in W. destruct W as (-> & -> & _ & ? & b & Hb & _).
        exists (mkNode b f' c'). cbn. ands; auto. lia.
      - destruct (okTree_inner _ _ _ Ht) as (O1 & O2 & b & Ha & Er & _).
        assert (Hi : innerAt nodes id (rootId t1)) by (exists (mkNode b (rootId t1) 0); auto).
        destruct (okTree_root _ O1) as (nd1 & Hnd1). destruct (okTree_root _ O2) as (nd2 & Hnd2).
        apply in_app_or in Hin. destruct Hin as [Hin|Hin].
        + apply IHt1; auto. intros Hacc. eapply visited_left; eauto. rewrite <- (acc_at _ _ Hnd1). exact Hacc.
        + apply IHt2; auto. intros Hacc. rewrite Er in *. eapply visited_right; eauto.
          rewrite <- (acc_at _ _ Hnd2). exact Hacc.
    Qed.

    Lemma calls_exact : forall t, okTree t -> rootId t = 0 -> callsAreAcceptedLeaves nodes accept (tcalls t).
    Proof.
      intros t Ht R0. split.
      - intros f c. split.
        + intros Hin. eapply calls_visited; [exact Ht| |exact Hin].
          intros Hacc. destruct (okTree_root _ Ht) as (nd & Hnd). rewrite (acc_at _ _ Hnd) in Hacc.
          rewrite R0 in *. eapply visited_root; eauto.
        + intros (id & Hv & Hl). destruct (visited_vsub _ Ht R0 _ Hv) as (s & Hs & Es).
          assert (Os := vsub_ok _ _ Ht Hs). destruct Os as (f' & c' & W).
          destruct Hl as (nd & Ha & Hz & <- & <-). destruct s; cbn in *; subst.
          * destruct W as (-> & -> & _ & ? & b & Hb & _). rewrite (at_fun _ _ _ _ _ Ha Hb). cbn.
            eapply vsub_leaf_calls. exact Hs.
          * destruct W as (b & c1 & Hb & _). rewrite (at_fun _ _ _ _ _ Ha Hb) in Hz. cbn in Hz. lia.
      - destruct Ht as (f & c & W). eapply tcalls_sorted. exact W.
    Qed.
  End Traverse.

  Lemma finished_nonempty : forall nodes prims t, finished nodes prims t ->
    1 <= Z.of_nat (length nodes) <= 2 * n - 1 /\ Z.of_nat (size t) = Z.of_nat (length nodes).
  Proof.
    intros nodes prims t (P & W & R0 & PI & LN). assert (LL := leaves_le _ _ _ _ _ _ _ _ _ W).
    split; [lia|]. rewrite size_ids, (Permutation_length PI), iota_length; lia.
  Qed.

  Theorem finished_traverse : forall nodes prims t accept, finished nodes prims t ->
    exists calls, traverse nodes accept = Ok calls /\ callsAreAcceptedLeaves nodes accept calls.
  Proof.
    intros nodes prims t accept HF. destruct (finished_nonempty _ _ _ HF) as (Hlen & Hsz).
    destruct HF as (P & W & R0 & PI & LN).
    assert (Ht : okTree nodes prims t) by (exists 0, n; exact W).
    exists (tcalls nodes accept t). split; [|apply calls_exact with (prims := prims); auto; lia].
    unfold traverse. destruct nodes as [|nd0 nodes0] eqn:En; [cbn in Hlen; lia|]. rewrite <- En in *.
    assert (HT := traverse_tree nodes prims accept ltac:(lia) (length nodes + 1) t [] Ht (Forall_nil _)).
    rewrite R0 in HT. cbn [map flat_map] in HT. rewrite app_nil_r in HT. apply HT.
    cbn. lia.
  Qed.

  (** ** Collecting *)
  Section Collect.
    Variables (nodes : list (node B)) (prims : list Z) (behind : B -> bool) (cap : Z).
    Hypothesis Hlen : Z.of_nat (length nodes) < 2 ^ 32.
    Hypothesis Hplen : Z.of_nat (length prims) = n.
    Let accept (nd : node B) : bool := negb (behind (nbox nd)).

    Definition leafPrims (x : Z * Z) : list Z := slice prims (fst x) (snd x).
    Definition tprims (t : tree) : list Z := flat_map leafPrims (tcalls nodes accept t).

    Lemma copyLeaf_app : forall s a b out i, prims = a ++ s ++ b -> i = Z.of_nat (length a) ->
      Z.of_nat (length out + length s) <= cap ->
      copyLeaf prims cap i (length s) out = Ok (out ++ s).
    Proof.
      induction s as [|q s IH]; intros a b out i Hp Hi Hc; cbn [copyLeaf length];
        [now rewrite app_nil_r|].
      assert (Hq : readAt prims i = Ok q) by (apply readAt_Ok; rewrite Hp; apply at_app_mid; exact Hi).
      rewrite Hq. cbn [bind length] in *.
      replace (Z.of_nat (length out) <? cap) with true by (symmetry; apply Z.ltb_lt; lia).
      rewrite wrap_id by (rewrite <- Hp in Hplen || idtac; rewrite Hp in Hplen; rewrite !app_length in Hplen; cbn in Hplen; lia).
      rewrite (IH (a ++ [q]) b).
      - now rewrite <- app_assoc.
      - rewrite Hp. now rewrite <- app_assoc.
      - rewrite app_length. cbn. lia.
      - rewrite app_length. cbn. lia.
    Qed.

    Lemma copyLeaf_slice : forall out f c, 0 <= f -> 0 < c -> f + c <= n ->
      Z.of_nat (length out) + c <= cap ->
      copyLeaf prims cap f (Z.to_nat (wrap (f + c) - f)) out = Ok (out ++ slice prims f c).
    Proof.
      intros out f c Hf Hc Hfc Hcap. rewrite wrap_id by lia.
      assert (Ls := slice_length _ prims f c Hf ltac:(lia) ltac:(lia)).
      destruct (slice_split _ prims f c Hf ltac:(lia) ltac:(lia)) as (a & b & E & La).
      replace (Z.to_nat (f + c - f)) with (length (slice prims f c)) by lia.
      apply (copyLeaf_app _ a b); [exact E|lia|lia].
    Qed.

    Definition okIn (t : tree) : Prop := exists f c, wft nodes prims t f c /\ f + c <= n.

    Lemma collect_tree : forall fuel t ts out, okIn t -> Forall okIn ts ->
      (total (t :: ts) <= fuel)%nat ->
      Z.of_nat (length (out ++ tprims t ++ flat_map tprims ts)) <= cap ->
      collectLoop fuel nodes prims cap behind (rootId t) (map rootId ts) out
      = Ok (out ++ tprims t ++ flat_map tprims ts).
    Proof.
      induction fuel as [|fuel IH]; intros t ts out Ht Hts Hf Hcap.
      { cbn in Hf. assert (H := size_pos t). lia. }
      cbn [collectLoop]. cbn [total fold_right] in Hf. fold (total ts) in Hf.
      assert (Hnext : forall out', Z.of_nat (length (out' ++ flat_map tprims ts)) <= cap ->
        match map rootId ts with
        | [] => Ok out' | id :: rest => collectLoop fuel nodes prims cap behind id rest out' end
        = Ok (out' ++ flat_map tprims ts)).
      { intros out' Hc. destruct ts as [|t' ts]; [cbn; now rewrite app_nil_r|]. inversion Hts; subst.
        cbn [map flat_map]. apply IH; auto. assert (H := size_pos t). lia. }
      assert (Ht' : okTree nodes prims t) by (destruct Ht as (f & c & W & _); exists f, c; exact W).
      destruct (okTree_root _ _ _ Ht') as (nd & Hnd).
      assert (Hr : readAt nodes (rootId t) = Ok nd) by (apply readAt_Ok; exact Hnd).
      rewrite Hr. cbn [bind]. assert (Hacc := acc_at nodes accept _ _ Hnd). unfold accept in Hacc at 2.
      destruct (behind (nbox nd)) eqn:Eb; cbn [negb] in Hacc.
      { assert (Et : tprims t = []) by (unfold tprims; destruct t; cbn [tcalls]; rewrite Hacc; reflexivity).
        rewrite Et in *. apply Hnext. exact Hcap. }
      destruct t as [id f c|id l r].
      - destruct Ht as (f' & c' & W & Hfc). cbn in W. destruct W as (-> & -> & ? & Hc & b & Ha & _).
        cbn [rootId] in *. assert (E := at_fun _ _ _ _ _ Hnd Ha). subst nd.
        unfold isLeaf. cbn [ncount nlink]. destruct (Z.eqb_spec c' 0); [lia|]. cbn [negb].
        assert (Et : tprims (Leaf id f' c') = slice prims f' c').
        { unfold tprims. cbn [tcalls rootId]. rewrite Hacc. cbn. now rewrite app_nil_r. }
        rewrite Et in *.
        assert (Ls := slice_length _ prims f' c' ltac:(lia) ltac:(lia) ltac:(lia)).
        rewrite copyLeaf_slice; [|lia..|rewrite !app_length in Hcap; lia]. cbn [bind].
        rewrite Hnext by (rewrite <- app_assoc; exact Hcap). now rewrite <- app_assoc.
      - destruct (okTree_inner _ _ Hlen _ _ _ Ht') as (_ & _ & b & Ha & Er & Ew).
        assert (O : okIn l /\ okIn r).
        { destruct Ht as (f' & c' & W & Hfc). cbn in W. destruct W as (? & c1 & _ & _ & _ & _ & _ & ? & W1 & W2).
          split; eexists _, _; (split; [eassumption|lia]). }
        destruct O as (O1 & O2).
        cbn [rootId] in *. assert (E := at_fun _ _ _ _ _ Hnd Ha). subst nd.
        unfold isLeaf. cbn [ncount nlink Z.eqb negb].
        assert (Et : tprims (Inner id l r) = tprims l ++ tprims r).
        { unfold tprims. cbn [tcalls rootId]. rewrite Hacc. now rewrite flat_map_app. }
        rewrite Et in *. rewrite <- !app_assoc in *.
        rewrite Ew. change (rootId r :: map rootId ts) with (map rootId (r :: ts)).
        rewrite IH; auto.
        cbn [total fold_right]. fold (total ts). cbn [size] in Hf. lia.
    Qed.

    Lemma tprims_length : forall t f c, wft nodes prims t f c -> f + c <= n ->
      Z.of_nat (length (tprims t)) <= c.
    Proof.
      induction t; intros f c W Hfc; unfold tprims; cbn [tcalls]; destruct (acc _ _ _); cbn [flat_map length].
      - cbn in W. destruct W as (-> & -> & ? & ? & _). rewrite app_nil_r. unfold leafPrims; cbn.
        rewrite slice_length; lia.
      - destruct (wft_pos _ _ _ _ _ _ _ _ _ W). lia.
      - cbn in W. destruct W as (b & c1 & _ & _ & _ & _ & _ & ? & W1 & W2).
        rewrite flat_map_app, app_length.
        assert (A1 := IHt1 _ _ W1 ltac:(lia)). assert (A2 := IHt2 _ _ W2 ltac:(lia)).
        unfold tprims in A1, A2. lia.
      - destruct (wft_pos _ _ _ _ _ _ _ _ _ W). lia.
    Qed.

    Hypothesis Hnodup : NoDup prims.

    Lemma at_NoDup : forall k k' q, at_ prims k q -> at_ prims k' q -> k = k'.
    Proof.
      intros k k' q (H0 & H) (H0' & H').
      assert (Z.to_nat k = Z.to_nat k'); [|lia].
      eapply (proj1 (NoDup_nth_error prims)); [exact Hnodup| |congruence].
      apply nth_error_Some. congruence.
    Qed.

    Lemma flat_NoDup : forall calls, StronglySorted (fun a b => fst a + snd a <= fst b) calls ->
      Forall (fun x => 0 <= fst x /\ 0 < snd x /\ fst x + snd x <= n) calls ->
      NoDup (flat_map leafPrims calls).
    Proof.
      induction calls as [|x calls IH]; intros Sx Fx; cbn; [constructor|].
      inversion Sx; subst. inversion Fx; subst.
      assert (N1 : NoDup (leafPrims x)).
      { destruct (slice_split _ prims (fst x) (snd x)) as (a & b & E & _); [lia..|].
        rewrite E in Hnodup. apply NoDup_app_inv in Hnodup. destruct Hnodup as (_ & HN & _).
        apply NoDup_app_inv in HN. apply HN. }
      assert (N2 := IH H1 H4). clear IH.
      assert (D : forall q, In q (leafPrims x) -> ~ In q (flat_map leafPrims calls)).
      { intros q Hq Hq'. apply in_flat_map in Hq'. destruct Hq' as (y & Hy & Hq').
        rewrite Forall_forall in H2, H4. specialize (H2 _ Hy). specialize (H4 _ Hy). cbn in H2.
        apply In_slice in Hq; [|lia..]. apply In_slice in Hq'; [|lia..].
        destruct Hq as (k & Hk & Ha). destruct Hq' as (k' & Hk' & Ha').
        assert (k = k') by (eapply at_NoDup; eassumption). lia. }
      revert N1 N2 D. generalize (leafPrims x) (flat_map leafPrims calls).
      induction l; intros l' N1 N2 D; cbn; [exact N2|]. inversion N1; subst. constructor.
      - intros Hin. apply in_app_or in Hin. destruct Hin as [|Hin]; [contradiction|].
        apply (D a); [now left|exact Hin].
      - apply IHl; auto. intros q Hq. apply D. now right.
    Qed.
  End Collect.

  Theorem finished_collect : forall nodes prims t behind cap, finished nodes prims t -> n <= cap ->
    exists out, collectInFrustum nodes prims cap behind = Ok out /\
      collectedExactly nodes prims (fun nd => negb (behind (nbox nd))) out /\
      Z.of_nat (length out) <= n.
  Proof.
    intros nodes prims t behind cap HF Hcap. destruct (finished_nonempty _ _ _ HF) as (Hlen & Hsz).
    destruct (finished_permutation _ _ _ HF) as (HPl & HPn & HPi).
    destruct HF as (P & W & R0 & PI & LN).
    set (accept := fun nd : node B => negb (behind (nbox nd))).
    assert (Ht : okTree nodes prims t) by (exists 0, n; exact W).
    assert (Hti : okIn nodes prims t) by (exists 0, n; split; [exact W|lia]).
    assert (Hpl := tprims_length nodes prims behind HPl t 0 n W ltac:(lia)).
    exists (tprims nodes prims behind t). split; [|split; [|exact Hpl]].
    - unfold collectInFrustum. destruct nodes as [|nd0 nodes0] eqn:En; [cbn in Hlen; lia|]. rewrite <- En in *.
      assert (HT := collect_tree nodes prims behind cap ltac:(lia) HPl (length nodes + 1) t [] [] Hti (Forall_nil _)).
      rewrite R0 in HT. cbn [map flat_map app] in HT. rewrite app_nil_r in HT. apply HT.
      + cbn. lia.
      + lia.
    - destruct (calls_exact nodes prims accept ltac:(lia) t Ht R0) as (Hex & Hso).
      assert (Hrange : Forall (fun x => 0 <= fst x /\ 0 < snd x /\ fst x + snd x <= n) (tcalls nodes accept t)).
      { apply Forall_forall. intros x Hx. destruct (tcalls_range _ _ _ _ _ _ W _ Hx) as (? & ? & ?). lia. }
      split.
      + apply flat_NoDup; auto.
      + intros q. unfold tprims. rewrite in_flat_map. split.
        * intros ((f & c) & Hx & Hq). rewrite Forall_forall in Hrange. assert (Hr := Hrange _ Hx). cbn in Hr.
          apply In_slice in Hq; [|cbn; lia..]. cbn in Hq. destruct Hq as (k & Hk & Hq).
          apply Hex in Hx. destruct Hx as (id & Hv & Hl). exists id, f, c, k. auto.
        * intros (id & f & c & k & Hv & Hl & Hk & Hq). exists (f, c).
          assert (Hx : In (f, c) (tcalls nodes accept t)) by (apply Hex; eauto).
          split; [exact Hx|]. rewrite Forall_forall in Hrange. assert (Hr := Hrange _ Hx). cbn in Hr.
          apply In_slice; cbn; [lia..|]. eauto.
  Qed.
End Arrays.
