(** The BVH under construction as a tree, and the invariant of the build loop. *)
From Coq Require Import ZArith List Lia Permutation Bool.
From Verif.Model Require Import Outcome Scalar Packed Bvh.
From Verif.Spec Require Import BvhSpec.
From Verif.Proofs Require Import ArrayLemmas BvhLoops.
Import ListNotations.
Local Open Scope Z_scope.

Ltac ands := repeat match goal with |- _ /\ _ => split end.

Inductive tree :=
| Leaf (id first count : Z)
| Inner (id : Z) (l r : tree).

Definition rootId (t : tree) : Z := match t with Leaf id _ _ => id | Inner id _ _ => id end.
Fixpoint ids (t : tree) : list Z :=
  match t with Leaf id _ _ => [id] | Inner id l r => id :: ids l ++ ids r end.
Fixpoint leaves (t : tree) : Z :=
  match t with Leaf _ _ _ => 1 | Inner _ l r => leaves l + leaves r end.
Fixpoint leafIn (t : tree) (id f c : Z) : Prop :=
  match t with
  | Leaf id' f' c' => id' = id /\ f' = f /\ c' = c
  | Inner _ l r => leafIn l id f c \/ leafIn r id f c
  end.
Fixpoint subst (cur : Z) (t' t : tree) : tree :=
  match t with
  | Leaf id _ _ => if id =? cur then t' else t
  | Inner id l r => Inner id (subst cur t' l) (subst cur t' r)
  end.

Lemma leafIn_ids : forall t id f c, leafIn t id f c -> In id (ids t).
Proof.
  induction t; cbn; intros i f c H.
  - destruct H; auto.
  - right. apply in_or_app. destruct H as [H|H]; [left|right]; eauto.
Qed.

Lemma subst_notin : forall cur t' t, ~ In cur (ids t) -> subst cur t' t = t.
Proof.
  induction t; cbn; intros H.
  - destruct (Z.eqb_spec id cur); [subst; exfalso; auto|reflexivity].
  - rewrite IHt1, IHt2; [reflexivity| |]; intros Hc; apply H; right; apply in_or_app; auto.
Qed.

Lemma rootId_subst : forall cur t' t, rootId t' = cur -> rootId (subst cur t' t) = rootId t.
Proof.
  intros cur t' t H. destruct t; cbn; [|reflexivity].
  destruct (Z.eqb_spec id cur); cbn; congruence.
Qed.

Lemma NoDup_app_inv : forall A (l1 l2 : list A), NoDup (l1 ++ l2) ->
  NoDup l1 /\ NoDup l2 /\ (forall x, In x l1 -> ~ In x l2).
Proof.
  induction l1; intros l2 H; cbn in *.
  - ands; auto. constructor.
  - inversion H; subst. apply IHl1 in H3. destruct H3 as (N1 & N2 & D). ands; auto.
    + constructor; auto. intros Hc. apply H2. apply in_or_app; auto.
    + intros x [->|Hx]; [|now apply D]. intros Hc. apply H2. apply in_or_app; auto.
Qed.

Lemma ids_subst_split : forall t cur f c nc u v,
  leafIn t cur f c -> NoDup (ids t) -> ids u = [nc] -> ids v = [nc + 1] ->
  Permutation (ids (subst cur (Inner cur u v) t)) (ids t ++ [nc; nc + 1]).
Proof.
  induction t; cbn; intros cur f c nc u v H N E1 E2.
  - destruct H as (-> & _ & _). rewrite Z.eqb_refl. cbn. rewrite E1, E2. reflexivity.
  - inversion N; subst. apply NoDup_app_inv in H3. destruct H3 as (N1 & N2 & D).
    apply perm_skip. destruct H as [H|H].
    + rewrite (subst_notin _ _ t2) by (eapply D, leafIn_ids, H).
      rewrite (IHt1 cur f c nc u v) by assumption.
      rewrite <- !app_assoc. apply Permutation_app_head. apply Permutation_app_comm.
    + rewrite (subst_notin _ _ t1) by (intros Hc; eapply D; [exact Hc|eapply leafIn_ids, H]).
      rewrite (IHt2 cur f c nc u v) by assumption.
      now rewrite <- !app_assoc.
Qed.

Lemma leaves_subst : forall t cur f c t', leafIn t cur f c -> NoDup (ids t) ->
  leaves (subst cur t' t) = leaves t - 1 + leaves t'.
Proof.
  induction t; cbn; intros cur f c t' H N.
  - destruct H as (-> & _ & _). rewrite Z.eqb_refl. lia.
  - inversion N; subst. apply NoDup_app_inv in H3. destruct H3 as (N1 & N2 & D).
    destruct H as [H|H].
    + rewrite (subst_notin _ _ t2) by (eapply D, leafIn_ids, H).
      rewrite (IHt1 cur f c t' H N1). lia.
    + rewrite (subst_notin _ _ t1) by (intros Hc; eapply D; [exact Hc|eapply leafIn_ids, H]).
      rewrite (IHt2 cur f c t' H N2). lia.
Qed.

Lemma leafIn_subst_other : forall t cur t' id f c, leafIn t id f c -> id <> cur ->
  leafIn (subst cur t' t) id f c.
Proof.
  induction t; cbn; intros cur t' i f c H Hne.
  - destruct H as (-> & -> & ->). destruct (Z.eqb_spec i cur); [contradiction|]. cbn; auto.
  - destruct H; eauto.
Qed.

Lemma leafIn_subst_new : forall t cur t' f0 c0 id f c, leafIn t cur f0 c0 -> leafIn t' id f c ->
  leafIn (subst cur t' t) id f c.
Proof.
  induction t; cbn; intros cur t' f0 c0 i f c H H'.
  - destruct H as (-> & _ & _). now rewrite Z.eqb_refl.
  - destruct H; eauto.
Qed.

Lemma subst_same : forall t cur f c, leafIn t cur f c -> NoDup (ids t) ->
  subst cur (Leaf cur f c) t = t.
Proof.
  induction t; cbn; intros cur f c H N.
  - destruct H as (-> & -> & ->). now rewrite Z.eqb_refl.
  - inversion N; subst. apply NoDup_app_inv in H3. destruct H3 as (N1 & N2 & D).
    destruct H as [H|H]; f_equal.
    + eauto.
    + apply subst_notin. eapply D, leafIn_ids, H.
    + apply subst_notin. intros Hc. eapply D; [exact Hc|eapply leafIn_ids, H].
    + eauto.
Qed.

Lemma Permutation_app_inv_len : forall A (a a' s s' b b' : list A),
  a ++ s ++ b = a' ++ s' ++ b' -> length a = length a' -> length s = length s' ->
  a = a' /\ s = s' /\ b = b'.
Proof.
  intros A a a' s s' b b' H La Ls.
  assert (H1 : a = a' /\ s ++ b = s' ++ b').
  { revert a' H La. induction a; intros [|x a'] H La; cbn in *; try lia; auto.
    inversion H; subst. destruct (IHa a' H2) as [-> ->]; [lia|]. auto. }
  destruct H1 as [-> H1]. split; [reflexivity|]. clear H La.
  revert s' H1 Ls. induction s; intros [|x s'] H Ls; cbn in *; try lia; auto.
  inversion H; subst. destruct (IHs s' H2) as [-> ->]; [lia|]. auto.
Qed.

Section Build.
  Context {F : Type} {S : Scalar F} {B : Type}.
  Variable centroid : Z -> Z -> outcome F.
  Variable findSplit : Z -> Z -> list Z -> outcome (Z * F * F).
  Variable nodeCost : B -> Z -> F.
  Variable boxInit : B.
  Variable boxAdd : B -> Z -> outcome B.
  Variables (root : B) (n : Z).

  (** What is known of the box of node [id], whose subtree covers slots [f, f+c). *)
  Definition boxOK (prims : list Z) (id : Z) (b : B) (f c : Z) : Prop :=
    (id = 0 /\ b = root /\ f = 0 /\ c = n) \/
    (id <> 0 /\ exists s, Permutation s (slice prims f c) /\ foldBox boxAdd s boxInit = Ok b).

  Fixpoint wft (nodes : list (node B)) (prims : list Z) (t : tree) (f c : Z) : Prop :=
    match t with
    | Leaf id f' c' => f' = f /\ c' = c /\ 0 <= f /\ 0 < c /\
        exists b, at_ nodes id (mkNode b f c) /\ boxOK prims id b f c
    | Inner id l r => exists b c1,
        at_ nodes id (mkNode b (rootId l) 0) /\ boxOK prims id b f c /\
        id < rootId l /\ rootId r = rootId l + 1 /\ 0 <= f /\ 0 < c1 < c /\
        wft nodes prims l f c1 /\ wft nodes prims r (f + c1) (c - c1)
    end.

  Lemma wft_pos : forall t nodes prims f c, wft nodes prims t f c -> 0 <= f /\ 0 < c.
  Proof.
    destruct t; cbn; intros nodes prims f c H.
    - destruct H as (-> & -> & ? & ? & _); auto.
    - destruct H as (b & c1 & _ & _ & _ & _ & ? & ? & _). lia.
  Qed.

  Lemma leaves_le : forall t nodes prims f c, wft nodes prims t f c -> 1 <= leaves t <= c.
  Proof.
    induction t; cbn [wft leaves]; intros nodes prims f c H.
    - destruct H as (-> & -> & ? & ? & _). lia.
    - destruct H as (b & c1 & _ & _ & _ & _ & _ & _ & H1 & H2).
      apply IHt1 in H1. apply IHt2 in H2. lia.
  Qed.

  Lemma leafIn_range : forall t nodes prims f c id f0 c0,
    wft nodes prims t f c -> leafIn t id f0 c0 ->
    f <= f0 /\ 0 < c0 /\ f0 + c0 <= f + c /\ leaves t + c0 - 1 <= c /\
    exists b, at_ nodes id (mkNode b f0 c0) /\ boxOK prims id b f0 c0.
  Proof.
    induction t; cbn [wft leafIn leaves]; intros nodes prims f c i f0 c0 H Hl.
    - destruct Hl as (-> & -> & ->). destruct H as (-> & -> & ? & ? & H). ands; try lia. exact H.
    - destruct H as (b & c1 & _ & _ & _ & _ & Hf & Hc1 & H1 & H2).
      assert (L1 := leaves_le _ _ _ _ _ H1). assert (L2 := leaves_le _ _ _ _ _ H2).
      destruct Hl as [Hl|Hl].
      + destruct (IHt1 _ _ _ _ _ _ _ H1 Hl) as (A1 & A2 & A3 & A4 & A5). ands; try lia. exact A5.
      + destruct (IHt2 _ _ _ _ _ _ _ H2 Hl) as (A1 & A2 & A3 & A4 & A5). ands; try lia. exact A5.
  Qed.

  Lemma wft_frame : forall t nodes prims nodes' prims' f c,
    wft nodes prims t f c ->
    (forall id nd, In id (ids t) -> at_ nodes id nd -> at_ nodes' id nd) ->
    (forall f' c', f <= f' -> 0 <= c' -> f' + c' <= f + c -> slice prims' f' c' = slice prims f' c') ->
    wft nodes' prims' t f c.
  Proof.
    induction t; cbn [wft ids]; intros nodes prims nodes' prims' f c H Hn Hs.
    - destruct H as (-> & -> & Hf & Hc & b & Ha & Hb). ands; auto. exists b. split.
      + apply Hn; [now left|exact Ha].
      + unfold boxOK. rewrite Hs by lia. exact Hb.
    - destruct H as (b & c1 & Ha & Hb & Hid & Hr & Hf & Hc1 & H1 & H2). exists b, c1.
      ands; try assumption; try lia.
      + apply Hn; [now left|exact Ha].
      + unfold boxOK. rewrite Hs by lia. exact Hb.
      + eapply IHt1; [exact H1| |].
        * intros i nd Hi. apply Hn. right. apply in_or_app; auto.
        * intros f' c' ? ? ?. apply Hs; lia.
      + eapply IHt2; [exact H2| |].
        * intros i nd Hi. apply Hn. right. apply in_or_app; auto.
        * intros f' c' ? ? ?. apply Hs; lia.
  Qed.

  Lemma wft_subst : forall t nodes prims nodes' prims' f c cur f0 c0 t',
    wft nodes prims t f c -> leafIn t cur f0 c0 -> NoDup (ids t) ->
    (forall id nd, In id (ids t) -> id <> cur -> at_ nodes id nd -> at_ nodes' id nd) ->
    permutedIn prims prims' f0 c0 -> f + c <= Z.of_nat (length prims) ->
    wft nodes' prims' t' f0 c0 -> rootId t' = cur ->
    wft nodes' prims' (subst cur t' t) f c.
  Proof.
    induction t; intros nodes prims nodes' prims' f c cur f0 c0 t' H Hl N Hn Hp Hlen Ht' Hr;
      cbn [wft ids leafIn subst] in *.
    - destruct Hl as (-> & -> & ->). rewrite Z.eqb_refl. destruct H as (-> & -> & _). exact Ht'.
    - destruct H as (b & c1 & Ha & Hb & Hid & Hrr & Hf & Hc1 & H1 & H2).
      inversion N as [|x l Hni N']; subst x l.
      apply NoDup_app_inv in N'. destruct N' as (N1 & N2 & D).
      assert (Hcur : In cur (ids t1 ++ ids t2)).
      { apply in_or_app. destruct Hl as [Hl|Hl]; [left|right]; eapply leafIn_ids, Hl. }
      assert (Hne : id <> cur) by (intros ->; contradiction).
      assert (Hrange : f <= f0 /\ f0 + c0 <= f + c).
      { destruct Hl as [Hl|Hl].
        - destruct (leafIn_range _ _ _ _ _ _ _ _ H1 Hl) as (? & ? & ? & _). lia.
        - destruct (leafIn_range _ _ _ _ _ _ _ _ H2 Hl) as (? & ? & ? & _). lia. }
      exists b, c1. rewrite !rootId_subst by exact Hr.
      ands; try assumption; try lia.
      + apply Hn; [now left|exact Hne|exact Ha].
      + destruct Hb as [Hb|(Hid0 & s & Hs & Hfold)]; [left; exact Hb|]. right. split; [exact Hid0|].
        exists s. split; [|exact Hfold]. rewrite Hs. eapply permutedIn_slice_contains; [exact Hp|lia..].
      + destruct Hl as [Hl|Hl].
        * eapply IHt1; try eassumption; [|lia].
          intros i nd Hi. apply Hn. right. apply in_or_app; auto.
        * destruct (leafIn_range _ _ _ _ _ _ _ _ H2 Hl) as (? & ? & ? & _).
          rewrite subst_notin by (intros Hc; eapply D; [exact Hc|eapply leafIn_ids, Hl]).
          eapply wft_frame; [exact H1| |].
          -- intros i nd Hi. apply Hn; [right; apply in_or_app; auto|].
             intros ->. eapply D; [exact Hi|eapply leafIn_ids, Hl].
          -- intros f' c' ? ? ?. eapply permutedIn_slice_disjoint; [exact Hp|lia..].
      + destruct Hl as [Hl|Hl].
        * destruct (leafIn_range _ _ _ _ _ _ _ _ H1 Hl) as (? & ? & ? & _).
          rewrite subst_notin by (eapply D, leafIn_ids, Hl).
          eapply wft_frame; [exact H2| |].
          -- intros i nd Hi. apply Hn; [right; apply in_or_app; auto|].
             intros ->. eapply D; [eapply leafIn_ids, Hl|exact Hi].
          -- intros f' c' ? ? ?. eapply permutedIn_slice_disjoint; [exact Hp|lia..].
        * eapply IHt2; try eassumption; [|lia].
          intros i nd Hi. apply Hn. right. apply in_or_app; auto.
  Qed.

  Definition meas (cs : list Z) : Z := fold_right (fun c s => 2 * c - 1 + s) 0 cs.

  (** Invariant: [pend] are the nodes still to be visited, [cs] their primitive counts. *)
  Definition inv (prims : list Z) (nodes : list (node B)) (nc : Z) (pend : list Z)
    (t : tree) (cs : list Z) : Prop :=
    Permutation (iota n) prims /\
    Z.of_nat (length nodes) = 2 * n - 1 /\
    wft nodes prims t 0 n /\ rootId t = 0 /\
    Permutation (ids t) (iota nc) /\ nc = 2 * leaves t - 1 /\
    NoDup pend /\ Forall2 (fun id c => exists f, leafIn t id f c) pend cs.

  Hypothesis Hn : 1 <= n <= 2 ^ 31.

  Lemma inv_prims_length : forall prims nodes nc pend t cs,
    inv prims nodes nc pend t cs -> Z.of_nat (length prims) = n.
  Proof.
    intros prims nodes nc pend t cs (P & _). rewrite <- (Permutation_length P). apply iota_length. lia.
  Qed.

  Lemma ids_NoDup : forall t nc, Permutation (ids t) (iota nc) -> NoDup (ids t).
  Proof. intros t nc P. eapply Permutation_NoDup; [symmetry; exact P|apply NoDup_iota]. Qed.

  Lemma Forall2_impl : forall A C (P Q : A -> C -> Prop) l l',
    (forall a b, In a l -> P a b -> Q a b) -> Forall2 P l l' -> Forall2 Q l l'.
  Proof.
    intros A C P Q l l' H F2. induction F2; constructor.
    - apply H; [now left|assumption].
    - apply IHF2. intros a b Hin. apply H. now right.
  Qed.

  Lemma Forall2_leaf_pos : forall nodes prims t pend cs,
    wft nodes prims t 0 n -> Forall2 (fun id c => exists f, leafIn t id f c) pend cs -> 0 <= meas cs.
  Proof.
    intros nodes prims t pend cs W F2. unfold meas. induction F2; cbn [fold_right]; [lia|].
    destruct H as (f & H). destruct (leafIn_range _ _ _ _ _ _ _ _ W H) as (_ & ? & _). lia.
  Qed.

  (** Splitting leaf [cur]. *)
  Lemma inv_split : forall prims nodes nc cur pend t cs f0 c0 prims' nodes' b b1 b2 k1,
    inv prims nodes nc (cur :: pend) t (c0 :: cs) -> leafIn t cur f0 c0 ->
    permutedIn prims prims' f0 c0 -> 0 < k1 < c0 ->
    boxOK prims' cur b f0 c0 ->
    at_ nodes' cur (mkNode b nc 0) ->
    at_ nodes' nc (mkNode b1 f0 k1) -> foldBox boxAdd (slice prims' f0 k1) boxInit = Ok b1 ->
    at_ nodes' (nc + 1) (mkNode b2 (f0 + k1) (c0 - k1)) ->
    foldBox boxAdd (slice prims' (f0 + k1) (c0 - k1)) boxInit = Ok b2 ->
    (forall id nd, id <> cur -> id <> nc -> id <> nc + 1 -> at_ nodes id nd -> at_ nodes' id nd) ->
    length nodes' = length nodes ->
    exists t', inv prims' nodes' (nc + 2) pend t' cs /\ leafIn t' nc f0 k1 /\
      leafIn t' (nc + 1) (f0 + k1) (c0 - k1) /\ ~ In nc pend /\ ~ In (nc + 1) pend /\
      t' = subst cur (Inner cur (Leaf nc f0 k1) (Leaf (nc + 1) (f0 + k1) (c0 - k1))) t.
  Proof.
    intros prims nodes nc cur pend t cs f0 c0 prims' nodes' b b1 b2 k1
      Hinv Hl Hp Hk Hb Hcur Hn1 Hf1 Hn2 Hf2 Hfr Hlen.
    assert (Hpl := inv_prims_length _ _ _ _ _ _ Hinv).
    destruct Hinv as (P & L & W & R0 & PI & Enc & ND & F2).
    assert (NI := ids_NoDup _ _ PI).
    destruct (leafIn_range _ _ _ _ _ _ _ _ W Hl) as (R1 & R2 & R3 & R4 & _).
    assert (Hbnd : forall id, In id (ids t) -> 0 <= id < nc).
    { intros id Hid. apply In_iota. eapply Permutation_in; [exact PI|exact Hid]. }
    assert (Hnc : 1 <= nc) by (assert (LL := leaves_le _ _ _ _ _ W); lia).
    set (t' := Inner cur (Leaf nc f0 k1) (Leaf (nc + 1) (f0 + k1) (c0 - k1))).
    assert (Hcb : 0 <= cur < nc) by (apply Hbnd; eapply leafIn_ids, Hl).
    assert (W' : wft nodes' prims' t' f0 c0).
    { cbn. exists b, k1. ands; try assumption; try lia.
      - exists b1. split; [assumption|]. right. split; [lia|]. exists (slice prims' f0 k1). split; auto.
      - exists b2. split; [assumption|]. right. split; [lia|].
        exists (slice prims' (f0 + k1) (c0 - k1)). split; auto. }
    inversion ND as [|x l Hnin ND']; subst x l.
    inversion F2 as [|x y l l' _ F2']; subst x y l l'.
    assert (Hpend : forall id, In id pend -> 0 <= id < nc).
    { intros id Hin.
      clear - F2' Hin Hbnd. induction F2'; [destruct Hin|]. destruct Hin as [->|Hin]; [|auto].
      destruct H as (f & H). apply Hbnd. eapply leafIn_ids, H. }
    exists (subst cur t' t). split; [|split; [|split; [|split; [|split]]]].
    - unfold inv. split; [rewrite P; eapply permutedIn_perm, Hp|].
      split; [rewrite Hlen; exact L|]. split.
      { eapply wft_subst; try eassumption; [|lia|reflexivity].
        intros id nd Hid Hne. apply Hfr; [exact Hne| |]; apply Hbnd in Hid; lia. }
      split; [rewrite rootId_subst by reflexivity; exact R0|]. split.
      { unfold t'. rewrite ids_subst_split with (nc := nc) by (eassumption || reflexivity).
        rewrite PI. replace (nc + 2) with (nc + 1 + 1) by lia.
        rewrite !iota_succ by lia. rewrite <- app_assoc. reflexivity. }
      split; [erewrite leaves_subst by eassumption; unfold t'; cbn [leaves]; lia|]. split; [exact ND'|].
      eapply Forall2_impl; [|exact F2']. cbn. intros id c Hin (f & H). exists f.
      apply leafIn_subst_other; [exact H|]. intros ->. contradiction.
    - eapply leafIn_subst_new; [exact Hl|]. cbn. auto.
    - eapply leafIn_subst_new; [exact Hl|]. cbn. auto.
    - intros Hin. apply Hpend in Hin. lia.
    - intros Hin. apply Hpend in Hin. lia.
    - reflexivity.
  Qed.

  (** Dropping leaf [cur] from the pending nodes, its slice being permuted. *)
  Lemma inv_drop : forall prims nodes nc cur pend t cs f0 c0 prims',
    inv prims nodes nc (cur :: pend) t (c0 :: cs) -> leafIn t cur f0 c0 ->
    permutedIn prims prims' f0 c0 -> inv prims' nodes nc pend t cs.
  Proof.
    intros prims nodes nc cur pend t cs f0 c0 prims' Hinv Hl Hp.
    assert (Hpl := inv_prims_length _ _ _ _ _ _ Hinv).
    destruct Hinv as (P & L & W & R0 & PI & Enc & ND & F2).
    assert (NI := ids_NoDup _ _ PI).
    destruct (leafIn_range _ _ _ _ _ _ _ _ W Hl) as (R1 & R2 & R3 & R4 & b & Ha & Hb).
    inversion ND; inversion F2; subst.
    split; [rewrite P; eapply permutedIn_perm, Hp|]. repeat (split; try assumption).
    rewrite <- (subst_same t cur f0 c0 Hl NI).
    eapply wft_subst; try eassumption; try reflexivity; try lia.
    - auto.
    - cbn. ands; try lia. exists b. split; [exact Ha|].
      destruct Hb as [Hb|(Hid & s & Hs & Hf)]; [now left|]. right. split; [exact Hid|].
      exists s. split; [|exact Hf]. rewrite Hs. eapply permutedIn_slice_contains; [exact Hp|lia..].
  Qed.
End Build.
