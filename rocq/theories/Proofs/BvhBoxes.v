(** C03: boxes of a finished tree, in binary32. *)
From Coq Require Import ZArith List Lia Bool Reals Lra Permutation.
From Flocq Require Import Core.Core IEEE754.BinarySingleNaN IEEE754.Binary IEEE754.Bits.
From Verif.Model Require Import Outcome Scalar Vec Simd Aabb Packed Bvh BvhSplit.
From Verif.Spec Require Import BvhSpec GeomSpec BvhGeomSpec.
From Verif.Proofs Require Import OrdScalar ArrayLemmas BvhLoops BvhTree BvhBuild BvhArrays AabbOrder.
Import ListNotations.
Local Open Scope Z_scope.

Section Items.
  Variable p : path.
  (** the boxes (for a triangle: the three vertices as point boxes) a primitive adds *)
  Variable items : Z -> outcome (list (aabb f32)).
  Variable addPrim : aabb f32 -> Z -> outcome (aabb f32).
  Hypothesis Hadd : forall b q, addPrim b q = omap (fun l => extendAll p b l) (items q).

  Lemma foldBox_items : forall l b r, foldBox addPrim l b = Ok r ->
    exists ls, Forall2 (fun q it => items q = Ok it) l ls /\ r = extendAll p b (concat ls).
  Proof.
    induction l as [|q l IH]; intros b r H; cbn in H.
    - injection H as <-. exists []. split; [constructor|reflexivity].
    - rewrite Hadd in H. destruct (items q) as [it| | |] eqn:E; cbn in H; try discriminate.
      destruct (IH _ _ H) as (ls & HF & ->). exists (it :: ls). split; [constructor; assumption|].
      cbn [concat]. unfold extendAll. now rewrite fold_left_app.
  Qed.

  Lemma items_in : forall l ls, Forall2 (fun q it => items q = Ok it) l ls ->
    forall o, In o (concat ls) <-> exists q it, In q l /\ items q = Ok it /\ In o it.
  Proof.
    induction 1 as [|q it l ls E _ IH]; intros o; cbn [concat].
    - split; [intros []|intros (q & it & [] & _)].
    - rewrite in_app_iff, IH. split.
      + intros [H|(q' & it' & H1 & H2 & H3)].
        * exists q, it. cbn. auto.
        * exists q', it'. cbn. auto.
      + intros (q' & it' & [<-|H1] & H2 & H3).
        * left. congruence.
        * right. eauto.
  Qed.
End Items.

(** [o] is one of the pieces of a primitive in the subtree of node [id] *)
Definition below_ (items : Z -> outcome (list (aabb f32))) (nodes : list (node (aabb f32))) (prims : list Z) (id : Z) (o : aabb f32) : Prop :=
  exists k q it, under nodes id k /\ at_ prims k q /\ items q = Ok it /\ In o it.

Lemma fltMax_ext : ext (fltMax : f32) = (bpow radix2 128 - bpow radix2 104)%R.
Proof.
  transitivity (IZR 16777215 * bpow radix2 104)%R.
  - reflexivity.
  - replace (bpow radix2 128) with (IZR 16777216 * bpow radix2 104)%R.
    + replace (IZR 16777216) with (IZR 16777215 + 1)%R by (rewrite <- (plus_IZR 16777215 1); reflexivity). ring.
    + change (IZR 16777216) with (bpow radix2 24). rewrite <- bpow_plus. reflexivity.
Qed.
Lemma mfltMax_ext : ext (- fltMax : f32)%sc = (- ext (fltMax : f32))%R.
Proof.
  cbn [ext OrdF32 sneg ScalarF32]. rewrite !ext32_finite by reflexivity.
  unfold b32_opp. rewrite B2R_Bopp. reflexivity.
Qed.
Lemma finite_ext : forall x : f32, is_finite 24 128 x = true ->
  num x /\ (- ext (fltMax : f32) <= ext x <= ext (fltMax : f32))%R.
Proof.
  intros x H. split.
  - cbn. destruct x; cbn in *; congruence.
  - rewrite fltMax_ext. cbn [ext OrdF32]. rewrite (ext32_finite x H).
    pose proof (abs_B2R_le_emax_minus_prec 24 128 eq_refl x) as HB.
    change (128 - 24)%Z with 104%Z in HB. apply Rabs_le_inv in HB. exact HB.
Qed.

Lemma numBox3_empty : numBox3 emptyBox.
Proof. repeat split. Qed.

Section Boxes.
  Variable p : path.
  Variable items : Z -> outcome (list (aabb f32)).
  Variable addPrim : aabb f32 -> Z -> outcome (aabb f32).
  Hypothesis Hadd : forall b q, addPrim b q = omap (fun l => extendAll p b l) (items q).
  Hypothesis Hnum : forall q it, items q = Ok it -> Forall numBox3 it.
  Variables (root : aabb f32) (n : Z).
  Hypothesis Hn : 1 <= n <= 2 ^ 31.
  Notation finished := (finished emptyBox addPrim root n).

  (** box of a non-root node as the extension of the empty box by everything below *)
  Lemma box_below : forall nodes prims t id nd, finished nodes prims t -> 1 <= id -> at_ nodes id nd ->
    exists l, nbox nd = extendAll p emptyBox l /\ (forall o, In o l <-> below_ items nodes prims id o) /\
              Forall numBox3 l.
  Proof.
    intros nodes prims t id nd HF Hid Ha.
    destruct (finished_boxes _ _ _ _ Hn _ _ _ HF) as (_ & HB).
    destruct (HB id nd Hid Ha) as (l & _ & E & HI).
    destruct (foldBox_items p items addPrim Hadd _ _ _ E) as (ls & F2 & ->).
    assert (HI2 := items_in items _ _ F2).
    exists (concat ls). split; [reflexivity|]. split.
    - intros o. rewrite HI2. unfold below_. split.
      + intros (q & it & H1 & H2 & H3). apply HI in H1. destruct H1 as (k & ? & ?). eauto 10.
      + intros (k & q & it & H1 & H2 & H3 & H4). exists q, it. split; [|auto]. apply HI. eauto.
    - apply Forall_forall. intros o Ho. apply HI2 in Ho. destruct Ho as (q & it & _ & H2 & H3).
      specialize (Hnum _ _ H2). rewrite Forall_forall in Hnum. auto.
  Qed.

  Theorem boxes_contain : forall nodes prims t, finished nodes prims t ->
    (forall nd, at_ nodes 0 nd -> nbox nd = root) /\
    (forall id nd o, 1 <= id -> at_ nodes id nd -> below_ items nodes prims id o -> cornersInside (nbox nd) o) /\
    (forall id nd left child ch, 1 <= id -> at_ nodes id nd -> innerAt nodes id left ->
       child = left \/ child = left + 1 -> at_ nodes child ch -> cornersInside (nbox nd) (nbox ch)).
  Proof.
    intros nodes prims t HF.
    split; [apply (finished_boxes _ _ _ _ Hn _ _ _ HF)|]. split.
    - intros id nd o Hid Ha Ho.
      destruct (box_below _ _ _ _ _ HF Hid Ha) as (l & -> & HI & HN).
      destruct (extendAll_least p l emptyBox numBox3_empty HN) as (_ & _ & HC & _).
      rewrite Forall_forall in HC. apply HC, HI, Ho.
    - intros id nd left child ch Hid Ha Hin Hch Hac.
      destruct (box_below _ _ _ _ _ HF Hid Ha) as (l & -> & HI & HN).
      destruct (extendAll_least p l emptyBox numBox3_empty HN) as (_ & H0 & HC & _).
      destruct (finished_tree _ _ _ _ _ _ _ HF) as (_ & _ & Hlt & _).
      destruct (Hlt _ _ Hin) as (Hl1 & _).
      assert (Hc1 : 1 <= child) by lia.
      destruct (box_below _ _ _ _ _ HF Hc1 Hac) as (l' & -> & HI' & HN').
      destruct (extendAll_least p l' emptyBox numBox3_empty HN') as (_ & _ & _ & HL).
      apply HL; [exact H0|]. apply Forall_forall. intros o Ho. rewrite Forall_forall in HC. apply HC, HI.
      apply HI' in Ho. destruct Ho as (k & q & it & H1 & H2 & H3 & H4). exists k, q, it. split; [|auto].
      destruct Hch as [->| ->]; [eapply under_left|eapply under_right]; eassumption.
  Qed.

  (** and tightly so *)
  Theorem boxes_least : forall nodes prims t, finished nodes prims t ->
    (forall q it, 0 <= q < n -> items q = Ok it -> it <> [] /\ Forall finiteBox3 it) ->
    (forall q, 0 <= q < n -> exists it, items q = Ok it) ->
    forall id nd c, 1 <= id -> at_ nodes id nd ->
    (forall o, below_ items nodes prims id o -> cornersInside c o) -> cornersInside c (nbox nd).
  Proof.
    intros nodes prims t HF Hfin Hdef id nd c Hid Ha Hc.
    destruct (box_below _ _ _ _ _ HF Hid Ha) as (l & -> & HI & HN).
    destruct (extendAll_least p l emptyBox numBox3_empty HN) as (_ & _ & _ & HL).
    apply HL.
    - (* some primitive is below *)
      assert (HIds := finished_ids _ _ _ _ _ _ _ HF).
      destruct (finished_permutation _ _ _ _ Hn _ _ _ HF) as (HPl & _ & HPi).
      destruct HF as (P & W & R0 & PI & LN).
      destruct (wft_at _ _ _ _ _ _ _ _ _ id W) as (s & f & c0 & E & Ws & Hf & Hfc).
      { apply HIds. eapply at_bound, Ha. }
      assert (Hc0 := wft_pos _ _ _ _ _ _ _ _ _ Ws).
      assert (Hu : under nodes id f).
      { rewrite <- E. apply (range_under _ _ _ _ _ _ _ _ _ f Ws). lia. }
      destruct (at_exists _ prims f) as (q & Hq); [lia|].
      assert (Hqn : 0 <= q < n) by (apply HPi, In_at; eauto).
      destruct (Hdef q Hqn) as (it & Eit).
      destruct (Hfin q it Hqn Eit) as (Hne & Hff). destruct it as [|o it]; [congruence|].
      inversion Hff; subst.
      assert (Hco : cornersInside c o).
      { apply Hc. exists f, q, (o :: it). cbn. auto. }
      destruct H1 as ((M1 & M2 & M3) & (X1 & X2 & X3)).
      apply finite_ext in M1, M2, M3, X1, X2, X3.
      unfold cornersInside in *. cbn [emptyBox bmin bmax dup4 vx vy vz].
      rewrite mfltMax_ext. lra.
    - apply Forall_forall. intros o Ho. apply Hc, HI, Ho.
  Qed.
End Boxes.

(** the build invariant depends on the inclusion of the primitives present only *)
Lemma foldBox_ext : forall (add add' : aabb f32 -> Z -> outcome (aabb f32)) l b,
  (forall q b, In q l -> add b q = add' b q) -> foldBox add l b = foldBox add' l b.
Proof.
  induction l as [|q l IH]; intros b H; cbn; [reflexivity|].
  rewrite H by (cbn; auto). destruct (add' b q); cbn; auto. apply IH. intros q' b' Hq. apply H. cbn. auto.
Qed.

Lemma wft_add_ext : forall add add' root n t nodes prims f c,
  (forall q b, In q prims -> add b q = add' b q) ->
  wft emptyBox add root n nodes prims t f c -> wft emptyBox add' root n nodes prims t f c.
Proof.
  intros add add' root n t nodes prims f c H.
  assert (HB : forall id b f c, 0 <= f -> 0 <= c -> boxOK emptyBox add root n prims id b f c ->
                             boxOK emptyBox add' root n prims id b f c).
  { intros id b f0 c0 Hf Hc [?|(? & s & P & E)]; [left; assumption|right]. split; [assumption|].
    exists s. split; [exact P|]. rewrite <- E. symmetry. apply foldBox_ext. intros q b' Hq. apply H.
    eapply Permutation_in in Hq; [|exact P]. apply In_slice in Hq; [|assumption..].
    destruct Hq as (k & _ & Hk). apply In_at. eauto. }
  revert f c. induction t; cbn [wft]; intros f c W.
  - destruct W as (-> & -> & ? & ? & b & ? & ?). repeat (split; [auto|]). exists b. split; [auto|].
    apply HB; [lia..|assumption].
  - destruct W as (b & c1 & ? & ? & ? & ? & ? & ? & ? & ?). exists b, c1.
    split; [auto|]. split; [apply HB; [lia..|assumption]|]. repeat (split; [auto|]). auto.
Qed.

(** ** The two overloads *)
Section Overloads.
  Variable p : path.

  Definition boxItems (boxes : list (aabb f32)) (q : Z) : outcome (list (aabb f32)) :=
    omap (fun b => [b]) (readAt boxes q).
  Lemma addBox_items : forall boxes b q,
    addBox p boxes b q = omap (fun l => extendAll p b l) (boxItems boxes q).
  Proof. intros boxes b q. unfold addBox, boxItems. destruct (readAt boxes q); reflexivity. Qed.

  Definition pointBox (v : vec4 f32) : aabb f32 := mkAabb v v.
  Definition triItems indexMem vertexMem vertexSize indexSize (q : Z) : outcome (list (aabb f32)) :=
    bind (vertexOf indexMem vertexMem vertexSize indexSize q 0) (fun v0 =>
    bind (vertexOf indexMem vertexMem vertexSize indexSize q 1) (fun v1 =>
    bind (vertexOf indexMem vertexMem vertexSize indexSize q 2) (fun v2 =>
    Ok [pointBox v0; pointBox v1; pointBox v2]))).
  Lemma addTriangle_items : forall im vm vs is b q,
    addTriangle p im vm vs is b q = omap (fun l => extendAll p b l) (triItems im vm vs is q).
  Proof.
    intros. unfold addTriangle, triItems.
    destruct (vertexOf im vm vs is q 0); try reflexivity; cbn.
    destruct (vertexOf im vm vs is q 1); try reflexivity; cbn.
    destruct (vertexOf im vm vs is q 2); reflexivity.
  Qed.

  Lemma recreateBoxes_finished : forall boxes root given nodes prims,
    1 <= Z.of_nat (length boxes) <= 2 ^ 31 ->
    recreateBoxes p boxes root given = Ok (nodes, prims) ->
    exists t, finished emptyBox (addBox p boxes) root (Z.of_nat (length boxes)) nodes prims t.
  Proof. intros boxes root given nodes prims Hn H. eapply recreate_partial; eassumption. Qed.
  Lemma recreateTriangles_finished : forall im vm root ic vs is given nodes prims,
    1 <= ic / 3 <= 2 ^ 31 ->
    recreateTriangles p im vm root ic vs is given = Ok (nodes, prims) ->
    (is = 2 \/ is = 4) /\
    exists t, finished emptyBox (addTriangle p im vm vs is) root (ic / 3) nodes prims t.
  Proof.
    intros im vm root ic vs is given nodes prims Hn H. unfold recreateTriangles in H.
    destruct ((is =? 2) || (is =? 4)) eqn:E; cbn [negb] in H; [|discriminate].
    apply orb_true_iff in E. rewrite !Z.eqb_eq in E. split; [exact E|].
    eapply recreate_partial; eassumption.
  Qed.

  Theorem recreateBoxes_boxes : forall boxes root given nodes prims,
    1 <= Z.of_nat (length boxes) <= 2 ^ 31 -> Forall numBox3 boxes ->
    recreateBoxes p boxes root given = Ok (nodes, prims) ->
    (forall nd, at_ nodes 0 nd -> nbox nd = root) /\
    (forall id nd k q o, 1 <= id -> at_ nodes id nd -> under nodes id k -> at_ prims k q -> at_ boxes q o ->
       cornersInside (nbox nd) o) /\
    (forall id nd left child ch, 1 <= id -> at_ nodes id nd -> innerAt nodes id left ->
       child = left \/ child = left + 1 -> at_ nodes child ch -> cornersInside (nbox nd) (nbox ch)).
  Proof.
    intros boxes root given nodes prims Hn Hnum H.
    destruct (recreateBoxes_finished _ _ _ _ _ Hn H) as (t & HF).
    destruct (boxes_contain p (boxItems boxes) (addBox p boxes) (addBox_items boxes)) with
      (root := root) (n := Z.of_nat (length boxes)) (nodes := nodes) (prims := prims) (t := t)
      as (H1 & H2 & H3); [|exact Hn|exact HF|].
    { intros q it E. unfold boxItems in E. destruct (readAt boxes q) as [o| | |] eqn:Er; try discriminate.
      injection E as <-. constructor; [|constructor]. apply readAt_Ok in Er.
      rewrite Forall_forall in Hnum. apply Hnum, In_at. eauto. }
    split; [exact H1|]. split; [|exact H3].
    intros id nd k q o Hid Ha Hu Hq Ho. apply (H2 id nd o Hid Ha).
    exists k, q, [o]. split; [exact Hu|]. split; [exact Hq|]. split; [|cbn; auto].
    unfold boxItems. apply readAt_Ok in Ho. rewrite Ho. reflexivity.
  Qed.

  Theorem recreateBoxes_least : forall boxes root given nodes prims,
    1 <= Z.of_nat (length boxes) <= 2 ^ 31 -> Forall finiteBox3 boxes ->
    recreateBoxes p boxes root given = Ok (nodes, prims) ->
    forall id nd c, 1 <= id -> at_ nodes id nd ->
    (forall k q o, under nodes id k -> at_ prims k q -> at_ boxes q o -> cornersInside c o) ->
    cornersInside c (nbox nd).
  Proof.
    intros boxes root given nodes prims Hn Hfin H id nd c Hid Ha Hc.
    destruct (recreateBoxes_finished _ _ _ _ _ Hn H) as (t & HF).
    apply (boxes_least p (boxItems boxes) (addBox p boxes) (addBox_items boxes)) with
      (root := root) (n := Z.of_nat (length boxes)) (nodes := nodes) (prims := prims) (t := t) (id := id);
      try assumption.
    - intros q it E. unfold boxItems in E. destruct (readAt boxes q) as [o| | |] eqn:Er; try discriminate.
      injection E as <-. constructor; [|constructor]. apply readAt_Ok in Er.
      rewrite Forall_forall in Hfin. assert (Hf : finiteBox3 o) by (apply Hfin, In_at; eauto).
      destruct Hf as ((M1 & M2 & M3) & (X1 & X2 & X3)).
      apply finite_ext in M1, M2, M3, X1, X2, X3. unfold numBox3, num3. tauto.
    - intros q it Hq E. unfold boxItems in E. destruct (readAt boxes q) as [o| | |] eqn:Er; try discriminate.
      injection E as <-. split; [discriminate|]. constructor; [|constructor]. apply readAt_Ok in Er.
      rewrite Forall_forall in Hfin. apply Hfin, In_at; eauto.
    - intros q Hq. destruct (at_exists _ boxes q Hq) as (o & Ho). apply readAt_Ok in Ho.
      exists [o]. unfold boxItems. rewrite Ho. reflexivity.
    - intros o (k & q & it & H1 & H2 & H3 & H4). unfold boxItems in H3.
      destruct (readAt boxes q) as [o'| | |] eqn:Er; try discriminate. injection H3 as <-.
      destruct H4 as [<-|[]]. apply readAt_Ok in Er. eapply Hc; eassumption.
  Qed.

  Lemma vertexOf_spec : forall im vm vs is q j v n, 0 <= q < n -> 0 <= j < 3 -> 3 * n * is <= 2 ^ 32 -> 1 <= is ->
    (forall o i, im o = Ok i -> 0 <= i * vs < 2 ^ 32) ->
    (vertexOf im vm vs is q j = Ok v <-> exists v3, triVertex im vm vs is q j v3 /\ v = ofFloat3 v3).
  Proof.
    intros im vm vs is q j v n Hq Hj Hb His Hi. unfold vertexOf, triVertex. cbv zeta.
    assert (3 * q + j < 3 * n) by lia.
    rewrite (wrap_id (q * 3)) by nia. rewrite (wrap_id (q * 3 + j)) by nia. rewrite (wrap_id ((q * 3 + j) * is)) by nia.
    replace (q * 3 + j) with (3 * q + j) by lia.
    destruct (im ((3 * q + j) * is)) as [i| | |] eqn:E; cbn [bind].
    - rewrite (wrap_id (i * vs)) by (eapply Hi, E).
      destruct (vm (i * vs)) as [w| | |] eqn:Ew; cbn [bind]; split; intros Hx.
      + injection Hx as <-. exists w. split; [exists i|]; auto.
      + destruct Hx as (v3 & (i' & E1 & E2) & ->). congruence.
      + discriminate.
      + destruct Hx as (v3 & (i' & E1 & E2) & ->). congruence.
      + discriminate.
      + destruct Hx as (v3 & (i' & E1 & E2) & ->). congruence.
      + discriminate.
      + destruct Hx as (v3 & (i' & E1 & E2) & ->). congruence.
    - split; [discriminate|]. intros (v3 & (i' & E1 & E2) & _). congruence.
    - split; [discriminate|]. intros (v3 & (i' & E1 & E2) & _). congruence.
    - split; [discriminate|]. intros (v3 & (i' & E1 & E2) & _). congruence.
  Qed.

  Lemma triItems_spec : forall im vm vs is n q it, 0 <= q < n -> 3 * n * is <= 2 ^ 32 -> 1 <= is ->
    (forall o i, im o = Ok i -> 0 <= i * vs < 2 ^ 32) -> triItems im vm vs is q = Ok it ->
    exists a b c, triVertex im vm vs is q 0 a /\ triVertex im vm vs is q 1 b /\ triVertex im vm vs is q 2 c /\
      it = [pointBox (ofFloat3 a); pointBox (ofFloat3 b); pointBox (ofFloat3 c)].
  Proof.
    intros im vm vs is n q it Hq Hb His Hi E. unfold triItems in E.
    destruct (bind_Ok _ _ _ _ _ E) as (v0 & E0 & E'). clear E.
    destruct (bind_Ok _ _ _ _ _ E') as (v1 & E1 & E). clear E'.
    destruct (bind_Ok _ _ _ _ _ E) as (v2 & E2 & E'). clear E. injection E' as <-.
    apply (vertexOf_spec _ _ _ _ _ _ _ n) in E0; [|assumption || lia..].
    apply (vertexOf_spec _ _ _ _ _ _ _ n) in E1; [|assumption || lia..].
    apply (vertexOf_spec _ _ _ _ _ _ _ n) in E2; [|assumption || lia..].
    destruct E0 as (a & ? & ->), E1 as (b & ? & ->), E2 as (c & ? & ->). eauto 10.
  Qed.

  Theorem recreateTriangles_boxes : forall im vm root ic vs is given nodes prims,
    1 <= ic / 3 <= 2 ^ 31 -> offsetsFit im (ic / 3) vs is ->
    (forall o v, vm o = Ok v -> num (x3 v) /\ num (y3 v) /\ num (z3 v)) ->
    recreateTriangles p im vm root ic vs is given = Ok (nodes, prims) ->
    (forall nd, at_ nodes 0 nd -> nbox nd = root) /\
    (forall id nd k q j v, 1 <= id -> at_ nodes id nd -> under nodes id k -> at_ prims k q ->
       0 <= j < 3 -> triVertex im vm vs is q j v -> inBox (nbox nd) (V4 (x3 v) (y3 v) (z3 v) f0)) /\
    (forall id nd left child ch, 1 <= id -> at_ nodes id nd -> innerAt nodes id left ->
       child = left \/ child = left + 1 -> at_ nodes child ch -> cornersInside (nbox nd) (nbox ch)).
  Proof.
    intros im vm root ic vs is given nodes prims Hn (Hov & Hi) Hv H.
    destruct (recreateTriangles_finished _ _ _ _ _ _ _ _ _ Hn H) as (His & t & HF).
    assert (His1 : 1 <= is) by lia.
    (* items restricted to the primitives, so that offsets do not wrap *)
    set (items q := if (0 <=? q) && (q <? ic / 3) then triItems im vm vs is q else UB).
    set (add b q := omap (fun l => extendAll p b l) (items q)).
    destruct (finished_permutation _ _ _ _ Hn _ _ _ HF) as (HPl & HPn & HPi).
    assert (HF' : finished emptyBox add root (ic / 3) nodes prims t).
    { destruct HF as (P & W & R0 & PI & LN). split; [exact P|]. split; [|auto].
      refine (wft_add_ext _ _ _ _ _ _ _ _ _ _ W).
      intros q b Hq. unfold add, items. rewrite HPi in Hq.
      replace ((0 <=? q) && (q <? ic / 3)) with true by (symmetry; apply andb_true_iff; split; [apply Z.leb_le|apply Z.ltb_lt]; lia).
      apply addTriangle_items. }
    destruct (boxes_contain p items add ltac:(reflexivity)) with
      (root := root) (n := ic / 3) (nodes := nodes) (prims := prims) (t := t)
      as (H1 & H2 & H3); [|exact Hn|exact HF'|].
    { intros q it E. unfold items in E.
      destruct ((0 <=? q) && (q <? ic / 3)) eqn:Eq; [|discriminate].
      apply andb_true_iff in Eq. rewrite Z.leb_le, Z.ltb_lt in Eq.
      destruct (triItems_spec _ _ _ _ (ic / 3) _ _ Eq Hov His1 Hi E) as (a & b & c & (i0 & _ & V0) & (i1 & _ & V1) & (i2 & _ & V2) & ->).
      apply Hv in V0, V1, V2. unfold numBox3, num3. repeat constructor; cbn; tauto. }
    split; [exact H1|]. split; [|exact H3].
    intros id nd k q j v Hid Ha Hu Hq Hj Hvx.
    assert (Hqn : 0 <= q < ic / 3) by (apply HPi, In_at; eauto).
    assert (Hbel : exists it, items q = Ok it).
    { destruct (finished_boxes _ _ _ _ Hn _ _ _ HF') as (_ & HB).
      destruct (HB id nd Hid Ha) as (l & _ & E & HI).
      destruct (foldBox_items p items add ltac:(reflexivity) _ _ _ E) as (ls & F2 & _).
      assert (Hin : In q l) by (apply HI; eauto).
      clear - F2 Hin. induction F2; [destruct Hin|]. destruct Hin as [<-|Hin]; eauto. }
    destruct Hbel as (it & Eit).
    assert (Eit' := Eit). unfold items in Eit'.
    replace ((0 <=? q) && (q <? ic / 3)) with true in Eit' by (symmetry; apply andb_true_iff; split; [apply Z.leb_le|apply Z.ltb_lt]; lia).
    destruct (triItems_spec _ _ _ _ (ic / 3) _ _ Hqn Hov His1 Hi Eit') as (a & b & c & Va & Vb & Vc & ->).
    assert (Hin : In (pointBox (ofFloat3 v)) [pointBox (ofFloat3 a); pointBox (ofFloat3 b); pointBox (ofFloat3 c)]).
    { assert (Hjj : j = 0 \/ j = 1 \/ j = 2) by lia.
      assert (HU : forall w w', triVertex im vm vs is q j w -> triVertex im vm vs is q j w' -> w = w').
      { intros w w' (i & A1 & A2) (i' & B1 & B2). congruence. }
      cbn [In]. destruct Hjj as [->|[->| ->]]; [left|right; left|right; right; left]; do 2 f_equal; eapply HU; eassumption. }
    assert (Hc : cornersInside (nbox nd) (pointBox (ofFloat3 v))).
    { apply (H2 id nd _ Hid Ha). exists k, q, [pointBox (ofFloat3 a); pointBox (ofFloat3 b); pointBox (ofFloat3 c)]. auto. }
    unfold cornersInside in Hc. unfold inBox, in3. cbn in *. lra.
  Qed.
End Overloads.
