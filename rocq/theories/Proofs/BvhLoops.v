(** The two inner loops of the BVH build: partition and box accumulation. *)
From Coq Require Import ZArith List Lia Permutation Bool.
From Verif.Model Require Import Outcome Scalar Packed Bvh.
From Verif.Spec Require Import BvhSpec.
From Verif.Proofs Require Import ArrayLemmas.
Import ListNotations.
Local Open Scope Z_scope.

Lemma list_last_case : forall A (l : list A), l = [] \/ exists l' z, l = l' ++ [z].
Proof. intros A l. destruct l as [|x l] using rev_ind; [auto|]. right. exists l, x. reflexivity. Qed.

Ltac len := repeat (progress (rewrite ?app_length in *; cbn [length app] in *)).

Section Partition.
  Context {F : Type} {S : Scalar F}.
  Variable centroid : Z -> Z -> outcome F.
  Variables (axis : Z) (split : F).

  Definition below (q : Z) : Prop := exists c, centroid q axis = Ok c /\ slt c split = true.
  Definition notBelow (q : Z) : Prop := exists c, centroid q axis = Ok c /\ slt c split = false.

  Notation partition := (partition centroid).

  Lemma partition_spec : forall fuel a L M R b i j prims i' prims',
    partition fuel axis split i j prims = Ok (i', prims') ->
    prims = a ++ L ++ M ++ R ++ b -> i = Z.of_nat (length a + length L) ->
    j = wrap (i + Z.of_nat (length M) - 1) ->
    L ++ M ++ R <> [] -> Z.of_nat (length prims) < 2 ^ 32 ->
    Forall below L -> Forall notBelow R ->
    exists L' R', prims' = a ++ L' ++ R' ++ b /\ Permutation (L ++ M ++ R) (L' ++ R') /\
      i' = Z.of_nat (length a + length L') /\ Forall below L' /\ Forall notBelow R'.
  Proof.
    induction fuel as [|fuel IH]; intros a L M R b i j prims i' prims' H Hp Hi Hj Hne Hlen HL HR;
      [discriminate|].
    cbn [Bvh.partition] in H.
    destruct M as [|m M].
    - (* nothing left *)
      cbn [length] in Hj. cbn [app] in Hp, Hne |- *.
      destruct (Z.eq_dec i 0) as [Hi0|Hi0].
      + (* first slot: j has wrapped around *)
        assert (a = []) by (destruct a; [reflexivity|cbn in Hi; lia]).
        assert (L = []) by (destruct L; [reflexivity|cbn in Hi; lia]).
        subst a L. cbn [app] in *.
        assert (Ej : j = 2 ^ 32 - 1) by (rewrite Hj, Hi0; reflexivity).
        destruct R as [|r R]; [congruence|]. exfalso.
        rewrite Hi0, Ej in H. cbn [Z.leb Z.compare] in H.
        replace (0 <=? 2 ^ 32 - 1) with true in H by reflexivity.
        apply bind_Ok in H. destruct H as (q & Hq & H).
        apply readAt_Ok in Hq.
        assert (q = r) by (eapply at_fun; [exact Hq|]; subst prims; split; [lia|reflexivity]).
        subst q. inversion HR as [|x l Hr _]; subst. destruct Hr as (c & Hc & Hs).
        rewrite Hc in H. cbn [bind] in H. rewrite Hs in H.
        rewrite readAt_UB in H; [discriminate|].
        intros [_ Hb]. lia.
      + rewrite Hj in H. rewrite wrap_id in H by (subst prims; len; lia).
        replace (i <=? i + Z.of_nat 0 - 1) with false in H
          by (symmetry; apply Z.leb_gt; lia).
        inversion H; subst i' prims'. exists L, R. repeat split; auto.
    - rewrite wrap_id in Hj by (subst prims; len; lia).
      replace (i <=? j) with true in H by (symmetry; apply Z.leb_le; len; lia).
      apply bind_Ok in H. destruct H as (q & Hq & H). apply readAt_Ok in Hq.
      assert (q = m).
      { eapply at_fun; [exact Hq|]. subst prims.
        replace (a ++ L ++ (m :: M) ++ R ++ b) with ((a ++ L) ++ m :: (M ++ R ++ b))
          by now rewrite <- ?app_assoc.
        apply at_app_mid. len. lia. }
      subst q.
      apply bind_Ok in H. destruct H as (c & Hc & H).
      destruct (slt c split) eqn:Es.
      + rewrite wrap_id in H by (subst prims; len; lia).
        eapply IH with (a := a) (L := L ++ [m]) (M := M) (R := R) (b := b) in H.
        * destruct H as (L' & R' & E1 & E2 & E3 & E4 & E5). exists L', R'.
          split; [exact E1|]. split; [|auto].
          rewrite <- E2. rewrite <- ?app_assoc. cbn. reflexivity.
        * rewrite Hp. now rewrite <- ?app_assoc.
        * len. lia.
        * rewrite wrap_id; len; subst prims; len; lia.
        * destruct L; discriminate.
        * exact Hlen.
        * apply Forall_app. split; [exact HL|]. constructor; [exists c; auto|constructor].
        * exact HR.
      + apply bind_Ok in H. destruct H as (r & Hr & H). apply readAt_Ok in Hr.
        apply bind_Ok in H. destruct H as (p1 & Hp1 & H).
        apply bind_Ok in H. destruct H as (p2 & Hp2 & H).
        destruct (list_last_case _ M) as [->|(M' & z & ->)].
        * (* swap with itself *)
          assert (j = i) by (cbn [length] in Hj; lia). subst j.
          assert (r = m) by (eapply at_fun; [exact Hr|rewrite H0; exact Hq]). subst r.
          rewrite H0 in *.
          assert (E : prims = (a ++ L) ++ m :: R ++ b) by (rewrite Hp; cbn; now rewrite <- ?app_assoc).
          rewrite E in Hp1. rewrite (writeAt_app_mid _ _ _ _ _ i) in Hp1 by (len; lia).
          inversion Hp1; subst p1.
          rewrite (writeAt_app_mid _ _ _ _ _ i) in Hp2 by (len; lia).
          inversion Hp2; subst p2.
          eapply IH with (a := a) (L := L) (M := []) (R := m :: R) (b := b) in H.
          -- destruct H as (L' & R' & E1 & E2 & E3 & E4 & E5). exists L', R'.
             split; [exact E1|]. split; [|auto]. exact E2.
          -- cbn. now rewrite <- ?app_assoc.
          -- exact Hi.
          -- cbn [length]. f_equal. lia.
          -- destruct L; discriminate.
          -- rewrite <- E. exact Hlen.
          -- exact HL.
          -- constructor; [exists c; auto|exact HR].
        * assert (E : prims = (a ++ L) ++ m :: (M' ++ z :: R ++ b)).
          { rewrite Hp. cbn. rewrite <- ?app_assoc. reflexivity. }
          assert (E' : prims = (a ++ L ++ m :: M') ++ z :: R ++ b).
          { rewrite Hp. cbn. rewrite <- ?app_assoc. cbn. rewrite <- ?app_assoc. reflexivity. }
          assert (r = z).
          { eapply at_fun; [exact Hr|]. rewrite E'. apply at_app_mid. len. lia. }
          subst r. rewrite E in Hp1.
          rewrite (writeAt_app_mid _ _ _ _ _ i) in Hp1 by (len; lia).
          inversion Hp1; subst p1.
          replace ((a ++ L) ++ z :: M' ++ z :: R ++ b) with ((a ++ L ++ z :: M') ++ z :: R ++ b) in Hp2
            by (rewrite <- ?app_assoc; cbn; rewrite <- ?app_assoc; reflexivity).
          rewrite (writeAt_app_mid _ _ _ _ _ j) in Hp2 by (len; lia).
          inversion Hp2; subst p2.
          rewrite wrap_id in H by (subst prims; len; lia).
          eapply IH with (a := a) (L := L) (M := z :: M') (R := m :: R) (b := b) in H.
          -- destruct H as (L' & R' & E1 & E2 & E3 & E4 & E5). exists L', R'.
             split; [exact E1|]. split; [|auto]. rewrite <- E2.
             apply Permutation_app_head. cbn.
             rewrite <- app_assoc. cbn.
             rewrite <- (Permutation_middle M' (R) z).
             rewrite <- (Permutation_middle M' (R) m). constructor.
          -- rewrite <- ?app_assoc. cbn. rewrite <- ?app_assoc. reflexivity.
          -- exact Hi.
          -- rewrite wrap_id; len; subst prims; len; lia.
          -- destruct L; discriminate.
          -- rewrite E' in Hlen. len. lia.
          -- exact HL.
          -- constructor; [exists c; auto|exact HR].
  Qed.

  (** Total correctness, when the loop cannot run off the front of the array. *)
  Lemma partition_total : forall fuel a L M R b i j prims,
    prims = a ++ L ++ M ++ R ++ b -> i = Z.of_nat (length a + length L) ->
    j = wrap (i + Z.of_nat (length M) - 1) -> Z.of_nat (length prims) < 2 ^ 32 ->
    (length M < fuel)%nat ->
    (forall q, In q M -> exists c, centroid q axis = Ok c) ->
    (0 < i \/ exists q, In q M /\ below q) ->
    exists r, partition fuel axis split i j prims = Ok r.
  Proof.
    induction fuel as [|fuel IH]; intros a L M R b i j prims Hp Hi Hj Hlen Hf Hc Hpos; [lia|].
    cbn [Bvh.partition].
    destruct M as [|m M].
    - assert (0 < i) by (destruct Hpos as [?|(q & [] & _)]; assumption).
      rewrite Hj, wrap_id by (subst prims; len; lia).
      replace (i <=? i + Z.of_nat (length (@nil Z)) - 1) with false
        by (symmetry; apply Z.leb_gt; cbn; lia).
      eauto.
    - rewrite wrap_id in Hj by (subst prims; len; lia).
      replace (i <=? j) with true by (symmetry; apply Z.leb_le; len; lia).
      assert (Hq : readAt prims i = Ok m).
      { apply readAt_Ok. subst prims.
        replace (a ++ L ++ (m :: M) ++ R ++ b) with ((a ++ L) ++ m :: (M ++ R ++ b))
          by now rewrite <- ?app_assoc.
        apply at_app_mid. len. lia. }
      rewrite Hq. cbn [bind].
      destruct (Hc m (or_introl eq_refl)) as (c & Ec). rewrite Ec. cbn [bind].
      destruct (slt c split) eqn:Es.
      + rewrite (wrap_id (i + 1)) by (subst prims; len; lia).
        eapply IH with (a := a) (L := L ++ [m]) (M := M) (R := R) (b := b).
        * rewrite Hp. now rewrite <- ?app_assoc.
        * len. lia.
        * rewrite wrap_id; len; subst prims; len; lia.
        * exact Hlen.
        * len. lia.
        * intros q Hin. apply Hc. right. exact Hin.
        * left. lia.
      + assert (Hpos' : 0 < i \/ exists q, In q M /\ below q).
        { destruct Hpos as [?|(q & [->|Hin] & c' & Ec' & Es')]; [now left| |].
          - congruence.
          - right. exists q. split; [exact Hin|]. exists c'. auto. }
        destruct (list_last_case _ M) as [->|(M' & z & ->)].
        * assert (Eji : j = i) by (cbn [length] in Hj; lia). rewrite Eji, Hq. cbn [bind].
          assert (E : prims = (a ++ L) ++ m :: R ++ b) by (rewrite Hp; cbn; now rewrite <- ?app_assoc).
          rewrite E. rewrite (writeAt_app_mid _ _ _ _ _ i) by (len; lia). cbn [bind].
          rewrite (writeAt_app_mid _ _ _ _ _ i) by (len; lia). cbn [bind].
          eapply IH with (a := a) (L := L) (M := []) (R := m :: R) (b := b).
          -- cbn. now rewrite <- ?app_assoc.
          -- exact Hi.
          -- cbn [length]. f_equal. lia.
          -- rewrite <- E. exact Hlen.
          -- cbn. cbn in Hf. lia.
          -- intros q [].
          -- exact Hpos'.
        * assert (E : prims = (a ++ L) ++ m :: (M' ++ z :: R ++ b)).
          { rewrite Hp. cbn. rewrite <- ?app_assoc. reflexivity. }
          assert (E' : prims = (a ++ L ++ m :: M') ++ z :: R ++ b).
          { rewrite Hp. cbn. rewrite <- ?app_assoc. cbn. rewrite <- ?app_assoc. reflexivity. }
          assert (Hz : readAt prims j = Ok z).
          { apply readAt_Ok. rewrite E'. apply at_app_mid. len. lia. }
          rewrite Hz. cbn [bind]. rewrite E.
          rewrite (writeAt_app_mid _ _ _ _ _ i) by (len; lia). cbn [bind].
          replace ((a ++ L) ++ z :: M' ++ z :: R ++ b) with ((a ++ L ++ z :: M') ++ z :: R ++ b)
            by (rewrite <- ?app_assoc; cbn; rewrite <- ?app_assoc; reflexivity).
          rewrite (writeAt_app_mid _ _ _ _ _ j) by (len; lia). cbn [bind].
          rewrite (wrap_id (j - 1)) by (subst prims; len; lia).
          eapply IH with (a := a) (L := L) (M := z :: M') (R := m :: R) (b := b).
          -- rewrite <- ?app_assoc. cbn. rewrite <- ?app_assoc. reflexivity.
          -- exact Hi.
          -- rewrite wrap_id; len; subst prims; len; lia.
          -- rewrite E' in Hlen. len. lia.
          -- len. lia.
          -- intros q Hin. apply Hc. right. apply in_or_app. destruct Hin as [->|Hin]; [right; now left|now left].
          -- destruct Hpos' as [?|(q & Hin & Hb)]; [now left|]. right. exists q. split; [|exact Hb].
             apply in_app_or in Hin. destruct Hin as [Hin|[->|[]]]; [now right|now left].
  Qed.

  (** ... and it does run off the front when the slice starts at slot 0 and nothing in it
      is below the split. *)
  Lemma partition_ub : forall fuel M R b j prims,
    prims = M ++ R ++ b -> j = wrap (Z.of_nat (length M) - 1) -> M ++ R <> [] ->
    Z.of_nat (length prims) < 2 ^ 32 -> (length M < fuel)%nat ->
    Forall notBelow M -> Forall notBelow R ->
    partition fuel axis split 0 j prims = UB.
  Proof.
    induction fuel as [|fuel IH]; intros M R b j prims Hp Hj Hne Hlen Hf HM HR; [lia|].
    cbn [Bvh.partition].
    destruct M as [|m M].
    - assert (Ej : j = 2 ^ 32 - 1) by (rewrite Hj; reflexivity).
      destruct R as [|r R]; [now elim Hne|].
      rewrite Ej. replace (0 <=? 2 ^ 32 - 1) with true by reflexivity.
      assert (Hq : readAt prims 0 = Ok r) by (apply readAt_Ok; subst prims; split; [lia|reflexivity]).
      rewrite Hq. cbn [bind]. inversion HR as [|x l Hr _]; subst. destruct Hr as (c & Hc & Hs).
      rewrite Hc. cbn [bind]. rewrite Hs. rewrite readAt_UB; [reflexivity|]. lia.
    - rewrite wrap_id in Hj by (subst prims; len; lia).
      replace (0 <=? j) with true by (symmetry; apply Z.leb_le; len; lia).
      assert (Hq : readAt prims 0 = Ok m) by (apply readAt_Ok; subst prims; split; [lia|reflexivity]).
      rewrite Hq. cbn [bind]. inversion HM as [|x l (c & Hc & Hs) HM']; subst x l.
      rewrite Hc. cbn [bind]. rewrite Hs.
      destruct (list_last_case _ M) as [->|(M' & z & ->)].
      + assert (Eji : j = 0) by (cbn [length] in Hj; lia). rewrite Eji, Hq. cbn [bind].
        assert (E : prims = [] ++ m :: R ++ b) by (rewrite Hp; reflexivity).
        rewrite E. rewrite (writeAt_app_mid _ _ _ _ _ 0) by (len; lia). cbn [bind].
        rewrite (writeAt_app_mid _ _ _ _ _ 0) by (len; lia). cbn [bind].
        eapply IH with (M := []) (R := m :: R) (b := b).
        * reflexivity.
        * reflexivity.
        * discriminate.
        * rewrite <- E. exact Hlen.
        * cbn. cbn in Hf. lia.
        * constructor.
        * constructor; [exists c; auto|exact HR].
      + assert (E : prims = [] ++ m :: (M' ++ z :: R ++ b)).
        { rewrite Hp. cbn. rewrite <- ?app_assoc. reflexivity. }
        assert (E' : prims = (m :: M') ++ z :: R ++ b).
        { rewrite Hp. cbn. rewrite <- ?app_assoc. reflexivity. }
        assert (Hz : readAt prims j = Ok z).
        { apply readAt_Ok. rewrite E'. apply at_app_mid. len. lia. }
        rewrite Hz. cbn [bind]. rewrite E.
        rewrite (writeAt_app_mid _ _ _ _ _ 0) by (len; lia). cbn [bind].
        replace ([] ++ z :: M' ++ z :: R ++ b) with ((z :: M') ++ z :: R ++ b) by reflexivity.
        rewrite (writeAt_app_mid _ _ _ _ _ j) by (len; lia). cbn [bind].
        rewrite (wrap_id (j - 1)) by (subst prims; len; lia).
        apply Forall_app in HM'. destruct HM' as [HM1 HM2].
        eapply IH with (M := z :: M') (R := m :: R) (b := b).
        * reflexivity.
        * rewrite wrap_id; len; subst prims; len; lia.
        * discriminate.
        * rewrite E' in Hlen. len. lia.
        * len. lia.
        * constructor; [inversion HM2; assumption|exact HM1].
        * constructor; [exists c; auto|exact HR].
  Qed.
End Partition.

Section Boxes.
  Context {B : Type}.
  Variable boxAdd : B -> Z -> outcome B.

  (** Inclusion of the primitives of a list, one after the other. *)
  Fixpoint foldBox (l : list Z) (b : B) : outcome B :=
    match l with
    | [] => Ok b
    | q :: l' => bind (boxAdd b q) (fun b' => foldBox l' b')
    end.

  Lemma boxLoop_fold : forall s a c b i prims,
    prims = a ++ s ++ c -> i = Z.of_nat (length a) -> Z.of_nat (length prims) < 2 ^ 32 ->
    boxLoop boxAdd prims i (length s) b = foldBox s b.
  Proof.
    induction s as [|q s IH]; intros a c b i prims Hp Hi Hlen; cbn [boxLoop foldBox length]; [reflexivity|].
    assert (Hq : readAt prims i = Ok q).
    { apply readAt_Ok. subst prims. apply at_app_mid. exact Hi. }
    rewrite Hq. cbn [bind]. destruct (boxAdd b q) as [b'| | |]; cbn [bind]; try reflexivity.
    rewrite wrap_id by (subst prims; len; lia).
    apply (IH (a ++ [q]) c).
    - rewrite Hp. now rewrite <- app_assoc.
    - len. lia.
    - exact Hlen.
  Qed.

  Lemma calculateNodeAabb_fold : forall boxInit prims f c,
    0 <= f -> 0 <= c -> f + c <= Z.of_nat (length prims) -> Z.of_nat (length prims) < 2 ^ 32 ->
    calculateNodeAabb boxInit boxAdd f c prims = foldBox (slice prims f c) boxInit.
  Proof.
    intros boxInit prims f c Hf Hc Hfc Hlen. unfold calculateNodeAabb.
    rewrite wrap_id by lia.
    destruct (slice_split _ prims f c Hf Hc Hfc) as (a & b & E & La).
    replace (Z.to_nat (f + c - f)) with (length (slice prims f c))
      by (assert (H := slice_length _ prims f c Hf Hc Hfc); lia).
    apply (boxLoop_fold _ a b); [exact E|lia|exact Hlen].
  Qed.
End Boxes.
