From Coq Require Import ZArith Bool List Lia.
From Verif.Model Require Import Outcome Scalar Vec Simd IntVec SimdInt MatrixMore LaneAccess.
From Verif.Spec Require Import OrderSpec IntSpec AccessSpec.
From Verif.Proofs Require Import IntProofs IntArith.
Import ListNotations.
Local Open Scope Z_scope.
Local Open Scope outcome_scope.

Lemma four_lanes : forall A p (x y z w : A), lanes4 (simd4 p x y z w) = [x; y; z; w].
Proof. intros A p x y z w. destruct p; reflexivity. Qed.
Lemma three_lanes : forall A p (x y z : A), lanes4 (simd3 p x y z) = [x; y; z; z].
Proof. intros A p x y z. destruct p; reflexivity. Qed.
Lemma withW_lanes : forall A p (v : vec4 A) w,
  lanes4 (simdWithW p v w) = [vx v; vy v; vz v; w] /\ lanes4 (simdWithWi p v w) = [vx v; vy v; vz v; w].
Proof. intros A p v w. destruct p; split; reflexivity. Qed.
Lemma plain_roundtrip : forall A p, (forall v : vec4 A, plain4 (simdOf4 p v) = v) /\
  (forall v : vec3 A, plain3 (simdOf3 p v) = v /\ vw (simdOf3 p v) = z3 v) /\
  (forall v : vec2 A, plain2 (simdOf2 p v) = v /\ vz (simdOf2 p v) = y2 v /\ vw (simdOf2 p v) = y2 v).
Proof.
  intros A p. repeat split; intros; destruct p; try reflexivity; destruct v; reflexivity.
Qed.

Lemma index_means : forall A debug (l : list A) last i, last = Z.of_nat (length l) - 1 -> 0 <= i ->
  indexed debug l i (column debug last l i).
Proof.
  intros A debug l last i -> Hi. unfold indexed, column.
  destruct (Z_lt_le_dec i (Z.of_nat (length l))) as [H|H].
  - left. split; [exact H|]. replace (i <=? _) with true by (symmetry; apply Z.leb_le; lia).
    cbn [negb]. rewrite andb_false_r.
    destruct (nth_error l (Z.to_nat i)) as [a|] eqn:E; [exists a; auto|].
    exfalso. apply nth_error_None in E. lia.
  - right. split; [exact H|]. replace (i <=? _) with false by (symmetry; apply Z.leb_gt; lia).
    cbn [negb]. rewrite andb_true_r. destruct debug; [reflexivity|].
    replace (nth_error l (Z.to_nat i)) with (@None A); [reflexivity|].
    symmetry. apply nth_error_None. lia.
Qed.
Lemma indexes : forall A debug i, 0 <= i ->
  (forall v : vec2 A, indexed debug (lanes2 v) i (index2 debug v i)) /\
  (forall v : vec3 A, indexed debug (lanes3 v) i (index3 debug v i)) /\
  (forall v : vec4 A, indexed debug (lanes4 v) i (index4 debug v i)).
Proof. intros A debug i Hi. repeat split; intros v; apply index_means; trivial. Qed.
Lemma getters : forall A debug (v : vec4 A) l, index4 debug v (laneNo l) = Ok (getLane l v).
Proof. intros A debug v l. destruct debug, l; reflexivity. Qed.

Lemma store_reload : forall A (v : vec4 A), storeLanes v = lanes4 v /\
  exists a b c d, storeLanes v = [a; b; c; d] /\ loadAligned a b c d = v.
Proof. intros A [a b c d]. split; [reflexivity|]. exists a, b, c, d. split; reflexivity. Qed.

Lemma small4 : forall i, 0 <= i <= 3 -> i = 0 \/ i = 1 \/ i = 2 \/ i = 3.
Proof. lia. Qed.
Lemma swizzle_lanes : forall A p X Y Z' W (v : vec4 A),
  0 <= X <= 3 -> 0 <= Y <= 3 -> 0 <= Z' <= 3 -> 0 <= W <= 3 ->
  map Some (lanes4 (swizzle p X Y Z' W v)) =
  map (fun i => nth_error (lanes4 v) (Z.to_nat i)) [X; Y; Z'; W].
Proof.
  intros A p X Y Z' W v HX HY HZ HW.
  apply small4 in HX. apply small4 in HY. apply small4 in HZ. apply small4 in HW.
  destruct HX as [->|[->|[->| ->]]], HY as [->|[->|[->| ->]]], HZ as [->|[->|[->| ->]]], HW as [->|[->|[->| ->]]];
    destruct p; reflexivity.
Qed.

(** ** Histories of writes *)
Lemma write_holds : forall A debug (v : vec4 A) c w, holds c v -> inBounds w ->
  exists v', doWrite debug v w = Ok v' /\ holds (effect c w) v'.
Proof.
  intros A debug [a b c d] k w (H0 & H1 & H2 & H3) Hw. cbn [vx vy vz vw] in *.
  destruct w as [l x|i x|x|]; cbn [inBounds] in Hw; cbn [doWrite].
  - destruct l; eexists; (split; [reflexivity|]); repeat split; cbn; assumption.
  - apply small4 in Hw. destruct Hw as [->|[->|[->| ->]]], debug; eexists; (split; [reflexivity|]);
      repeat split; cbn; assumption.
  - eexists; split; [reflexivity|]. repeat split.
  - eexists; split; [reflexivity|]. repeat split; cbn; assumption.
Qed.
Lemma history_holds : forall A debug h (v : vec4 A) c, holds c v -> Forall inBounds h ->
  exists v', doWrites debug v h = Ok v' /\ holds (fold_left effect h c) v'.
Proof.
  intros A debug h. induction h as [|w h IH]; intros v c Hc Hh; cbn [doWrites fold_left].
  - exists v. auto.
  - inversion Hh; subst. destruct (write_holds A debug v c w Hc H1) as (v1 & E & H).
    rewrite E. cbn [bind]. apply IH; assumption.
Qed.
Lemma write_out : forall A debug (v : vec4 A) w, unsignedIndex w -> ~ inBounds w ->
  doWrite debug v w = if debug then Abort else UB.
Proof.
  intros A debug v [l x|i x|x|] Hu Hw; cbn [inBounds unsignedIndex doWrite] in *; try tauto.
  unfold setIndex, laneNumbered. replace (i <=? 3) with false by (symmetry; apply Z.leb_gt; lia).
  destruct debug; [reflexivity|]. cbn [andb].
  do 4 (match goal with |- context [i =? ?k] =>
          replace (i =? k) with false by (symmetry; apply Z.eqb_neq; lia) end).
  reflexivity.
Qed.
Lemma inBounds_dec : forall A (w : write A), inBounds w \/ ~ inBounds w.
Proof. intros A [l x|i x|x|]; cbn [inBounds]; first [left; exact I | lia]. Qed.
Lemma history_out : forall A debug h (v : vec4 A), Forall unsignedIndex h -> ~ Forall inBounds h ->
  doWrites debug v h = if debug then Abort else UB.
Proof.
  intros A debug h. induction h as [|w h IH]; intros v Hu Hn; [exfalso; apply Hn; constructor|].
  inversion Hu; subst. cbn [doWrites]. destruct (inBounds_dec A w) as [Hw|Hw].
  - destruct (write_holds A debug v (fun i => pick v i) w) as (v1 & E & _); [repeat split|exact Hw|].
    rewrite E. cbn [bind]. apply IH; [assumption|]. intro. apply Hn. constructor; assumption.
  - rewrite write_out by assumption. destruct debug; reflexivity.
Qed.

(** ** Operators with a number *)
Lemma dupF2 : forall (P : Z -> Prop) n, P n -> Forall P (lanes2 (dup2 n)).
Proof. intros P n H. repeat constructor; exact H. Qed.
Lemma dupF3 : forall (P : Z -> Prop) n, P n -> Forall P (lanes3 (dup3 n)).
Proof. intros P n H. repeat constructor; exact H. Qed.
Lemma dupF4 : forall (P : Z -> Prop) n, P n -> Forall P (lanes4 (dup4 n)).
Proof. intros P n H. repeat constructor; exact H. Qed.

Ltac meets H := unfold opMeets, omap; match type of H with match ?e with _ => _ end =>
  destruct e; cbn [bind]; exact H end.
Section Number.
  Context (f : Z -> Z -> outcome Z) (P : Z -> Prop) (res : Z -> Z -> Z -> Prop) (und : Z -> Z -> Prop).
  Context (f_means : forall a b, P a -> P b ->
    match f a b with Ok r => res a b r /\ ~ und a b | UB => und a b | _ => False end).
  Lemma meets2 : forall a b, Forall P (lanes2 a) -> Forall P (lanes2 b) ->
    opMeets res und (lanes2 a) (lanes2 b) (omap lanes2 (seqO2 (map2_2 f a b))).
  Proof. intros a b Ha Hb. pose proof (lanewise2 f P res und f_means a b Ha Hb) as H. meets H. Qed.
  Lemma meets3 : forall a b, Forall P (lanes3 a) -> Forall P (lanes3 b) ->
    opMeets res und (lanes3 a) (lanes3 b) (omap lanes3 (seqO3 (map2_3 f a b))).
  Proof. intros a b Ha Hb. pose proof (lanewise3 f P res und f_means a b Ha Hb) as H. meets H. Qed.
  Lemma meets4 : forall a b, Forall P (lanes4 a) -> Forall P (lanes4 b) ->
    opMeets res und (lanes4 a) (lanes4 b) (omap lanes4 (seqO4 (map2_4 f a b))).
  Proof. intros a b Ha Hb. pose proof (lanewise4 f P res und f_means a b Ha Hb) as H. meets H. Qed.
End Number.
Lemma uint_number : forall o n, u32 n ->
  (forall v, Forall u32 (lanes2 v) -> opMeets (uRes o) (uUndef o) (lanes2 v) [n; n] (omap lanes2 (uintOpN2 o v n))) /\
  (forall v, Forall u32 (lanes3 v) -> opMeets (uRes o) (uUndef o) (lanes3 v) [n; n; n] (omap lanes3 (uintOpN3 o v n))) /\
  (forall v, Forall u32 (lanes4 v) -> opMeets (uRes o) (uUndef o) (lanes4 v) [n; n; n; n] (omap lanes4 (uintOpN4 o v n))).
Proof.
  intros o n Hn. repeat split; intros v Hv.
  - exact (meets2 (ulane o) u32 _ _ (ulane_means o) v (dup2 n) Hv (dupF2 u32 n Hn)).
  - exact (meets3 (ulane o) u32 _ _ (ulane_means o) v (dup3 n) Hv (dupF3 u32 n Hn)).
  - exact (meets4 (ulane o) u32 _ _ (ulane_means o) v (dup4 n) Hv (dupF4 u32 n Hn)).
Qed.
Lemma int_number : forall o n, i32 n ->
  (forall v, Forall i32 (lanes2 v) -> opMeets (iRes o) (iUndef o) (lanes2 v) [n; n] (omap lanes2 (intOpN2 o v n))) /\
  (forall v, Forall i32 (lanes3 v) -> opMeets (iRes o) (iUndef o) (lanes3 v) [n; n; n] (omap lanes3 (intOpN3 o v n))) /\
  (forall v, Forall i32 (lanes4 v) -> opMeets (iRes o) (iUndef o) (lanes4 v) [n; n; n; n] (omap lanes4 (intOpN4 o v n))).
Proof.
  intros o n Hn. repeat split; intros v Hv.
  - exact (meets2 (ilane o) i32 _ _ (ilane_means o) v (dup2 n) Hv (dupF2 i32 n Hn)).
  - exact (meets3 (ilane o) i32 _ _ (ilane_means o) v (dup3 n) Hv (dupF3 i32 n Hn)).
  - exact (meets4 (ilane o) i32 _ _ (ilane_means o) v (dup4 n) Hv (dupF4 i32 n Hn)).
Qed.
Lemma number_uint : forall o n, u32 n ->
  (forall v, Forall u32 (lanes2 v) -> opMeets (uRes o) (uUndef o) [n; n] (lanes2 v) (omap lanes2 (nUintOp2 o n v))) /\
  (forall v, Forall u32 (lanes3 v) -> opMeets (uRes o) (uUndef o) [n; n; n] (lanes3 v) (omap lanes3 (nUintOp3 o n v))) /\
  (forall v, Forall u32 (lanes4 v) -> opMeets (uRes o) (uUndef o) [n; n; n; n] (lanes4 v) (omap lanes4 (nUintOp4 o n v))).
Proof.
  intros o n Hn. repeat split; intros v Hv.
  - exact (meets2 (ulane o) u32 _ _ (ulane_means o) (dup2 n) v (dupF2 u32 n Hn) Hv).
  - exact (meets3 (ulane o) u32 _ _ (ulane_means o) (dup3 n) v (dupF3 u32 n Hn) Hv).
  - exact (meets4 (ulane o) u32 _ _ (ulane_means o) (dup4 n) v (dupF4 u32 n Hn) Hv).
Qed.
Lemma number_int : forall o n, i32 n ->
  (forall v, Forall i32 (lanes2 v) -> opMeets (iRes o) (iUndef o) [n; n] (lanes2 v) (omap lanes2 (nIntOp2 o n v))) /\
  (forall v, Forall i32 (lanes3 v) -> opMeets (iRes o) (iUndef o) [n; n; n] (lanes3 v) (omap lanes3 (nIntOp3 o n v))) /\
  (forall v, Forall i32 (lanes4 v) -> opMeets (iRes o) (iUndef o) [n; n; n; n] (lanes4 v) (omap lanes4 (nIntOp4 o n v))).
Proof.
  intros o n Hn. repeat split; intros v Hv.
  - exact (meets2 (ilane o) i32 _ _ (ilane_means o) (dup2 n) v (dupF2 i32 n Hn) Hv).
  - exact (meets3 (ilane o) i32 _ _ (ilane_means o) (dup3 n) v (dupF3 i32 n Hn) Hv).
  - exact (meets4 (ilane o) i32 _ _ (ilane_means o) (dup4 n) v (dupF4 i32 n Hn) Hv).
Qed.

Lemma assigned : forall o, (forall v w, assign2 (ulane o) v w = uintOp2 o v w /\ assign2 (ilane o) v w = intOp2 o v w) /\
  (forall v w, assign3 (ulane o) v w = uintOp3 o v w /\ assign3 (ilane o) v w = intOp3 o v w) /\
  (forall v w, assign4 (ulane o) v w = uintOp4 o v w /\ assign4 (ilane o) v w = intOp4 o v w).
Proof. intros o. repeat split; reflexivity. Qed.

Lemma cmp_mask : forall c a b, maskFor (relOf c a b) (maskOf (cmpLane c a b)).
Proof.
  intros c a b. unfold maskFor, maskOf, allOnes.
  destruct c; cbn [cmpLane relOf];
    match goal with
    | |- context [negb (?x =? ?y)] => destruct (Z.eqb_spec x y); cbn [negb]
    | |- context [?x <? ?y] => destruct (Z.ltb_spec x y)
    | |- context [?x <=? ?y] => destruct (Z.leb_spec x y)
    | |- context [?x =? ?y] => destruct (Z.eqb_spec x y)
    end; first [left; split; [lia|reflexivity] | right; split; [lia|reflexivity]].
Qed.
Lemma compare_number : forall c n,
  (forall v, Forall3 (fun x y m => maskFor (relOf c x y) m) (lanes2 v) [n; n] (lanes2 (compareN2 c v n))) /\
  (forall v, Forall3 (fun x y m => maskFor (relOf c x y) m) (lanes3 v) [n; n; n] (lanes3 (compareN3 c v n))) /\
  (forall v, Forall3 (fun x y m => maskFor (relOf c x y) m) (lanes4 v) [n; n; n; n] (lanes4 (compareN4 c v n))) /\
  (forall v, Forall3 (fun x y m => maskFor (relOf c x y) m) [n; n] (lanes2 v) (lanes2 (nCompare2 c n v))) /\
  (forall v, Forall3 (fun x y m => maskFor (relOf c x y) m) [n; n; n] (lanes3 v) (lanes3 (nCompare3 c n v))) /\
  (forall v, Forall3 (fun x y m => maskFor (relOf c x y) m) [n; n; n; n] (lanes4 v) (lanes4 (nCompare4 c n v))).
Proof.
  intros c n. repeat split; intros v;
    repeat (apply F3_cons; [apply cmp_mask|]); apply F3_nil.
Qed.

(** ** Constants *)
Lemma checkI32_id : forall x, i32 x -> checkI32 x = Ok x.
Proof. intros x H. unfold checkI32. rewrite (proj2 (inI32_iff x) H). reflexivity. Qed.
Ltac chk := repeat (rewrite checkI32_id by (unfold i32 in *; lia); cbn [bind]).
Lemma constants2 : forall v, Forall i32 (lanes2 v) ->
  intOp2 OAdd v intZero2 = Ok v /\ intOp2 OMul v intOne2 = Ok v /\
  (t <- intOp2 OMul v intZero2;; intOp2 OAdd t v) = Ok v /\
  (x2 v <> - 2 ^ 31 -> y2 v <> - 2 ^ 31 -> intOp2 OMul v intMinusOne2 = Ok (map_2 Z.opp v)) /\
  (r <- nIntOp2 OMul (x2 v) intRight2;; t <- nIntOp2 OMul (y2 v) intTop2;; intOp2 OAdd r t) = Ok v.
Proof.
  intros [a b] H. inversion H as [|? ? Ha H1]; subst. inversion H1 as [|? ? Hb _]; subst. cbn [x2 y2] in *.
  unfold nIntOp2, intOp2, seqO2, map2_2, intZero2, intOne2, intMinusOne2, intRight2, intTop2, dup2.
  cbn [x2 y2 ilane]. repeat split; intros; chk; cbn [x2 y2 bind]; chk; rewrite ?checkI32_id by (unfold i32 in *; lia);
    cbn [bind]; unfold map_2; cbn [x2 y2]; repeat f_equal; lia.
Qed.
Lemma constants3 : forall v, Forall i32 (lanes3 v) ->
  intOp3 OAdd v intZero3 = Ok v /\ intOp3 OMul v intOne3 = Ok v /\
  (Forall (fun a => a <> - 2 ^ 31) (lanes3 v) -> intOp3 OMul v intMinusOne3 = Ok (map_3 Z.opp v)) /\
  (r <- nIntOp3 OMul (x3 v) intRight3;; t <- nIntOp3 OMul (y3 v) intTop3;; f <- nIntOp3 OMul (z3 v) intFront3;;
   s <- intOp3 OAdd r t;; intOp3 OAdd s f) = Ok v.
Proof.
  intros [a b c] H. inversion H as [|? ? Ha H1]; subst. inversion H1 as [|? ? Hb H2]; subst.
  inversion H2 as [|? ? Hc _]; subst. cbn [x3 y3 z3] in *.
  unfold nIntOp3, intOp3, seqO3, map2_3, intZero3, intOne3, intMinusOne3, intRight3, intTop3, intFront3, dup3.
  cbn [x3 y3 z3 ilane].
  repeat split; intros; try match goal with N : Forall (fun a => a <> _) _ |- _ =>
      inversion N as [|? ? N1 N2]; subst; inversion N2 as [|? ? N3 N4]; subst; inversion N4 as [|? ? N5 _]; subst; cbn [x3 y3 z3] in N1, N3, N5 end;
    chk; cbn [x3 y3 z3 bind]; chk; cbn [x3 y3 z3 bind]; chk; cbn [bind]; unfold map_3; cbn [x3 y3 z3]; repeat f_equal; lia.
Qed.
Lemma opposites :
  intOp2 OAdd intLeft2 intRight2 = Ok intZero2 /\ intOp2 OAdd intBottom2 intTop2 = Ok intZero2 /\
  intOp3 OAdd intLeft3 intRight3 = Ok intZero3 /\ intOp3 OAdd intBottom3 intTop3 = Ok intZero3 /\
  intOp3 OAdd intBack3 intFront3 = Ok intZero3.
Proof. repeat split; reflexivity. Qed.
Lemma uconstants : (forall v, Forall u32 (lanes2 v) -> uintOp2 OAdd v uintZero2 = Ok v /\ uintOp2 OMul v uintOne2 = Ok v) /\
  (forall v, Forall u32 (lanes3 v) -> uintOp3 OAdd v uintZero3 = Ok v /\ uintOp3 OMul v uintOne3 = Ok v).
Proof.
  split; [intros [a b] H|intros [a b c] H]; inversion H as [|? ? Ha H1]; subst; inversion H1 as [|? ? Hb H2]; subst;
    try (inversion H2 as [|? ? Hc _]; subst); cbn in Ha, Hb.
  - unfold uintOp2, seqO2, map2_2, uintZero2, uintOne2, dup2. cbn [x2 y2 ulane bind].
    rewrite ?Z.add_0_r, ?Z.mul_1_r, !toU32_id by assumption. auto.
  - cbn in Hc. unfold uintOp3, seqO3, map2_3, uintZero3, uintOne3, dup3. cbn [x3 y3 z3 ulane bind].
    rewrite ?Z.add_0_r, ?Z.mul_1_r, !toU32_id by assumption. auto.
Qed.

(** ** SIMD with a number: agrees with the plain vectors wherever those are defined *)
Lemma seqO4_lanes : forall (f g : Z -> outcome Z) (P : Z -> Prop) v r,
  (forall a x, P a -> f a = Ok x -> g a = Ok x) -> Forall P (lanes4 v) ->
  seqO4 (map_4 f v) = Ok r -> seqO4 (map_4 g v) = Ok r.
Proof.
  intros f g P [a b c d] r H Hv. inversion Hv as [|? ? Ha H1]; subst. inversion H1 as [|? ? Hb H2]; subst.
  inversion H2 as [|? ? Hc H3]; subst. inversion H3 as [|? ? Hd _]; subst.
  cbn [vx vy vz vw] in *. unfold seqO4, map_4. cbn [vx vy vz vw].
  destruct (f a) eqn:Ea; cbn [bind]; try discriminate. rewrite (H _ _ Ha Ea). cbn [bind].
  destruct (f b) eqn:Eb; cbn [bind]; try discriminate. rewrite (H _ _ Hb Eb). cbn [bind].
  destruct (f c) eqn:Ec; cbn [bind]; try discriminate. rewrite (H _ _ Hc Ec). cbn [bind].
  destruct (f d) eqn:Ed; cbn [bind]; try discriminate. rewrite (H _ _ Hd Ed). cbn [bind]. auto.
Qed.
Lemma u32OpN_agrees : forall p o v n r, Forall u32 (lanes4 v) -> u32 n ->
  uintOpN4 o v n = Ok r -> u32OpN p o v n = Ok r.
Proof.
  intros p o v n r Hv Hn H.
  destruct o; try (exact (u32Op_agrees p _ v (dup4 n) r Hv (dupF4 u32 n Hn) H)).
  - refine (seqO4_lanes (fun a => ulane OShr a n) _ u32 v r _ Hv H).
    intros a x Ha E. exact (u32shiftN_agrees p false a n x Ha Hn E).
  - refine (seqO4_lanes (fun a => ulane OShl a n) _ u32 v r _ Hv H).
    intros a x Ha E. exact (u32shiftN_agrees p true a n x Ha Hn E).
Qed.
Lemma i32OpN_agrees : forall p o v n r, Forall i32 (lanes4 v) -> i32 n ->
  intOpN4 o v n = Ok r -> i32OpN p o v n = Ok r.
Proof.
  intros p o v n r Hv Hn H.
  destruct o; try (exact (i32Op_agrees p _ v (dup4 n) r Hv (dupF4 i32 n Hn) H)).
  - refine (seqO4_lanes (fun a => ilane OShr a n) _ i32 v r _ Hv H).
    intros a x Ha E. exact (i32shiftN_agrees p false a n x Ha Hn E).
  - refine (seqO4_lanes (fun a => ilane OShl a n) _ i32 v r _ Hv H).
    intros a x Ha E. exact (i32shiftN_agrees p true a n x Ha Hn E).
Qed.
Lemma exists_contra : forall (R : Z -> Z -> Prop) l m, Exists2 R l m -> Forall2 (fun x y => ~ R x y) l m -> False.
Proof. intros R l m H. induction H; intro F; inversion F; subst; auto. Qed.
Lemma with_number : forall (R : Z -> Z -> Prop) n (v : vec4 Z),
  Forall (fun x => R x n) (lanes4 v) -> Forall2 R (lanes4 v) [n; n; n; n].
Proof.
  intros R n [a b c d] H. unfold lanes4 in *. cbn [vx vy vz vw] in *.
  apply Forall4_iff in H. destruct H as (Ha & Hb & Hc & Hd).
  apply Forall2_cons; [exact Ha|]. apply Forall2_cons; [exact Hb|].
  apply Forall2_cons; [exact Hc|]. apply Forall2_cons; [exact Hd|]. apply Forall2_nil.
Qed.
(** The result lanes of a defined SIMD operation with a number. *)
Lemma u32_number : forall p o v n, Forall u32 (lanes4 v) -> u32 n -> Forall (fun x => ~ uUndef o x n) (lanes4 v) ->
  exists r, u32OpN p o v n = Ok r /\ Forall3 (uRes o) (lanes4 v) [n; n; n; n] (lanes4 r).
Proof.
  intros p o v n Hv Hn Hu. pose proof (proj2 (proj2 (uint_number o n Hn)) v Hv) as M.
  unfold opMeets, omap in M. destruct (uintOpN4 o v n) as [r| | |] eqn:E; cbn [bind] in M; try contradiction.
  - exists r. split; [exact (u32OpN_agrees p o v n r Hv Hn E)|exact (proj1 M)].
  - exfalso. exact (exists_contra _ _ _ M (with_number _ n v Hu)).
Qed.
Lemma i32_number : forall p o v n, Forall i32 (lanes4 v) -> i32 n -> Forall (fun x => ~ iUndef o x n) (lanes4 v) ->
  exists r, i32OpN p o v n = Ok r /\ Forall3 (iRes o) (lanes4 v) [n; n; n; n] (lanes4 r).
Proof.
  intros p o v n Hv Hn Hu. pose proof (proj2 (proj2 (int_number o n Hn)) v Hv) as M.
  unfold opMeets, omap in M. destruct (intOpN4 o v n) as [r| | |] eqn:E; cbn [bind] in M; try contradiction.
  - exists r. split; [exact (i32OpN_agrees p o v n r Hv Hn E)|exact (proj1 M)].
  - exfalso. exact (exists_contra _ _ _ M (with_number _ n v Hu)).
Qed.
Lemma number_with : forall (R : Z -> Z -> Prop) n (v : vec4 Z),
  Forall (R n) (lanes4 v) -> Forall2 R [n; n; n; n] (lanes4 v).
Proof.
  intros R n [a b c d] H. unfold lanes4 in *. cbn [vx vy vz vw] in *.
  apply Forall4_iff in H. destruct H as (Ha & Hb & Hc & Hd).
  apply Forall2_cons; [exact Ha|]. apply Forall2_cons; [exact Hb|].
  apply Forall2_cons; [exact Hc|]. apply Forall2_cons; [exact Hd|]. apply Forall2_nil.
Qed.
Lemma number_u32 : forall p o v n, Forall u32 (lanes4 v) -> u32 n -> Forall (fun x => ~ uUndef o n x) (lanes4 v) ->
  exists r, nU32Op p o n v = Ok r /\ Forall3 (uRes o) [n; n; n; n] (lanes4 v) (lanes4 r).
Proof.
  intros p o v n Hv Hn Hu. pose proof (proj2 (proj2 (number_uint o n Hn)) v Hv) as M.
  unfold opMeets, omap in M. destruct (nUintOp4 o n v) as [r| | |] eqn:E; cbn [bind] in M; try contradiction.
  - exists r. split; [exact (u32Op_agrees p o (dup4 n) v r (dupF4 u32 n Hn) Hv E)|exact (proj1 M)].
  - exfalso. exact (exists_contra _ _ _ M (number_with (fun x y => ~ uUndef o x y) n v Hu)).
Qed.
Lemma number_i32 : forall p o v n, Forall i32 (lanes4 v) -> i32 n -> Forall (fun x => ~ iUndef o n x) (lanes4 v) ->
  exists r, nI32Op p o n v = Ok r /\ Forall3 (iRes o) [n; n; n; n] (lanes4 v) (lanes4 r).
Proof.
  intros p o v n Hv Hn Hu. pose proof (proj2 (proj2 (number_int o n Hn)) v Hv) as M.
  unfold opMeets, omap in M. destruct (nIntOp4 o n v) as [r| | |] eqn:E; cbn [bind] in M; try contradiction.
  - exists r. split; [exact (i32Op_agrees p o (dup4 n) v r (dupF4 i32 n Hn) Hv E)|exact (proj1 M)].
  - exfalso. exact (exists_contra _ _ _ M (number_with (fun x y => ~ iUndef o x y) n v Hu)).
Qed.
