(** i32x4 against int4. *)
From Coq Require Import ZArith Bool List Lia.
From Verif.Model Require Import Outcome Scalar Vec Simd IntVec SimdInt.
From Verif.Spec Require Import OrderSpec IntSpec.
From Verif.Proofs Require Import BitLemmas IntProofs IntArith.
Import ListNotations.
Local Open Scope Z_scope.

Lemma i32neg_right : forall p v, Forall i32 (lanes4 v) -> Forall (fun a => a <> - 2 ^ 31) (lanes4 v) ->
  i32neg p v = Ok (map_4 Z.opp v).
Proof.
  intros p [x y z w] H N. unfold lanes4 in *. cbn [vx vy vz vw] in *. apply Forall4_iff in H. apply Forall4_iff in N.
  destruct H as (H0 & H1 & H2 & H3), N as (N0 & N1 & N2 & N3).
  assert (K : forall a, i32 a -> a <> - 2 ^ 31 -> toI32 (0 - a) = - a) by (intros a A B; rewrite toI32_id; unfold i32 in *; lia).
  assert (C : forall a, i32 a -> a <> - 2 ^ 31 -> ineg a = Ok (- a)).
  { intros a A B. unfold ineg, checkI32, inI32.
    replace (- 2 ^ 31 <=? - a) with true by (symmetry; apply Z.leb_le; unfold i32 in *; lia).
    replace (- a <? 2 ^ 31) with true by (symmetry; apply Z.ltb_lt; unfold i32 in *; lia). reflexivity. }
  destruct p; cbn [i32neg]; unfold map_4, seqO4; cbn [vx vy vz vw];
    rewrite ?K, ?C by assumption; cbn [bind]; rewrite ?C by assumption; cbn [bind]; rewrite ?C by assumption; cbn [bind];
    rewrite ?C by assumption; reflexivity.
Qed.
Lemma i32not_right : forall p v, Forall2 (fun a r => r = (if Z.eq_dec a 0 then 1 else 0)) (lanes4 v) (lanes4 (i32not p v)).
Proof.
  intros p [x y z w]. unfold lanes4.
  assert (K : forall a, Z.land (toI32 (maskOf (a =? 0))) 1 = (if Z.eq_dec a 0 then 1 else 0)).
  { intros a. destruct (Z.eqb_spec a 0), (Z.eq_dec a 0); try contradiction; reflexivity. }
  assert (U : forall a, unot a = (if Z.eq_dec a 0 then 1 else 0)).
  { intros a. unfold unot. destruct (Z.eqb_spec a 0), (Z.eq_dec a 0); try contradiction; reflexivity. }
  destruct p; cbn [i32not]; unfold map_4; cbn [vx vy vz vw]; repeat constructor; auto.
Qed.
Lemma i32compl_right : forall p v, Forall2 (fun a r => (i32 a -> i32 r) /\ forall i, 0 <= i -> Z.testbit r i = negb (Z.testbit a i))
  (lanes4 v) (lanes4 (i32compl p v)).
Proof.
  intros p [x y z w]. unfold lanes4.
  assert (N : forall a, (i32 a -> i32 (Z.lnot a)) /\ forall i, 0 <= i -> Z.testbit (Z.lnot a) i = negb (Z.testbit a i)).
  { intros a. split; [unfold i32, Z.lnot; lia|]. intros i Hi. apply Z.lnot_spec. exact Hi. }
  assert (K : forall a, (i32 a -> i32 (Z.lxor a (-1))) /\ forall i, 0 <= i -> Z.testbit (Z.lxor a (-1)) i = negb (Z.testbit a i)).
  { intros a. rewrite Z.lxor_m1_r. apply N. }
  destruct p; cbn [i32compl]; unfold map_4, icompl; cbn [vx vy vz vw]; repeat (apply Forall2_cons; [first [apply N | apply K]|]); apply Forall2_nil.
Qed.
Lemma i32eq_iff : forall p a b, i32eq p a b = true <-> a = b.
Proof. exact u32eq_iff. Qed.
Lemma i32ne_neg : forall p a b, i32ne p a b = negb (i32eq p a b).
Proof. exact u32ne_neg. Qed.
Lemma i32bic_right : forall a b, Forall3 (fun x y r => forall i, 0 <= i -> Z.testbit r i = Z.testbit x i && negb (Z.testbit y i))
  (lanes4 a) (lanes4 b) (lanes4 (i32bic a b)).
Proof.
  intros [ax ay az aw] [bx by_ bz bw]. unfold lanes4, i32bic, map2_4. cbn [vx vy vz vw].
  repeat constructor; intros i Hi; rewrite Z.land_spec, Z.lnot_spec by exact Hi; reflexivity.
Qed.
Lemma spread_sel : forall c t f, Z.lor (Z.land (spread31 c) t) (Z.land (Z.lnot (spread31 c)) f) = sel c t f.
Proof.
  intros c t f. unfold spread31, sel. destruct (Z.testbit c 31).
  - change (Z.lnot (-1)) with 0. rewrite Z.land_m1_l, Z.land_0_l, Z.lor_0_r. reflexivity.
  - change (Z.lnot 0) with (-1). rewrite Z.land_0_l, Z.land_m1_l, Z.lor_0_l. reflexivity.
Qed.
Lemma i32select_select4 : forall p c t f, i32select p c t f = select4 c t f.
Proof.
  intros p [cx cy cz cw] [tx ty tz tw] [fx fy fz fw]. destruct p; try reflexivity; cbn [i32select];
    unfold select4, map2_4, map_4; cbn [vx vy vz vw]; rewrite !spread_sel; reflexivity.
Qed.
Lemma i32select_right : forall p (o : cmp) a b t f,
  i32select p (i32compare o a b) t f
  = V4 (if cmpLane o (vx a) (vx b) then vx t else vx f) (if cmpLane o (vy a) (vy b) then vy t else vy f)
       (if cmpLane o (vz a) (vz b) then vz t else vz f) (if cmpLane o (vw a) (vw b) then vw t else vw f).
Proof.
  intros p o a b t f. rewrite i32select_select4. unfold select4, i32compare, compare4, map2_4, sel. cbn [vx vy vz vw].
  assert (M : forall d, Z.testbit (maskOf d) 31 = d) by (intros []; reflexivity). rewrite !M. reflexivity.
Qed.
Lemma cmpLane_rel : forall o a b, cmpLane o a b = true <-> relOf o a b.
Proof.
  intros [] a b; cbn [cmpLane relOf]; rewrite ?Z.ltb_lt, ?Z.leb_le, ?negb_true_iff, ?Z.eqb_eq, ?Z.eqb_neq; lia.
Qed.
Lemma i32select_means : forall p (o : cmp) a b t f, let r := i32select p (i32compare o a b) t f in
  (relOf o (vx a) (vx b) -> vx r = vx t) /\ (~ relOf o (vx a) (vx b) -> vx r = vx f) /\
  (relOf o (vy a) (vy b) -> vy r = vy t) /\ (~ relOf o (vy a) (vy b) -> vy r = vy f) /\
  (relOf o (vz a) (vz b) -> vz r = vz t) /\ (~ relOf o (vz a) (vz b) -> vz r = vz f) /\
  (relOf o (vw a) (vw b) -> vw r = vw t) /\ (~ relOf o (vw a) (vw b) -> vw r = vw f).
Proof.
  intros p o a b t f r. unfold r. rewrite i32select_right. cbn [vx vy vz vw].
  assert (K : forall x y (u v : Z), (relOf o x y -> (if cmpLane o x y then u else v) = u) /\ (~ relOf o x y -> (if cmpLane o x y then u else v) = v)).
  { intros x y u v. pose proof (cmpLane_rel o x y) as C. destruct (cmpLane o x y); split; intros H; try reflexivity.
    - elim H. apply C. reflexivity. - apply C in H. discriminate. }
  repeat split; apply K.
Qed.
Lemma i32minmax_right : forall a b,
  Forall3 (fun x y m => least m [x; y]) (lanes4 a) (lanes4 b) (lanes4 (i32min a b)) /\
  Forall3 (fun x y m => greatest m [x; y]) (lanes4 a) (lanes4 b) (lanes4 (i32max a b)).
Proof.
  intros [ax ay az aw] [bx by_ bz bw]. unfold lanes4, i32min, i32max, imin4, imax4, map2_4. cbn [vx vy vz vw].
  assert (L : forall x y, least (Z.min x y) [x; y]) by (intros x y; split; [cbn; lia|repeat constructor; lia]).
  assert (G : forall x y, greatest (Z.max x y) [x; y]) by (intros x y; split; [cbn; lia|repeat constructor; lia]).
  split; repeat (apply F3_cons; [first [apply L | apply G]|]); apply F3_nil.
Qed.
Lemma i32reduce_right : forall v,
  least (i32min4 v) (lanes4 v) /\ greatest (i32max4 v) (lanes4 v) /\
  least (i32min3 v) [vx v; vy v; vz v] /\ greatest (i32max3 v) [vx v; vy v; vz v].
Proof.
  intros [x y z w]. unfold lanes4, i32min4, i32max4, i32min3, i32max3, i32min, i32max, imin4, imax4, map2_4, swYUWU, swYUZU, swZUUU.
  cbn [vx vy vz vw]. split; [|split; [|split]]; (split; [cbn [In]; lia|repeat constructor; lia]).
Qed.
Lemma i32clamp_right : forall v lo hi,
  Forall2 (fun l h => l <= h) (lanes4 lo) (lanes4 hi) ->
  clamp4 v lo hi = Ok (i32clamp v lo hi).
Proof.
  intros [vx_ vy_ vz_ vw_] [lx ly lz lw] [hx hy hz hw] H. unfold lanes4 in H. cbn [vx vy vz vw] in H.
  inversion_clear H as [|? ? ? ? A0 H']. inversion_clear H' as [|? ? ? ? A1 H]. inversion_clear H as [|? ? ? ? A2 H'].
  inversion_clear H' as [|? ? ? ? A3 _].
  unfold clamp4, i32clamp, i32min, i32max, imin4, imax4, map2_4, seqO4. cbn [vx vy vz vw].
  assert (C : forall v l h, l <= h -> clampLane v l h = Ok (Z.max (Z.min v h) l)).
  { intros v l h K. unfold clampLane. destruct (Z.ltb_spec h l); [lia|]. f_equal.
    destruct (Z.ltb_spec v l); [lia|]. destruct (Z.ltb_spec h v); lia. }
  rewrite !C by assumption. reflexivity.
Qed.
