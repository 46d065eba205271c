(** Integer vector arithmetic, comparisons of u32x4, binary orders, constructors. *)
From Coq Require Import ZArith Bool List Lia Zquot.
From Flocq Require Import Core.Core IEEE754.BinarySingleNaN IEEE754.Binary IEEE754.Bits.
From Verif.Model Require Import Outcome Scalar Vec Simd Aabb IntVec SimdInt.
From Verif.Spec Require Import OrderSpec IntSpec.
From Verif.Proofs Require Import BitLemmas IntProofs.
Import ListNotations.
Local Open Scope Z_scope.

(** ** Conversions *)
Lemma toU32_range : forall x, u32 (toU32 x).
Proof. intros. unfold u32, toU32. apply Z.mod_pos_bound. lia. Qed.
Lemma toU32_id : forall x, u32 x -> toU32 x = x.
Proof. intros x H. unfold u32, toU32 in *. apply Z.mod_small. lia. Qed.
Lemma toU32_eq : forall x, exists k, x = toU32 x + k * 2 ^ 32.
Proof. intros x. exists (x / 2 ^ 32). unfold toU32. rewrite Z.mul_comm, Z.add_comm. apply Z.div_mod. lia. Qed.
Lemma toI32_range : forall x, i32 (toI32 x).
Proof.
  intros. unfold i32, toI32. cbv zeta. pose proof (Z.mod_pos_bound x (2 ^ 32) ltac:(lia)).
  destruct (Z.ltb_spec (x mod 2 ^ 32) (2 ^ 31)); lia.
Qed.
Lemma toI32_id : forall x, i32 x -> toI32 x = x.
Proof.
  intros x H. unfold i32, toI32 in *. cbv zeta. destruct (Z.lt_ge_cases x 0).
  - assert (E : x mod 2 ^ 32 = x + 2 ^ 32) by (rewrite <- (Z.mod_add x 1 (2 ^ 32)) by lia; apply Z.mod_small; lia).
    rewrite E. destruct (Z.ltb_spec (x + 2 ^ 32) (2 ^ 31)); lia.
  - rewrite (Z.mod_small x) by lia. destruct (Z.ltb_spec x (2 ^ 31)); lia.
Qed.
Lemma toI32_eq : forall x, exists k, x = toI32 x + k * 2 ^ 32.
Proof.
  intros x. unfold toI32. cbv zeta. pose proof (Z.div_mod x (2 ^ 32) ltac:(lia)) as E.
  destruct (x mod 2 ^ 32 <? 2 ^ 31); [exists (x / 2 ^ 32) | exists (x / 2 ^ 32 + 1)]; lia.
Qed.
Lemma toI32_u32 : forall x, u32 x -> toI32 x = if x <? 2 ^ 31 then x else x - 2 ^ 32.
Proof. intros x H. unfold toI32. cbv zeta. rewrite (Z.mod_small x (2 ^ 32)); [reflexivity | exact H]. Qed.
Lemma inI32_iff : forall x, inI32 x = true <-> i32 x.
Proof. intros. unfold inI32, i32. rewrite andb_true_iff, Z.leb_le, Z.ltb_lt. tauto. Qed.

(** ** One lane *)
Lemma shiftr_bounds : forall a b, 0 <= b -> 2 ^ b * Z.shiftr a b <= a < 2 ^ b * (Z.shiftr a b + 1).
Proof.
  intros a b Hb. rewrite Z.shiftr_div_pow2 by assumption.
  pose proof (Z.pow_pos_nonneg 2 b ltac:(lia) Hb) as P.
  pose proof (Z.div_mod a (2 ^ b) ltac:(lia)). pose proof (Z.mod_pos_bound a (2 ^ b) P). nia.
Qed.
Lemma shiftr_small : forall a b, 0 <= b -> 0 <= a -> 0 <= Z.shiftr a b <= a.
Proof.
  intros a b Hb Ha. rewrite Z.shiftr_div_pow2 by assumption.
  pose proof (Z.pow_pos_nonneg 2 b ltac:(lia) Hb) as P. split.
  - apply Z.div_pos; lia.
  - apply Z.div_le_upper_bound; nia.
Qed.

Lemma ulane_means : forall o a b, u32 a -> u32 b ->
  match ulane o a b with
  | Ok r => uRes o a b r /\ ~ uUndef o a b
  | UB => uUndef o a b
  | _ => False
  end.
Proof.
  intros o a b Ha Hb. destruct o; cbn [ulane].
  1-3: split; [split; [apply toU32_range|] | intros []]; cbn; apply toU32_eq.
  - destruct (Z.eqb_spec b 0) as [E|N]; cbn [uUndef]; [assumption|]. split; [|assumption].
    unfold u32 in *. pose proof (Z.div_mod a b N). pose proof (Z.mod_pos_bound a b ltac:(lia)).
    split; [split|cbn].
    + apply Z.div_pos; lia.
    + apply Z.le_lt_trans with a; [apply Z.div_le_upper_bound; nia | lia].
    + lia.
  - destruct (Z.eqb_spec b 0) as [E|N]; cbn [uUndef]; [assumption|]. split; [|assumption].
    unfold u32 in *. pose proof (Z.mod_pos_bound a b ltac:(lia)).
    split; [split; lia|]. cbn. split; [lia|]. exists (a / b). apply Z.div_mod. lia.
  - split; [split; [apply land_u32; assumption | intros i _; apply Z.land_spec] | intros []].
  - split; [split; [apply lor_u32; assumption | intros i _; apply Z.lor_spec] | intros []].
  - split; [split; [apply lxor_u32; assumption | intros i _; apply Z.lxor_spec] | intros []].
  - destruct (Z.ltb_spec b 32) as [L|G]; cbn [uUndef]; [|assumption].
    unfold u32 in *. split; [|lia]. split; [|cbn; apply shiftr_bounds; lia].
    pose proof (shiftr_small a b ltac:(lia) ltac:(lia)). unfold u32. lia.
  - destruct (Z.ltb_spec b 32) as [L|G]; cbn [uUndef]; [|assumption].
    split; [|lia]. split; [apply toU32_range|]. cbn. unfold u32 in *.
    rewrite Z.shiftl_mul_pow2 by lia. apply toU32_eq.
Qed.

Lemma land_i32 : forall a b, i32 a -> i32 b -> i32 (Z.land a b).
Proof.
  intros a b Ha Hb. unfold i32 in *.
  assert (Q : forall x, - 2 ^ 31 <= x < 2 ^ 31 <-> Z.shiftr x 31 = 0 \/ Z.shiftr x 31 = -1).
  { intros x. rewrite Z.shiftr_div_pow2 by lia.
    pose proof (Z.div_mod x (2 ^ 31) ltac:(lia)). pose proof (Z.mod_pos_bound x (2 ^ 31) ltac:(lia)). lia. }
  apply Q in Ha. apply Q in Hb. apply Q. rewrite Z.shiftr_land.
  destruct Ha as [-> | ->], Hb as [-> | ->]; cbn; auto.
Qed.
Lemma lor_i32 : forall a b, i32 a -> i32 b -> i32 (Z.lor a b).
Proof.
  intros a b Ha Hb. unfold i32 in *.
  assert (Q : forall x, - 2 ^ 31 <= x < 2 ^ 31 <-> Z.shiftr x 31 = 0 \/ Z.shiftr x 31 = -1).
  { intros x. rewrite Z.shiftr_div_pow2 by lia.
    pose proof (Z.div_mod x (2 ^ 31) ltac:(lia)). pose proof (Z.mod_pos_bound x (2 ^ 31) ltac:(lia)). lia. }
  apply Q in Ha. apply Q in Hb. apply Q. rewrite Z.shiftr_lor.
  destruct Ha as [-> | ->], Hb as [-> | ->]; cbn; auto.
Qed.
Lemma lxor_i32 : forall a b, i32 a -> i32 b -> i32 (Z.lxor a b).
Proof.
  intros a b Ha Hb. unfold i32 in *.
  assert (Q : forall x, - 2 ^ 31 <= x < 2 ^ 31 <-> Z.shiftr x 31 = 0 \/ Z.shiftr x 31 = -1).
  { intros x. rewrite Z.shiftr_div_pow2 by lia.
    pose proof (Z.div_mod x (2 ^ 31) ltac:(lia)). pose proof (Z.mod_pos_bound x (2 ^ 31) ltac:(lia)). lia. }
  apply Q in Ha. apply Q in Hb. apply Q. rewrite Z.shiftr_lxor.
  destruct Ha as [-> | ->], Hb as [-> | ->]; cbn; auto.
Qed.

Lemma checkI32_means : forall x,
  match checkI32 x with Ok r => r = x /\ i32 x | UB => ~ i32 x | _ => False end.
Proof.
  intros x. unfold checkI32. pose proof (inI32_iff x). destruct (inI32 x).
  - split; [reflexivity | tauto].
  - intros K. apply H in K. discriminate.
Qed.

Lemma quot_i32 : forall a b, i32 a -> i32 b -> b <> 0 ->
  (i32 (Z.quot a b) <-> ~ (a = - 2 ^ 31 /\ b = -1)).
Proof.
  intros a b Ha Hb N. unfold i32 in *. split.
  - intros Q [-> ->]. revert Q. vm_compute. intuition congruence.
  - intros K. pose proof (Z.quot_abs a b N) as E.
    assert (A : Z.abs (Z.quot a b) <= Z.abs a).
    { rewrite <- Z.quot_abs by assumption. apply Z.quot_le_upper_bound; nia. }
    destruct (Z.eq_dec (Z.abs b) 1) as [B|B].
    + assert (b = 1 \/ b = -1) as [-> | ->] by lia.
      * rewrite Z.quot_1_r. lia.
      * assert (Z.quot a (-1) = - a) as ->.
        { change (-1) with (Z.opp 1). rewrite Z.quot_opp_r by lia. rewrite Z.quot_1_r. reflexivity. } lia.
    + assert (A2 : Z.abs (Z.quot a b) <= 2 ^ 30).
      { rewrite <- Z.quot_abs by assumption. apply Z.quot_le_upper_bound; nia. } lia.
Qed.
Lemma quotrem_means : forall a b, b <> 0 ->
  a = b * Z.quot a b + Z.rem a b /\ Z.abs (Z.rem a b) < Z.abs b /\
  (Z.rem a b = 0 \/ Z.sgn (Z.rem a b) = Z.sgn a).
Proof.
  intros a b N. split; [apply Z.quot_rem'|]. split; [apply Z.rem_bound_abs; assumption|].
  destruct (Z.eq_dec (Z.rem a b) 0); [left; assumption|]. right. apply Z.rem_sign_nz; assumption.
Qed.

Lemma ilane_means : forall o a b, i32 a -> i32 b ->
  match ilane o a b with
  | Ok r => iRes o a b r /\ ~ iUndef o a b
  | UB => iUndef o a b
  | _ => False
  end.
Proof.
  intros o a b Ha Hb. destruct o; cbn [ilane].
  - pose proof (checkI32_means (a + b)) as C. destruct (checkI32 (a + b)); cbn [iRes iUndef]; try tauto.
    destruct C as [-> C]. unfold iRes. tauto.
  - pose proof (checkI32_means (a - b)) as C. destruct (checkI32 (a - b)); cbn [iRes iUndef]; try tauto.
    destruct C as [-> C]. unfold iRes. tauto.
  - pose proof (checkI32_means (a * b)) as C. destruct (checkI32 (a * b)); cbn [iRes iUndef]; try tauto.
    destruct C as [-> C]. unfold iRes. tauto.
  - destruct (Z.eqb_spec b 0) as [E|N]; [left; assumption|].
    pose proof (checkI32_means (Z.quot a b)) as C. pose proof (quot_i32 a b Ha Hb N) as Q.
    destruct (checkI32 (Z.quot a b)); try tauto.
    + destruct C as [-> C]. split; [|cbn [iUndef]; intuition congruence]. split; [assumption|].
      exists (Z.rem a b). apply quotrem_means. assumption.
    + cbn [iUndef]. right. unfold i32 in *. lia.
  - destruct (Z.eqb_spec b 0) as [E|N]; cbn [orb]; [left; assumption|].
    pose proof (inI32_iff (Z.quot a b)) as I. pose proof (quot_i32 a b Ha Hb N) as Q.
    destruct (quotrem_means a b N) as (M1 & M2 & M3).
    destruct (inI32 (Z.quot a b)); cbn [negb].
    + split; [|cbn [iUndef]; intuition congruence]. split; [unfold i32 in *; lia|].
      split; [assumption|]. split; [assumption|]. exists (Z.quot a b). assumption.
    + cbn [iUndef]. right. assert (~ i32 (Z.quot a b)) by (intros K; apply I in K; discriminate).
      unfold i32 in *. lia.
  - split; [split; [apply land_i32; assumption | intros i _; apply Z.land_spec] | intros []].
  - split; [split; [apply lor_i32; assumption | intros i _; apply Z.lor_spec] | intros []].
  - split; [split; [apply lxor_i32; assumption | intros i _; apply Z.lxor_spec] | intros []].
  - destruct (Z.leb_spec 0 b) as [L|G]; cbn [andb]; [|cbn [iUndef]; lia].
    destruct (Z.ltb_spec b 32) as [L2|G]; [|cbn [iUndef]; lia].
    split; [|cbn [iUndef]; lia]. split; [|apply shiftr_bounds; assumption].
    pose proof (shiftr_bounds a b L) as B. pose proof (Z.pow_pos_nonneg 2 b ltac:(lia) L) as P.
    unfold i32 in *. nia.
  - destruct (Z.leb_spec 0 b) as [L|G]; cbn [andb]; [|cbn [iUndef]; lia].
    destruct (Z.ltb_spec b 32) as [L2|G]; cbn [andb]; [|cbn [iUndef]; lia].
    destruct (Z.leb_spec 0 a) as [L3|G]; cbn [andb]; [|cbn [iUndef]; lia].
    rewrite Z.shiftl_mul_pow2 by assumption.
    destruct (Z.ltb_spec (a * 2 ^ b) (2 ^ 32)) as [L4|G]; [|cbn [iUndef]; lia].
    split; [|cbn [iUndef]; lia]. split; [apply toI32_range|]. apply toI32_eq.
Qed.

(** ** Vectors *)
Section LaneWise.
  Variable f : Z -> Z -> outcome Z.
  Variable P : Z -> Prop.
  Variable res : Z -> Z -> Z -> Prop.
  Variable und : Z -> Z -> Prop.
  Hypothesis f_means : forall a b, P a -> P b ->
    match f a b with Ok r => res a b r /\ ~ und a b | UB => und a b | _ => False end.

  Lemma lanewise2 : forall a b, Forall P (lanes2 a) -> Forall P (lanes2 b) ->
    match seqO2 (map2_2 f a b) with
    | Ok r => Forall3 res (lanes2 a) (lanes2 b) (lanes2 r)
              /\ Forall2 (fun x y => ~ und x y) (lanes2 a) (lanes2 b)
    | UB => Exists2 und (lanes2 a) (lanes2 b)
    | _ => False
    end.
  Proof.
    intros [ax ay] [bx by_] Ha Hb. unfold lanes2 in *. cbn [x2 y2] in *.
    apply Forall2l_iff in Ha. apply Forall2l_iff in Hb. destruct Ha as (A0 & A1), Hb as (B0 & B1).
    unfold seqO2, map2_2. cbn [x2 y2].
    pose proof (f_means ax bx A0 B0). destruct (f ax bx); cbn [bind]; rewrite ?E2_2; try tauto.
    pose proof (f_means ay by_ A1 B1). destruct (f ay by_); cbn [bind]; rewrite ?E2_2; try tauto.
    split; [|rewrite F2_2; tauto]. cbn [x2 y2]. repeat (apply F3_cons; [tauto|]). apply F3_nil.
  Qed.
  Lemma lanewise3 : forall a b, Forall P (lanes3 a) -> Forall P (lanes3 b) ->
    match seqO3 (map2_3 f a b) with
    | Ok r => Forall3 res (lanes3 a) (lanes3 b) (lanes3 r)
              /\ Forall2 (fun x y => ~ und x y) (lanes3 a) (lanes3 b)
    | UB => Exists2 und (lanes3 a) (lanes3 b)
    | _ => False
    end.
  Proof.
    intros [ax ay az] [bx by_ bz] Ha Hb. unfold lanes3 in *. cbn [x3 y3 z3] in *.
    apply Forall3l_iff in Ha. apply Forall3l_iff in Hb. destruct Ha as (A0 & A1 & A2), Hb as (B0 & B1 & B2).
    unfold seqO3, map2_3. cbn [x3 y3 z3].
    pose proof (f_means ax bx A0 B0). destruct (f ax bx); cbn [bind]; rewrite ?E2_3; try tauto.
    pose proof (f_means ay by_ A1 B1). destruct (f ay by_); cbn [bind]; rewrite ?E2_3; try tauto.
    pose proof (f_means az bz A2 B2). destruct (f az bz); cbn [bind]; rewrite ?E2_3; try tauto.
    split; [|rewrite F2_3; tauto]. cbn [x3 y3 z3]. repeat (apply F3_cons; [tauto|]). apply F3_nil.
  Qed.
  Lemma lanewise4 : forall a b, Forall P (lanes4 a) -> Forall P (lanes4 b) ->
    match seqO4 (map2_4 f a b) with
    | Ok r => Forall3 res (lanes4 a) (lanes4 b) (lanes4 r)
              /\ Forall2 (fun x y => ~ und x y) (lanes4 a) (lanes4 b)
    | UB => Exists2 und (lanes4 a) (lanes4 b)
    | _ => False
    end.
  Proof.
    intros [ax ay az aw] [bx by_ bz bw] Ha Hb. unfold lanes4 in *. cbn [vx vy vz vw] in *.
    apply Forall4_iff in Ha. apply Forall4_iff in Hb.
    destruct Ha as (A0 & A1 & A2 & A3), Hb as (B0 & B1 & B2 & B3).
    unfold seqO4, map2_4. cbn [vx vy vz vw].
    pose proof (f_means ax bx A0 B0). destruct (f ax bx); cbn [bind]; rewrite ?E2_4; try tauto.
    pose proof (f_means ay by_ A1 B1). destruct (f ay by_); cbn [bind]; rewrite ?E2_4; try tauto.
    pose proof (f_means az bz A2 B2). destruct (f az bz); cbn [bind]; rewrite ?E2_4; try tauto.
    pose proof (f_means aw bw A3 B3). destruct (f aw bw); cbn [bind]; rewrite ?E2_4; try tauto.
    split; [|rewrite F2_4; tauto]. cbn [vx vy vz vw]. repeat (apply F3_cons; [tauto|]). apply F3_nil.
  Qed.
End LaneWise.

(** ** Ring laws *)
Lemma toU32_add : forall a b, toU32 (toU32 a + b) = toU32 (a + b).
Proof. intros. unfold toU32. apply Z.add_mod_idemp_l. lia. Qed.
Lemma toU32_add_r : forall a b, toU32 (a + toU32 b) = toU32 (a + b).
Proof. intros. unfold toU32. apply Z.add_mod_idemp_r. lia. Qed.
Lemma toU32_mul : forall a b, toU32 (toU32 a * b) = toU32 (a * b).
Proof. intros. unfold toU32. apply Z.mul_mod_idemp_l. lia. Qed.
Lemma toU32_mul_r : forall a b, toU32 (a * toU32 b) = toU32 (a * b).
Proof. intros. unfold toU32. apply Z.mul_mod_idemp_r. lia. Qed.


(** every ring law of one lane *)
Lemma ring1 : forall a b c, u32 a -> u32 b -> u32 c ->
  toU32 (a + b) = toU32 (b + a) /\ toU32 (toU32 (a + b) + c) = toU32 (a + toU32 (b + c)) /\
  toU32 (a + 0) = a /\ toU32 (a - a) = 0 /\ toU32 (toU32 (a - b) + b) = a /\
  toU32 (a * b) = toU32 (b * a) /\ toU32 (toU32 (a * b) * c) = toU32 (a * toU32 (b * c)) /\
  toU32 (a * 1) = a /\ toU32 (a * toU32 (b + c)) = toU32 (toU32 (a * b) + toU32 (a * c)).
Proof.
  intros a b c Ha Hb Hc.
  rewrite !toU32_add, !toU32_add_r, !toU32_mul, !toU32_mul_r.
  split; [f_equal; ring|]. split; [f_equal; ring|].
  split; [rewrite Z.add_0_r; apply toU32_id; assumption|].
  split; [rewrite Z.sub_diag; reflexivity|].
  split; [replace (a - b + b) with a by ring; apply toU32_id; assumption|].
  split; [f_equal; ring|]. split; [f_equal; ring|].
  split; [rewrite Z.mul_1_r; apply toU32_id; assumption|]. f_equal; ring.
Qed.

Ltac always_ok := eexists; split; [reflexivity | repeat constructor; apply toU32_range].
Lemma ring2 : ringLaws (fun v => Forall u32 (lanes2 v)) (uintOp2 OAdd) (uintOp2 OSub) (uintOp2 OMul)
  (dup2 0) (dup2 1).
Proof.
  intros [ax ay] [bx by_] [cx cy] Ha Hb Hc. unfold lanes2 in *. cbn [x2 y2] in *.
  apply Forall2l_iff in Ha. apply Forall2l_iff in Hb. apply Forall2l_iff in Hc.
  destruct Ha as [A0 A1], Hb as [B0 B1], Hc as [C0 C1].
  unfold uintOp2, seqO2, map2_2, ulane, dup2, always; cbn [x2 y2 bind].
  split; [always_ok|]. split; [always_ok|]. split; [always_ok|].
  destruct (ring1 ax bx cx A0 B0 C0) as (-> & -> & -> & -> & -> & -> & -> & -> & ->).
  destruct (ring1 ay by_ cy A1 B1 C1) as (-> & -> & -> & -> & -> & -> & -> & -> & ->).
  repeat split; reflexivity.
Qed.
Lemma ring3 : ringLaws (fun v => Forall u32 (lanes3 v)) (uintOp3 OAdd) (uintOp3 OSub) (uintOp3 OMul)
  (dup3 0) (dup3 1).
Proof.
  intros [ax ay az] [bx by_ bz] [cx cy cz] Ha Hb Hc. unfold lanes3 in *. cbn [x3 y3 z3] in *.
  apply Forall3l_iff in Ha. apply Forall3l_iff in Hb. apply Forall3l_iff in Hc.
  destruct Ha as (A0 & A1 & A2), Hb as (B0 & B1 & B2), Hc as (C0 & C1 & C2).
  unfold uintOp3, seqO3, map2_3, ulane, dup3, always; cbn [x3 y3 z3 bind].
  split; [always_ok|]. split; [always_ok|]. split; [always_ok|].
  destruct (ring1 ax bx cx A0 B0 C0) as (-> & -> & -> & -> & -> & -> & -> & -> & ->).
  destruct (ring1 ay by_ cy A1 B1 C1) as (-> & -> & -> & -> & -> & -> & -> & -> & ->).
  destruct (ring1 az bz cz A2 B2 C2) as (-> & -> & -> & -> & -> & -> & -> & -> & ->).
  repeat split; reflexivity.
Qed.
Lemma ring4 : ringLaws (fun v => Forall u32 (lanes4 v)) (uintOp4 OAdd) (uintOp4 OSub) (uintOp4 OMul)
  (dup4 0) (dup4 1).
Proof.
  intros [ax ay az aw] [bx by_ bz bw] [cx cy cz cw] Ha Hb Hc. unfold lanes4 in *. cbn [vx vy vz vw] in *.
  apply Forall4_iff in Ha. apply Forall4_iff in Hb. apply Forall4_iff in Hc.
  destruct Ha as (A0 & A1 & A2 & A3), Hb as (B0 & B1 & B2 & B3), Hc as (C0 & C1 & C2 & C3).
  unfold uintOp4, seqO4, map2_4, ulane, dup4, always; cbn [vx vy vz vw bind].
  split; [always_ok|]. split; [always_ok|]. split; [always_ok|].
  destruct (ring1 ax bx cx A0 B0 C0) as (-> & -> & -> & -> & -> & -> & -> & -> & ->).
  destruct (ring1 ay by_ cy A1 B1 C1) as (-> & -> & -> & -> & -> & -> & -> & -> & ->).
  destruct (ring1 az bz cz A2 B2 C2) as (-> & -> & -> & -> & -> & -> & -> & -> & ->).
  destruct (ring1 aw bw cw A3 B3 C3) as (-> & -> & -> & -> & -> & -> & -> & -> & ->).
  repeat split; reflexivity.
Qed.

(** Unary operators *)
Lemma uneg_lane : forall a, u32 a -> u32 (uneg a) /\ (exists k, uneg a + a = k * 2 ^ 32).
Proof.
  intros a Ha. split; [apply toU32_range|]. unfold uneg. destruct (toU32_eq (- a)) as [k E].
  exists (- k). lia.
Qed.
Lemma ucompl_lane : forall a i, u32 a -> 0 <= i < 32 -> Z.testbit (ucompl a) i = negb (Z.testbit a i).
Proof.
  intros a i Ha Hi. unfold ucompl, u32 in *.
  assert (E : 2 ^ 32 - 1 - a = Z.lnot a + 1 * 2 ^ 32) by (unfold Z.lnot; lia).
  rewrite E. rewrite <- (Z.lnot_spec a i) by lia.
  rewrite <- (Z.mod_pow2_bits_low _ 32 i) by lia. rewrite Z.mod_add by lia.
  apply Z.mod_pow2_bits_low. lia.
Qed.

(** ** SIMD arithmetic *)
(** Defined lanes give the same result on every path. *)
Lemma u32lane_agrees : forall p o a b r, u32 a -> u32 b -> ulane o a b = Ok r -> u32lane p o a b = Ok r.
Proof.
  intros p o a b r Ha Hb H. unfold u32 in *.
  destruct o; try exact H; destruct p; try exact H; cbn [ulane u32lane] in *;
    (destruct (Z.ltb_spec b 32) as [L|G]; [|discriminate]); try exact H.
  - rewrite <- H. f_equal. unfold neonShl, sbyte. destruct (Z.eq_dec b 0) as [->|N].
    + change (- 0) with 0. cbn [Z.modulo Z.ltb]. cbn. unfold toU32. rewrite Z.mod_small by lia. reflexivity.
    + assert (E : (- b) mod 256 = 256 - b).
      { rewrite <- (Z.mod_add (- b) 1 256) by lia. rewrite Z.mod_small; lia. }
      rewrite E. destruct (Z.ltb_spec (256 - b) 128); [lia|].
      destruct (Z.leb_spec 0 (256 - b - 256)); [lia|].
      replace (- (256 - b - 256)) with b by lia. destruct (Z.ltb_spec b 32); [reflexivity | lia].
  - rewrite <- H. f_equal. unfold neonShl, sbyte. rewrite (Z.mod_small b 256) by lia.
    destruct (Z.ltb_spec b 128); [|lia]. destruct (Z.leb_spec 0 b); [|lia].
    destruct (Z.ltb_spec b 32); [reflexivity | lia].
Qed.
Lemma u32shiftN_agrees : forall p (l : bool) a n r, u32 a -> u32 n ->
  ulane (if l then OShl else OShr) a n = Ok r -> u32shiftN p l a n = Ok r.
Proof.
  intros p l a n r Ha Hn H.
  destruct p; cbn [u32shiftN]; try exact H;
    try (destruct l; cbn [ulane] in H; destruct (n <? 32); (exact H || discriminate)).
  destruct l; [apply (u32lane_agrees NEON OShl a n r Ha Hn H) | apply (u32lane_agrees NEON OShr a n r Ha Hn H)].
Qed.
Lemma neonSshl_left : forall a b, i32 b -> 0 <= b < 32 -> neonSshl a (sbyte b) = toI32 (Z.shiftl a b).
Proof.
  intros a b Hb R. unfold neonSshl, sbyte. rewrite Z.mod_small by lia.
  replace (b <? 128) with true by (symmetry; apply Z.ltb_lt; lia).
  replace (0 <=? b) with true by (symmetry; apply Z.leb_le; lia).
  replace (b <? 32) with true by (symmetry; apply Z.ltb_lt; lia). reflexivity.
Qed.
Lemma neonSshl_right : forall a b, 0 <= b < 32 -> i32 a -> neonSshl a (sbyte (- b)) = Z.shiftr a b.
Proof.
  intros a b R Ha. unfold neonSshl, sbyte.
  destruct (Z.eq_dec b 0) as [E|N].
  - subst b. change ((- 0) mod 256) with 0. cbn [Z.ltb Z.leb Z.compare].
    rewrite Z.shiftl_0_r, Z.shiftr_0_r. apply toI32_id. exact Ha.
  - assert (M : (- b) mod 256 = 256 - b) by (symmetry; apply (Z.mod_unique _ _ (-1)); lia). rewrite M.
    replace (256 - b <? 128) with false by (symmetry; apply Z.ltb_ge; lia).
    replace (0 <=? 256 - b - 256) with false by (symmetry; apply Z.leb_gt; lia).
    replace (Z.min (- (256 - b - 256)) 31) with b by lia. reflexivity.
Qed.
Lemma i32_shifts : forall a b r, i32 a -> i32 b ->
  (ilane OShr a b = Ok r -> Ok (Z.shiftr a (Z.min (toU32 b) 31)) = Ok r /\ Ok (neonSshl a (sbyte (- b))) = Ok r) /\
  (ilane OShl a b = Ok r -> Ok (if toU32 b <? 32 then toI32 (Z.shiftl a b) else 0) = Ok r /\ Ok (neonSshl a (sbyte b)) = Ok r).
Proof.
  intros a b r Ha Hb. cbn [ilane]. split.
  - destruct ((0 <=? b) && (b <? 32))%bool eqn:E; [|discriminate]. intros K.
    apply andb_true_iff in E. destruct E as [E1 E2]. apply Z.leb_le in E1. apply Z.ltb_lt in E2.
    unfold toU32. rewrite (Z.mod_small b) by lia. rewrite neonSshl_right by (lia || assumption).
    replace (Z.min b 31) with b by lia. auto.
  - destruct ((0 <=? b) && (b <? 32) && (0 <=? a) && (Z.shiftl a b <? 2 ^ 32))%bool eqn:E; [|discriminate]. intros K.
    apply andb_true_iff in E. destruct E as [E _]. apply andb_true_iff in E. destruct E as [E _].
    pose proof E as E'. apply andb_true_iff in E'. destruct E' as [E1 E2]. apply Z.leb_le in E1. apply Z.ltb_lt in E2.
    unfold toU32. rewrite (Z.mod_small b) by lia. rewrite neonSshl_left by (lia || assumption).
    replace (b <? 32) with true by (symmetry; apply Z.ltb_lt; lia). auto.
Qed.
Lemma i32lane_agrees : forall p o a b r, i32 a -> i32 b -> ilane o a b = Ok r -> i32lane p o a b = Ok r.
Proof.
  intros p o a b r Ha Hb H.
  assert (K : forall x, checkI32 x = Ok r -> Ok (toI32 x) = Ok r).
  { intros x E. pose proof (checkI32_means x) as C. rewrite E in C. destruct C as [-> C].
    rewrite toI32_id by assumption. reflexivity. }
  destruct (i32_shifts a b r Ha Hb) as [SR SL].
  destruct o; try exact H; destruct p; try exact H; cbn [i32lane];
    try (apply SR; exact H); try (apply SL; exact H); cbn [ilane] in H; apply K; exact H.
Qed.
Lemma i32shiftN_agrees : forall p (l : bool) a n r, i32 a -> i32 n ->
  ilane (if l then OShl else OShr) a n = Ok r -> i32shiftN p l a n = Ok r.
Proof.
  intros p l a n r Ha Hn H. destruct (i32_shifts a n r Ha Hn) as [SR SL].
  destruct p; cbn [i32shiftN]; try exact H; destruct l; try (apply SR; exact H); apply SL; exact H.
Qed.
Lemma seqO4_mono : forall (f g : Z -> Z -> outcome Z) (P : Z -> Prop),
  (forall a b r, P a -> P b -> f a b = Ok r -> g a b = Ok r) ->
  forall a b r, Forall P (lanes4 a) -> Forall P (lanes4 b) ->
  seqO4 (map2_4 f a b) = Ok r -> seqO4 (map2_4 g a b) = Ok r.
Proof.
  intros f g P H [ax ay az aw] [bx by_ bz bw] r Ha Hb. unfold lanes4 in *. cbn [vx vy vz vw] in *.
  apply Forall4_iff in Ha. apply Forall4_iff in Hb.
  destruct Ha as (A0 & A1 & A2 & A3), Hb as (B0 & B1 & B2 & B3).
  unfold seqO4, map2_4. cbn [vx vy vz vw].
  destruct (f ax bx) eqn:E0; cbn [bind]; try discriminate. rewrite (H _ _ _ A0 B0 E0). cbn [bind].
  destruct (f ay by_) eqn:E1; cbn [bind]; try discriminate. rewrite (H _ _ _ A1 B1 E1). cbn [bind].
  destruct (f az bz) eqn:E2; cbn [bind]; try discriminate. rewrite (H _ _ _ A2 B2 E2). cbn [bind].
  destruct (f aw bw) eqn:E3; cbn [bind]; try discriminate. rewrite (H _ _ _ A3 B3 E3). cbn [bind].
  intros K. exact K.
Qed.
Lemma u32Op_agrees : forall p o a b r, Forall u32 (lanes4 a) -> Forall u32 (lanes4 b) ->
  uintOp4 o a b = Ok r -> u32Op p o a b = Ok r.
Proof. intros p o a b r Ha Hb. apply (seqO4_mono _ _ u32); auto. intros. apply u32lane_agrees; assumption. Qed.
Lemma i32Op_agrees : forall p o a b r, Forall i32 (lanes4 a) -> Forall i32 (lanes4 b) ->
  intOp4 o a b = Ok r -> i32Op p o a b = Ok r.
Proof. intros p o a b r Ha Hb. apply (seqO4_mono _ _ i32); auto. intros. apply i32lane_agrees; assumption. Qed.

(** ** u32x4 comparisons *)
Lemma u32cmp_signed : forall p c a b, (p = SSE2 \/ p = SSE41 \/ p = AVX2) ->
  (u32cmpLane p c a b = true <-> relOf c (toI32 a) (toI32 b)).
Proof. intros p c a b [-> | [-> | ->]]; apply cmpLane_iff. Qed.
Lemma u32cmp_lane : forall p c a b, u32 a -> u32 b ->
  (p = NEON \/ p = GEN \/ c = CEq \/ c = CNe \/ (a < 2 ^ 31 <-> b < 2 ^ 31)) ->
  (u32cmpLane p c a b = true <-> relOf c a b).
Proof.
  intros p c a b Ha Hb Hp.
  assert (D : (p = NEON \/ p = GEN) \/ u32cmpLane p c a b = cmpLane c (toI32 a) (toI32 b)).
  { destruct p; auto. }
  destruct D as [[-> | ->] | D]; try apply cmpLane_iff.
  assert (D' : (p = NEON \/ p = GEN) \/ (p = SSE2 \/ p = SSE41 \/ p = AVX2)) by (destruct p; tauto).
  destruct D' as [[-> | ->] | D']; try apply cmpLane_iff.
  rewrite D, cmpLane_iff, !toI32_u32 by assumption.
  assert (G : c = CEq \/ c = CNe \/ (a < 2 ^ 31 <-> b < 2 ^ 31)).
  { destruct D' as [-> | [-> | ->]]; destruct Hp as [K|[K|K]]; try discriminate; exact K. }
  unfold u32 in *. destruct (Z.ltb_spec a (2 ^ 31)), (Z.ltb_spec b (2 ^ 31)), c; cbn [relOf] in *;
    destruct G as [G|[G|G]]; try discriminate; lia.
Qed.
Lemma u32min_lane : forall p a b, u32 a -> u32 b ->
  (p = NEON \/ p = GEN \/ p = SSE2 \/ sameHalf a b) ->
  u32minLane p a b = Z.min a b /\ u32maxLane p a b = Z.max a b.
Proof.
  intros p a b Ha Hb Hp. unfold sameHalf in Hp.
  assert (D : (p = NEON \/ p = GEN \/ p = SSE2) \/ (p = SSE41 \/ p = AVX2)) by (destruct p; tauto).
  destruct D as [[-> | [-> | ->]] | D]; try (split; reflexivity).
  assert (G : a < 2 ^ 31 <-> b < 2 ^ 31).
  { destruct D as [-> | ->]; destruct Hp as [K|[K|[K|K]]]; try discriminate; exact K. }
  assert (E : u32minLane p a b = (if toI32 a <? toI32 b then a else b) /\
              u32maxLane p a b = (if toI32 b <? toI32 a then a else b)).
  { destruct D as [-> | ->]; split; reflexivity. }
  destruct E as [-> ->]. rewrite !toI32_u32 by assumption. unfold u32 in *.
  destruct (Z.ltb_spec a (2 ^ 31)), (Z.ltb_spec b (2 ^ 31)); try lia;
    split;
    match goal with |- context [if ?x <? ?y then _ else _] => destruct (Z.ltb_spec x y) end; lia.
Qed.
Lemma u32eq_iff : forall p a b, u32eq p a b = true <-> a = b.
Proof.
  intros p [ax ay az aw] [bx by_ bz bw].
  assert (R : u32eq p (V4 ax ay az aw) (V4 bx by_ bz bw)
     = ((ax =? bx) && (ay =? by_) && (az =? bz) && (aw =? bw))%bool).
  { destruct p; cbn [u32eq]; unfold eqv4, compare4, map2_4, cmpLane; cbn [vx vy vz vw];
      destruct (ax =? bx), (ay =? by_), (az =? bz), (aw =? bw); reflexivity. }
  rewrite R, !andb_true_iff, !Z.eqb_eq. split; [intros [[[-> ->] ->] ->]; reflexivity | intros E; inversion E; auto].
Qed.
Lemma u32ne_neg : forall p a b, u32ne p a b = negb (u32eq p a b).
Proof.
  intros p [ax ay az aw] [bx by_ bz bw].
  destruct p; cbn [u32eq u32ne]; try reflexivity; unfold eqv4, nev4, compare4, map2_4, cmpLane; cbn [vx vy vz vw];
      destruct (ax =? bx), (ay =? by_), (az =? bz), (aw =? bw); reflexivity.
Qed.
Lemma eqv_iff : (forall a b, eqv2 a b = true <-> a = b) /\ (forall a b, eqv3 a b = true <-> a = b) /\
  (forall a b, eqv4 a b = true <-> a = b).
Proof.
  split; [|split].
  - intros [ax ay] [bx by_]. unfold eqv2. cbn [x2 y2]. rewrite !andb_true_iff, !Z.eqb_eq.
    split; [intros [-> ->]; reflexivity | intros E; inversion E; auto].
  - intros [ax ay az] [bx by_ bz]. unfold eqv3. cbn [x3 y3 z3]. rewrite !andb_true_iff, !Z.eqb_eq.
    split; [intros [[-> ->] ->]; reflexivity | intros E; inversion E; auto].
  - intros a b. apply (u32eq_iff GEN a b).
Qed.
Lemma nev_neg : (forall a b, nev2 a b = negb (eqv2 a b)) /\ (forall a b, nev3 a b = negb (eqv3 a b)) /\
  (forall a b, nev4 a b = negb (eqv4 a b)).
Proof.
  split; [|split].
  - intros. unfold nev2, eqv2. rewrite !negb_andb. reflexivity.
  - intros. unfold nev3, eqv3. rewrite !negb_andb. reflexivity.
  - intros. unfold nev4, eqv4. rewrite !negb_andb. reflexivity.
Qed.
