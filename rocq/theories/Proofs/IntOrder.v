(** Binary orders on integer and float vectors; integer min, max and clamp. *)
From Coq Require Import ZArith Bool List Lia.
From Flocq Require Import Core.Core IEEE754.BinarySingleNaN IEEE754.Binary IEEE754.Bits.
From Verif.Model Require Import Outcome Scalar Vec Simd Aabb IntVec SimdInt.
From Verif.Spec Require Import OrderSpec IntSpec.
From Verif.Proofs Require Import BitLemmas IntProofs IntArith.
Import ListNotations.
Local Open Scope Z_scope.

(** ** memcmp *)
Lemma memcmp_irrefl : forall a, memcmpLess a a = false.
Proof. induction a as [|x a IH]; cbn; [reflexivity|]. rewrite Z.eqb_refl. exact IH. Qed.
Lemma memcmp_lex : forall a b, memcmpLess a b = true <-> lexLt a b.
Proof.
  induction a as [|x a IH]; intros [|y b]; cbn [memcmpLess lexLt]; try (split; [discriminate | tauto]).
  destruct (Z.eqb_spec x y) as [->|N].
  - rewrite IH. split; [right; auto|]. intros [H|[_ H]]; [lia | exact H].
  - rewrite Z.ltb_lt. split; [auto|]. intros [H|[H _]]; [exact H | contradiction].
Qed.
Lemma lex_trans : forall a b c, lexLt a b -> lexLt b c -> lexLt a c.
Proof.
  induction a as [|x a IH]; intros [|y b] [|z c]; cbn [lexLt]; try tauto.
  intros [H|[-> H]] [K|[-> K]]; [left; lia | left; exact H | left; exact K | right; split; [reflexivity|]; eauto].
Qed.
Lemma lex_total : forall a b, length a = length b -> lexLt a b \/ a = b \/ lexLt b a.
Proof.
  induction a as [|x a IH]; intros [|y b] L; try discriminate; [auto|].
  cbn [lexLt]. injection L as L. destruct (Z.lt_trichotomy x y) as [H|[->|H]]; [auto| |auto].
  destruct (IH b L) as [H|[->|H]]; auto.
Qed.
Lemma memcmp_order : forall {A} (P : A -> Prop) (bytes : A -> list Z) (n : nat),
  (forall a, P a -> length (bytes a) = n) ->
  (forall a b, P a -> P b -> bytes a = bytes b -> a = b) ->
  strictTotalOrder P (fun a b => memcmpLess (bytes a) (bytes b)).
Proof.
  intros A P bytes n L I. split; [|split].
  - intros. apply memcmp_irrefl.
  - intros a b c _ _ _ H K. apply memcmp_lex in H. apply memcmp_lex in K. apply memcmp_lex.
    eapply lex_trans; eassumption.
  - intros a b Ha Hb. rewrite !memcmp_lex. destruct (lex_total (bytes a) (bytes b)) as [H|[H|H]]; auto.
    rewrite (L a Ha), (L b Hb). reflexivity.
Qed.

Lemma bytes32_inj : forall x y, bytes32 x = bytes32 y -> toU32 x = toU32 y.
Proof.
  intros x y H. unfold bytes32 in H. cbv zeta in H.
  remember (toU32 x) as u. remember (toU32 y) as v. injection H as H0 H1 H2 H3.
  assert (D : forall w, w = w mod 256 + 256 * ((w / 256) mod 256) + 65536 * ((w / 65536) mod 256)
                 + 16777216 * (w / 16777216)).
  { intros w. pose proof (Z.div_mod w 256 ltac:(lia)) as E0.
    pose proof (Z.div_mod (w / 256) 256 ltac:(lia)) as E1. rewrite Z.div_div in E1 by lia.
    pose proof (Z.div_mod (w / 65536) 256 ltac:(lia)) as E2. rewrite Z.div_div in E2 by lia.
    change (256 * 256) with 65536 in E1. change (65536 * 256) with 16777216 in E2. lia. }
  rewrite (D u), (D v), H0, H1, H2, H3. reflexivity.
Qed.
Lemma toU32_inj_i32 : forall x y, i32 x -> i32 y -> toU32 x = toU32 y -> x = y.
Proof.
  intros x y Hx Hy E. destruct (toU32_eq x) as [k K]. destruct (toU32_eq y) as [l L].
  unfold i32 in *. lia.
Qed.
Lemma toU32_inj_u32 : forall x y, u32 x -> u32 y -> toU32 x = toU32 y -> x = y.
Proof. intros x y Hx Hy E. rewrite !toU32_id in E by assumption. exact E. Qed.
Lemma len32 : forall x, length (bytes32 x) = 4%nat.
Proof. reflexivity. Qed.
Lemma app_inj4 : forall x y (l m : list Z), bytes32 x ++ l = bytes32 y ++ m -> bytes32 x = bytes32 y /\ l = m.
Proof. intros x y l m H. unfold bytes32 in *. cbn in H. injection H as A B C D E. split; [congruence | exact E]. Qed.

Section Ranges.
  Variable P : Z -> Prop.
  Hypothesis inj : forall x y, P x -> P y -> toU32 x = toU32 y -> x = y.
  Lemma order3 : strictTotalOrder (fun v => Forall P (lanes3 v)) binLess3.
  Proof.
    apply (memcmp_order _ mem3 12%nat); [reflexivity|].
    intros [ax ay az] [bx by_ bz] Ha Hb H. unfold lanes3 in *. cbn [x3 y3 z3] in *.
    apply Forall3l_iff in Ha. apply Forall3l_iff in Hb.
    unfold mem3 in H. cbn [x3 y3 z3] in H. apply app_inj4 in H. destruct H as [H0 H].
    apply app_inj4 in H. destruct H as [H1 H2].
    apply bytes32_inj in H0. apply bytes32_inj in H1. apply bytes32_inj in H2.
    f_equal; apply inj; tauto.
  Qed.
  Lemma order4 : strictTotalOrder (fun v => Forall P (lanes4 v)) binLess4.
  Proof.
    apply (memcmp_order _ mem4 16%nat); [reflexivity|].
    intros [ax ay az aw] [bx by_ bz bw] Ha Hb H. unfold lanes4 in *. cbn [vx vy vz vw] in *.
    apply Forall4_iff in Ha. apply Forall4_iff in Hb.
    unfold mem4 in H. cbn [vx vy vz vw] in H. apply app_inj4 in H. destruct H as [H0 H].
    apply app_inj4 in H. destruct H as [H1 H]. apply app_inj4 in H. destruct H as [H2 H3].
    apply bytes32_inj in H0. apply bytes32_inj in H1. apply bytes32_inj in H2. apply bytes32_inj in H3.
    f_equal; apply inj; tauto.
  Qed.
  Lemma asU64_inj : forall a b, Forall P (lanes2 a) -> Forall P (lanes2 b) -> asU64 a = asU64 b -> a = b.
  Proof.
    intros [ax ay] [bx by_] Ha Hb H. unfold lanes2 in *. cbn [x2 y2] in *.
    apply Forall2l_iff in Ha. apply Forall2l_iff in Hb. unfold asU64 in H. cbn [x2 y2] in H.
    pose proof (toU32_range ax). pose proof (toU32_range bx). pose proof (toU32_range ay).
    pose proof (toU32_range by_). unfold u32 in *.
    assert (toU32 ax = toU32 bx /\ toU32 ay = toU32 by_) as [E E'] by lia.
    f_equal; apply inj; tauto.
  Qed.
  Lemma asU64_range : forall a, 0 <= asU64 a < 2 ^ 64.
  Proof.
    intros. unfold asU64. pose proof (toU32_range (x2 a)). pose proof (toU32_range (y2 a)).
    unfold u32 in *. lia.
  Qed.
  Lemma key_order : forall {A} (Q : A -> Prop) (key : A -> Z),
    (forall a b, Q a -> Q b -> key a = key b -> a = b) -> strictTotalOrder Q (fun a b => key a <? key b).
  Proof.
    intros A Q key I. split; [|split].
    - intros. apply Z.ltb_irrefl.
    - intros a b c _ _ _. rewrite !Z.ltb_lt. lia.
    - intros a b Ha Hb. rewrite !Z.ltb_lt. destruct (Z.lt_trichotomy (key a) (key b)) as [H|[H|H]]; auto.
  Qed.
  Lemma orderU2 : strictTotalOrder (fun v => Forall P (lanes2 v)) uintLess2.
  Proof. apply (key_order _ asU64). apply asU64_inj. Qed.
  Lemma orderI2 : strictTotalOrder (fun v => Forall P (lanes2 v)) intLess2.
  Proof.
    apply (key_order _ asI64). intros a b Ha Hb H. apply asU64_inj; try assumption.
    unfold asI64 in H. cbv zeta in H. pose proof (asU64_range a). pose proof (asU64_range b).
    destruct (Z.ltb_spec (asU64 a) (2 ^ 63)), (Z.ltb_spec (asU64 b) (2 ^ 63)); lia.
  Qed.
End Ranges.

(** Orders of float vectors: total on bit patterns. *)
Lemma bits_range : forall x : f32, u32 (bits_of_b32 x).
Proof. intros x. unfold u32. apply (bits_of_binary_float_range 23 8); reflexivity. Qed.
Lemma bits_inj : forall x y : f32, bits_of_b32 x = bits_of_b32 y -> x = y.
Proof.
  intros x y H. rewrite <- (binary_float_of_bits_of_binary_float 23 8 eq_refl eq_refl eq_refl x).
  rewrite <- (binary_float_of_bits_of_binary_float 23 8 eq_refl eq_refl eq_refl y).
  unfold bits_of_b32 in H. f_equal. exact H.
Qed.
Lemma order_image : forall {A B} (g : A -> B) (Q : B -> Prop) lt,
  (forall a, Q (g a)) -> (forall a b, g a = g b -> a = b) -> strictTotalOrder Q lt ->
  strictTotalOrder (fun _ => True) (fun a b => lt (g a) (g b)).
Proof.
  intros A B g Q lt HQ I (R & T & C). split; [|split].
  - intros. apply R, HQ.
  - intros a b c _ _ _. apply T; apply HQ.
  - intros a b _ _. destruct (C (g a) (g b) (HQ a) (HQ b)) as [H|[H|H]]; auto.
Qed.
Lemma orderF2 : strictTotalOrder (fun _ => True) floatLess2.
Proof.
  apply (order_image (map_2 bits_of_b32) (fun v => Forall u32 (lanes2 v)) intLess2).
  - intros a. repeat constructor; apply bits_range.
  - intros [ax ay] [bx by_] H. unfold map_2 in H. cbn [x2 y2] in H. injection H as H0 H1.
    f_equal; apply bits_inj; assumption.
  - apply orderI2. apply toU32_inj_u32.
Qed.
Lemma orderF3 : strictTotalOrder (fun _ => True) floatLess3.
Proof.
  apply (order_image (map_3 bits_of_b32) (fun v => Forall u32 (lanes3 v)) binLess3).
  - intros a. repeat constructor; apply bits_range.
  - intros [ax ay az] [bx by_ bz] H. unfold map_3 in H. cbn [x3 y3 z3] in H. injection H as H0 H1 H2.
    f_equal; apply bits_inj; assumption.
  - apply order3. apply toU32_inj_u32.
Qed.
Lemma orderF4 : strictTotalOrder (fun _ => True) floatLess4.
Proof.
  apply (order_image (map_4 bits_of_b32) (fun v => Forall u32 (lanes4 v)) binLess4).
  - intros a. repeat constructor; apply bits_range.
  - intros [ax ay az aw] [bx by_ bz bw] H. unfold map_4 in H. cbn [vx vy vz vw] in H. injection H as H0 H1 H2 H3.
    f_equal; apply bits_inj; assumption.
  - apply order4. apply toU32_inj_u32.
Qed.

(** Boxes: only the first 24 bytes are compared. *)
Lemma aabbLess_bytes : forall a b,
  aabbLess a b = memcmpLess (mem4 (map_4 bits_of_b32 (bmin a)) ++ mem2 (map_2 bits_of_b32 (xy_of4 (bmax a))))
    (mem4 (map_4 bits_of_b32 (bmin b)) ++ mem2 (map_2 bits_of_b32 (xy_of4 (bmax b)))).
Proof. reflexivity. Qed.
Lemma aabbLess_actual : forall a b,
  (aabbLess a b = false /\ aabbLess b a = false) <->
  (bmin a = bmin b /\ vx (bmax a) = vx (bmax b) /\ vy (bmax a) = vy (bmax b)).
Proof.
  intros a b. rewrite !aabbLess_bytes.
  set (u := mem4 (map_4 bits_of_b32 (bmin a)) ++ _). set (v := mem4 (map_4 bits_of_b32 (bmin b)) ++ _).
  assert (S : (memcmpLess u v = false /\ memcmpLess v u = false) <-> u = v).
  { split.
    - intros [H K]. destruct (lex_total u v eq_refl) as [L|[L|L]]; [|exact L|];
        apply memcmp_lex in L; congruence.
    - intros ->. rewrite memcmp_irrefl. auto. }
  rewrite S. subst u v. destruct a as [[a0 a1 a2 a3] [a4 a5 a6 a7]], b as [[b0 b1 b2 b3] [b4 b5 b6 b7]].
  unfold mem4, mem2, map_4, map_2, xy_of4. cbn [bmin bmax vx vy vz vw x2 y2]. split.
  - intros H. rewrite <- !app_assoc in H.
    repeat (apply app_inj4 in H; destruct H as [?E H]).
    apply bytes32_inj in E, E0, E1, E2, E3, E4.
    rewrite !toU32_id in * by apply bits_range.
    apply bits_inj in E, E0, E1, E2, E3, E4. subst. auto.
  - intros (H & -> & ->). injection H as -> -> -> ->. reflexivity.
Qed.

(** ** min, max, clamp *)
Lemma clampLane_means : forall v lo hi,
  match clampLane v lo hi with
  | Ok r => lo <= hi /\ lo <= r <= hi /\ (lo <= v <= hi -> r = v) /\ (r = v \/ r = lo \/ r = hi)
            /\ (v < lo -> r = lo) /\ (hi < v -> r = hi)
  | UB => hi < lo
  | _ => False
  end.
Proof.
  intros. unfold clampLane. destruct (Z.ltb_spec hi lo); [assumption|].
  destruct (Z.ltb_spec v lo); [lia|]. destruct (Z.ltb_spec hi v); lia.
Qed.
(** least and greatest lane *)
Lemma lane_ops_ok : forall p (l : list Z),
  (p = NEON \/ p = GEN \/ p = SSE2 \/ Forall low31 l) -> Forall u32 l ->
  forall a b, In a l -> In b l -> u32minLane p a b = Z.min a b /\ u32maxLane p a b = Z.max a b.
Proof.
  intros p l Hp Hu a b Ha Hb. rewrite Forall_forall in Hu. apply u32min_lane; auto.
  destruct Hp as [H|[H|[H|H]]]; auto. right; right; right.
  rewrite Forall_forall in H. specialize (H a Ha) as A. specialize (H b Hb) as B.
  unfold sameHalf, low31 in *. lia.
Qed.
Lemma reduce_minmax4 : forall p v,
  (p = NEON \/ p = GEN \/ p = SSE2 \/ Forall low31 (lanes4 v)) -> Forall u32 (lanes4 v) ->
  least (u32min4 p v) (lanes4 v) /\ greatest (u32max4 p v) (lanes4 v).
Proof.
  intros p [x y z w] Hp Hu. pose proof (lane_ops_ok p _ Hp Hu) as L.
  unfold lanes4 in *. cbn [vx vy vz vw] in *.
  unfold u32min4, u32max4, u32min, u32max, map2_4, swYUWU, swZUUU. cbn [vx vy vz vw].
  assert (I : forall t, t = x \/ t = y \/ t = z \/ t = w -> In t [x; y; z; w]) by (cbn; intuition).
  rewrite (proj1 (L x y ltac:(apply I; auto) ltac:(apply I; auto))).
  rewrite (proj2 (L x y ltac:(apply I; auto) ltac:(apply I; auto))).
  rewrite (proj1 (L z w ltac:(apply I; auto) ltac:(apply I; auto))).
  rewrite (proj2 (L z w ltac:(apply I; auto) ltac:(apply I; auto))).
  rewrite (proj1 (L (Z.min x y) (Z.min z w) ltac:(apply I; lia) ltac:(apply I; lia))).
  rewrite (proj2 (L (Z.max x y) (Z.max z w) ltac:(apply I; lia) ltac:(apply I; lia))).
  split; (split; [apply I; lia | apply Forall4_iff; lia]).
Qed.
Lemma reduce_minmax3 : forall p v, let l := [vx v; vy v; vz v] in
  (p = NEON \/ p = GEN \/ p = SSE2 \/ Forall low31 l) -> Forall u32 l ->
  least (u32min3 p v) l /\ greatest (u32max3 p v) l.
Proof.
  intros p [x y z w] l Hp Hu. pose proof (lane_ops_ok p _ Hp Hu) as L. unfold l in *.
  cbn [vx vy vz vw] in *.
  unfold u32min3, u32max3, u32min, u32max, map2_4, swYUZU, swZUUU. cbn [vx vy vz vw].
  assert (I : forall t, t = x \/ t = y \/ t = z -> In t [x; y; z]) by (cbn; intuition).
  rewrite (proj1 (L x y ltac:(apply I; auto) ltac:(apply I; auto))).
  rewrite (proj2 (L x y ltac:(apply I; auto) ltac:(apply I; auto))).
  rewrite (proj1 (L z z ltac:(apply I; auto) ltac:(apply I; auto))).
  rewrite (proj2 (L z z ltac:(apply I; auto) ltac:(apply I; auto))).
  rewrite (proj1 (L (Z.min x y) (Z.min z z) ltac:(apply I; lia) ltac:(apply I; lia))).
  rewrite (proj2 (L (Z.max x y) (Z.max z z) ltac:(apply I; lia) ltac:(apply I; lia))).
  split; (split; [apply I; lia | apply Forall3l_iff; lia]).
Qed.
