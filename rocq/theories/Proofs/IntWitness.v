(** Integer vectors: collected statements and counterexamples. *)
From Coq Require Import ZArith Reals Bool List Lia Lra.
From Flocq Require Import Core.Core IEEE754.BinarySingleNaN IEEE754.Binary IEEE754.Bits.
From Verif.Model Require Import Outcome Scalar Vec Simd Aabb IntVec SimdInt.
From Verif.Spec Require Import OrderSpec IntSpec.
From Verif.Proofs Require Import IntProofs IntArith IntOrder MipProofs IntConv AabbWitness.
Import ListNotations.
Local Open Scope Z_scope.

Lemma select2_lanes : forall c (a b : vec2 Z) (t f : vec2 Z),
  let r := select2 (compare2 c a b) t f in
  chosen (relOf c (x2 a) (x2 b)) (x2 t) (x2 f) (x2 r) /\
  chosen (relOf c (y2 a) (y2 b)) (y2 t) (y2 f) (y2 r).
Proof. intros. split; apply sel_mask. Qed.
Lemma select3_lanes : forall c (a b : vec3 Z) (t f : vec3 Z),
  let r := select3 (compare3 c a b) t f in
  chosen (relOf c (x3 a) (x3 b)) (x3 t) (x3 f) (x3 r) /\
  chosen (relOf c (y3 a) (y3 b)) (y3 t) (y3 f) (y3 r) /\
  chosen (relOf c (z3 a) (z3 b)) (z3 t) (z3 f) (z3 r).
Proof. intros. split; [|split]; apply sel_mask. Qed.
Lemma select4_lanes : forall c (a b : vec4 Z) (t f : vec4 Z),
  let r := select4 (compare4 c a b) t f in
  chosen (relOf c (vx a) (vx b)) (vx t) (vx f) (vx r) /\
  chosen (relOf c (vy a) (vy b)) (vy t) (vy f) (vy r) /\
  chosen (relOf c (vz a) (vz b)) (vz t) (vz f) (vz r) /\
  chosen (relOf c (vw a) (vw b)) (vw t) (vw f) (vw r).
Proof. intros. split; [|split; [|split]]; apply sel_mask. Qed.

(** C88 *)
Lemma reductions_path_refuted : exists v, Forall u32 (lanes4 v) /\
  areAllTrue4 SSE2 v = true /\ areAllTrue4 GEN v = false.
Proof. exists (dup4 2155905152). split; [|split; reflexivity].
  unfold lanes4, dup4. cbn [vx vy vz vw]. apply Forall4_iff. unfold u32. lia. Qed.
Lemma byteTops_full : forall x, 0 <= byteTops x <= 15 /\ (byteTops x = 15 <-> byteTopsSet x)
  /\ (byteTops x = 0 <-> byteTopsClear x).
Proof.
  intros x. unfold byteTops, byteTopsSet, byteTopsClear.
  destruct (Z.testbit x 7), (Z.testbit x 15), (Z.testbit x 23), (Z.testbit x 31); cbn; intuition (lia || congruence).
Qed.
Lemma reductions_sse : forall p v, p = SSE2 \/ p = SSE41 \/ p = AVX2 ->
  (areAllTrue4 p v = true <-> Forall byteTopsSet (lanes4 v)).
Proof.
  intros p [x y z w] Hp. unfold lanes4. cbn [vx vy vz vw]. rewrite Forall4_iff.
  replace (areAllTrue4 p (V4 x y z w)) with (movemask8 (V4 x y z w) =? 65535)
    by (destruct Hp as [-> | [-> | ->]]; reflexivity).
  rewrite Z.eqb_eq. unfold movemask8. cbn [vx vy vz vw].
  destruct (byteTops_full x) as (Bx & <- & _), (byteTops_full y) as (By & <- & _),
    (byteTops_full z) as (Bz & <- & _), (byteTops_full w) as (Bw & <- & _). lia.
Qed.
Lemma reductions_sse2_false : forall v,
  areAllFalse4 SSE2 v = true <-> Forall byteTopsClear (lanes4 v).
Proof.
  intros [x y z w]. unfold lanes4. cbn [vx vy vz vw areAllFalse4]. rewrite Forall4_iff.
  rewrite Z.eqb_eq. unfold movemask8. cbn [vx vy vz vw].
  destruct (byteTops_full x) as (Bx & _ & <-), (byteTops_full y) as (By & _ & <-),
    (byteTops_full z) as (Bz & _ & <-), (byteTops_full w) as (Bw & _ & <-). lia.
Qed.

(** C56 *)
Lemma aabbLess_refuted : exists a b : aabb f32, a <> b /\ aabbLess a b = false /\ aabbLess b a = false.
Proof.
  exists (bx 0 0 0 1 1 1), (bx 0 0 0 1 1 2). split.
  - intros E. apply (f_equal (fun b => seq (vz (bmax b)) (fi 1))) in E. revert E. vm_compute. discriminate.
  - vm_compute. auto.
Qed.
Lemma aabbLess_rest : (forall a, aabbLess a a = false) /\
  (forall a b c, aabbLess a b = true -> aabbLess b c = true -> aabbLess a c = true).
Proof.
  split; unfold aabbLess.
  - intros. apply memcmp_irrefl.
  - intros a b c H K. apply memcmp_lex in H. apply memcmp_lex in K. apply memcmp_lex. eapply lex_trans; eassumption.
Qed.

(** C57 *)
Lemma constructors : forall A (a b c d : A),
  ctor3_xy_z (V2 a b) c = V3 a b c /\ ctor3_x_yz a (V2 b c) = V3 a b c /\
  ctor4_xy_z_w (V2 a b) c d = V4 a b c d /\ ctor4_x_yz_w a (V2 b c) d = V4 a b c d /\
  ctor4_x_y_zw a b (V2 c d) = V4 a b c d /\ ctor4_xy_zw (V2 a b) (V2 c d) = V4 a b c d /\
  ctor4_xyz_w (V3 a b c) d = V4 a b c d /\ ctor4_x_yzw a (V3 b c d) = V4 a b c d /\
  xy_of3 (V3 a b c) = V2 a b /\ xy_of4 (V4 a b c d) = V2 a b /\ loadAligned a b c d = V4 a b c d.
Proof. intros. repeat split. Qed.
Lemma int3_actual : forall x y z, int3_xy_z (V2 x y) z = V3 x y x.
Proof. reflexivity. Qed.
Lemma int3_refuted : exists xy z, int3_xy_z xy z <> V3 (x2 xy) (y2 xy) z.
Proof. exists (V2 1 2), 3. discriminate. Qed.
Lemma loadPtr_actual : forall A p (a b c d : A),
  loadPtr p a b c d = match p with GEN => V4 a a a a | _ => V4 a b c d end.
Proof. intros A [] a b c d; reflexivity. Qed.
Lemma loadPtr_refuted : exists a b c d : Z, loadPtr GEN a b c d <> V4 a b c d.
Proof. exists 1, 2, 3, 4. discriminate. Qed.
Lemma convert4 : forall v, Forall u32 (lanes4 v) ->
  uintOfInt4 (intOfUint4 v) = v /\
  Forall2 (fun u i => i32 i /\ (exists k, u = i + k * 2 ^ 32)) (lanes4 v) (lanes4 (intOfUint4 v)).
Proof.
  intros [x y z w] H. unfold lanes4 in *. cbn [vx vy vz vw] in *. apply Forall4_iff in H.
  assert (E : forall x, u32 x -> toU32 (toI32 x) = x).
  { intros a Ha. destruct (toI32_eq a) as [k K]. unfold toU32.
    rewrite <- (Z.mod_add (toI32 a) k) by lia. rewrite <- K. apply Z.mod_small. exact Ha. }
  unfold uintOfInt4, intOfUint4, map_4. cbn [vx vy vz vw]. split.
  - f_equal; apply E; tauto.
  - apply F2_4. split; [|split; [|split]]; (split; [apply toI32_range | apply toI32_eq]).
Qed.

(** C59 *)
Lemma mipCount_zero : calcMipCount 0 = UB.
Proof. reflexivity. Qed.
Lemma mip_log2 : forall size, 1 <= size < 2 ^ 32 ->
  0 <= Z.log2 size <= 31 /\ 2 ^ Z.log2 size <= size < 2 ^ (Z.log2 size + 1).
Proof.
  intros size H. pose proof (Z.log2_spec size ltac:(lia)) as L. rewrite <- Z.add_1_r in L.
  pose proof (Z.log2_nonneg size). split; [|exact L]. split; [assumption|].
  assert (Z.log2 size < 32) by (apply Z.log2_lt_pow2; lia). lia.
Qed.
Lemma isMipCount_unique : forall s n m, isMipCount s n -> isMipCount s m -> n = m.
Proof.
  intros s n m (Hn & Hn1 & Hn2) (Hm & Hm1 & Hm2).
  destruct (Z.lt_trichotomy n m) as [L|[L|L]]; [exfalso | exact L | exfalso].
  - assert (2 ^ n <= 2 ^ (m - 1)) by (apply Z.pow_le_mono_r; lia). lia.
  - assert (2 ^ m <= 2 ^ (n - 1)) by (apply Z.pow_le_mono_r; lia). lia.
Qed.
Lemma mipCount_actual : forall size n, u32 size -> isMipCount size n ->
  (2 ^ 20 * (2 ^ n - size) >= 2 ^ n -> calcMipCount size = Ok n) /\
  (17 <= n -> 2 ^ 21 * (2 ^ n - size) <= 2 ^ n -> calcMipCount size = Ok (n + 1)).
Proof.
  intros size n Hu (Hn & Hl & Hh). unfold u32 in Hu.
  assert (K : n <= 32).
  { destruct (Z.le_gt_cases n 32) as [H|H]; [exact H | exfalso].
    assert (2 ^ 32 <= 2 ^ (n - 1)) by (apply Z.pow_le_mono_r; lia). lia. }
  replace n with (n - 1 + 1) in Hh by ring. split.
  - intros G. replace n with (n - 1 + 1) in G |- * by ring. apply mipCount_right; [lia | split; assumption | exact G].
  - intros H17 G. replace n with (n - 1 + 1) in G by ring. replace (n + 1) with (n - 1 + 2) by ring.
    apply mipCount_wrong; [lia | split; assumption | exact G].
Qed.
Lemma mipCount_small : forall size, 1 <= size <= 2 ^ 21 - 2 ->
  exists n, calcMipCount size = Ok n /\ isMipCount size n.
Proof.
  intros size H. destruct (mip_log2 size ltac:(lia)) as (K & L).
  exists (Z.log2 size + 1). split.
  - apply mipCount_right; [exact K | exact L|].
    assert (K2 : Z.log2 size <= 20) by (apply Z.lt_succ_r, Z.log2_lt_pow2; lia).
    destruct (Z.eq_dec (Z.log2 size) 20) as [->|N]; [lia|].
    assert (2 ^ (Z.log2 size + 1) <= 2 ^ 20) by (apply Z.pow_le_mono_r; lia). lia.
  - unfold isMipCount. replace (Z.log2 size + 1 - 1) with (Z.log2 size) by ring. split; [lia | exact L].
Qed.
Lemma mipCount_pow2 : forall k, 0 <= k <= 31 -> calcMipCount (2 ^ k) = Ok (k + 1).
Proof.
  intros k Hk. apply mipCount_right; [exact Hk| |].
  - split; [lia|]. apply Z.pow_lt_mono_r; lia.
  - rewrite Z.pow_add_r by lia. pose proof (Z.pow_pos_nonneg 2 k ltac:(lia) ltac:(lia)). lia.
Qed.
Lemma mipCount_refuted : exists size, u32 size /\ 1 <= size /\
  forall n, calcMipCount size = Ok n -> ~ isMipCount size n.
Proof.
  exists (2 ^ 21 - 1). split; [unfold u32; lia|]. split; [lia|].
  assert (M : isMipCount (2 ^ 21 - 1) 21) by (unfold isMipCount; lia).
  intros n Hn K. destruct (mipCount_actual (2 ^ 21 - 1) 21 ltac:(unfold u32; lia) M) as [_ W].
  rewrite W in Hn by lia. injection Hn as <-. pose proof (isMipCount_unique _ _ _ M K). lia.
Qed.
(** a full mip chain ends in size one, and not earlier *)
Lemma mip_chain : forall size n, u32 size -> isMipCount size n ->
  calcSizeAtMip size (n - 1) = Ok 1 /\
  forall m, 0 <= m < n - 1 -> exists s, calcSizeAtMip size m = Ok s /\ 1 < s.
Proof.
  intros size n Hu (Hn & Hl & Hh). unfold u32 in Hu.
  assert (K : n <= 32).
  { destruct (Z.le_gt_cases n 32) as [H|H]; [exact H | exfalso].
    assert (2 ^ 32 <= 2 ^ (n - 1)) by (apply Z.pow_le_mono_r; lia). lia. }
  assert (P2 : 2 ^ n = 2 * 2 ^ (n - 1)) by (rewrite <- Z.pow_succ_r by lia; f_equal; lia).
  unfold calcSizeAtMip, mipDivisor. split.
  - destruct (Z.ltb_spec (n - 1) 32); [|lia]. cbn [bind]. f_equal.
    assert (size / 2 ^ (n - 1) = 1) as ->; [|reflexivity].
    symmetry. apply Z.div_unique with (size - 2 ^ (n - 1)); lia.
  - intros m Hm. destruct (Z.ltb_spec m 32); [|lia]. cbn [bind]. eexists; split; [reflexivity|].
    pose proof (Z.pow_pos_nonneg 2 m ltac:(lia) ltac:(lia)) as P.
    assert (2 * 2 ^ m <= size).
    { apply Z.le_trans with (2 ^ (n - 1)); [|lia]. rewrite <- Z.pow_succ_r by lia. apply Z.pow_le_mono_r; lia. }
    assert (2 <= size / 2 ^ m) by (apply Z.div_le_lower_bound; lia). lia.
Qed.
Lemma sizeAtMip2_lanes : forall size mip, Forall u32 (lanes2 size) -> 0 <= mip < 32 ->
  exists s, calcSizeAtMip2 size mip = Ok s /\ Forall2 (fun a b => isMipSize a mip b) (lanes2 size) (lanes2 s).
Proof.
  intros size mip H Hm. eexists. split; [apply sizeAtMip2; assumption|].
  destruct size as [x y]. unfold lanes2 in *. cbn [x2 y2] in *. apply Forall2l_iff in H. unfold u32 in H.
  apply F2_2. split; apply isMipSize_max; lia.
Qed.
Lemma sizeAtMip3_lanes : forall size mip, Forall u32 (lanes3 size) -> 0 <= mip < 32 ->
  exists s, calcSizeAtMip3 size mip = Ok s /\ Forall2 (fun a b => isMipSize a mip b) (lanes3 size) (lanes3 s).
Proof.
  intros size mip H Hm. eexists. split; [apply sizeAtMip3; assumption|].
  destruct size as [x y z]. unfold lanes3 in *. cbn [x3 y3 z3] in *. apply Forall3l_iff in H. unfold u32 in H.
  apply F2_3. split; [|split]; apply isMipSize_max; lia.
Qed.
Lemma sizeAtMip3s_refuted : exists size, Forall u32 (lanes4 size) /\
  calcSizeAtMip3s SSE41 size 0 = Ok (V4 1 1 1 1) /\ size = V4 (2 ^ 31) 1 1 1.
Proof.
  exists (V4 (2 ^ 31) 1 1 1). split; [|split; reflexivity].
  unfold lanes4. cbn [vx vy vz vw]. apply Forall4_iff. unfold u32. lia.
Qed.

(** C60 *)
Lemma u32compare_right : forall p c a b, Forall u32 (lanes4 a) -> Forall u32 (lanes4 b) ->
  (p = NEON \/ p = GEN \/ c = CEq \/ c = CNe \/ Forall2 sameHalf (lanes4 a) (lanes4 b)) ->
  Forall3 (fun x y m => maskFor (relOf c x y) m) (lanes4 a) (lanes4 b) (lanes4 (u32compare p c a b)).
Proof.
  intros p c [ax ay az aw] [bx by_ bz bw] Ha Hb Hp. unfold lanes4 in *. cbn [vx vy vz vw] in *.
  apply Forall4_iff in Ha. apply Forall4_iff in Hb.
  assert (Q : forall a b, u32 a -> u32 b -> (p = NEON \/ p = GEN \/ c = CEq \/ c = CNe \/ sameHalf a b) ->
    maskFor (relOf c a b) (maskOf (u32cmpLane p c a b))).
  { intros a b Ua Ub Hab. pose proof (u32cmp_lane p c a b Ua Ub Hab) as K. unfold maskFor, maskOf, allOnes.
    destruct (u32cmpLane p c a b); [left; tauto | right]. split; [|reflexivity]. intros R. apply K in R. discriminate. }
  rewrite F2_4 in Hp.
  unfold u32compare, map2_4. cbn [vx vy vz vw].
  repeat (apply F3_cons; [apply Q; tauto|]). apply F3_nil.
Qed.
Lemma u32compare_refuted : exists a b, Forall u32 (lanes4 a) /\ Forall u32 (lanes4 b) /\
  Forall2 (fun x y => x < y) (lanes4 a) (lanes4 b) /\
  forall p, p = SSE2 \/ p = SSE41 \/ p = AVX2 ->
    u32compare p CLt a b = dup4 0 /\ u32compare p CGt a b = dup4 (2 ^ 32 - 1) /\
    areAllFalse4 p (u32compare p CLt a b) = true.
Proof.
  exists (dup4 1), (dup4 (2 ^ 31)). unfold lanes4, dup4. cbn [vx vy vz vw].
  split; [apply Forall4_iff; unfold u32; lia|]. split; [apply Forall4_iff; unfold u32; lia|].
  split; [apply F2_4; lia|]. intros p [-> | [-> | ->]]; vm_compute; auto.
Qed.
Lemma u32minmax_right : forall p a b, Forall u32 (lanes4 a) -> Forall u32 (lanes4 b) ->
  (p = NEON \/ p = GEN \/ p = SSE2 \/ Forall2 sameHalf (lanes4 a) (lanes4 b)) ->
  Forall3 (fun x y m => least m [x; y]) (lanes4 a) (lanes4 b) (lanes4 (u32min p a b)) /\
  Forall3 (fun x y m => greatest m [x; y]) (lanes4 a) (lanes4 b) (lanes4 (u32max p a b)).
Proof.
  intros p [ax ay az aw] [bx by_ bz bw] Ha Hb Hp. unfold lanes4 in *. cbn [vx vy vz vw] in *.
  apply Forall4_iff in Ha. apply Forall4_iff in Hb. rewrite F2_4 in Hp.
  assert (Q : forall a b, u32 a -> u32 b -> (p = NEON \/ p = GEN \/ p = SSE2 \/ sameHalf a b) ->
     least (u32minLane p a b) [a; b] /\ greatest (u32maxLane p a b) [a; b]).
  { intros a b Ua Ub Hab. destruct (u32min_lane p a b Ua Ub Hab) as [-> ->]. unfold least, greatest.
    rewrite !Forall2l_iff. cbn [In]. lia. }
  unfold u32min, u32max, map2_4. cbn [vx vy vz vw].
  split; (repeat (apply F3_cons; [apply Q; tauto|]); apply F3_nil).
Qed.
Lemma u32minmax_refuted : exists a b, Forall u32 (lanes4 a) /\ Forall u32 (lanes4 b) /\
  forall p, p = SSE41 \/ p = AVX2 -> u32min p a b = b /\ u32max p a b = a /\
    Forall2 (fun x y => x < y) (lanes4 a) (lanes4 b).
Proof.
  exists (dup4 1), (dup4 (2 ^ 31)). unfold lanes4, dup4. cbn [vx vy vz vw].
  split; [apply Forall4_iff; unfold u32; lia|]. split; [apply Forall4_iff; unfold u32; lia|].
  intros p [-> | ->]; (split; [reflexivity | split; [reflexivity | apply F2_4; lia]]).
Qed.
(** C89, C90 *)
Lemma f32ofU32_gen_refuted : exists u, u32 u /\ seq (f32ofU32 GEN u) (fi 1) = false /\ u = 1 /\
  seq (f32ofI32 GEN u) (fi 1) = false.
Proof. exists 1. split; [unfold u32; lia|]. vm_compute. auto. Qed.
Lemma u32ofF32_refuted : exists x : f32, seq x (slit 3 30) = true /\
  u32ofF32 NEON x = Ok (3 * 2 ^ 30) /\ u32ofF32 GEN x = Ok (3 * 2 ^ 30) /\
  u32ofF32 SSE2 x = Ok (2 ^ 31) /\ u32ofF32 SSE41 x = Ok (2 ^ 31) /\ u32ofF32 AVX2 x = Ok (2 ^ 31).
Proof. exists (slit 3 30). vm_compute. auto 6. Qed.
