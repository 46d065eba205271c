(** Integer vectors: lanes, masks, reductions, arithmetic, binary order. *)
From Coq Require Import ZArith Bool List Lia.
From Flocq Require Import Core.Core IEEE754.BinarySingleNaN IEEE754.Binary IEEE754.Bits.
From Verif.Model Require Import Outcome Scalar Vec Simd Aabb IntVec SimdInt.
From Verif.Spec Require Import OrderSpec IntSpec.
From Verif.Proofs Require Import BitLemmas.
Import ListNotations.
Local Open Scope Z_scope.

(** ** Comparison lanes *)
Lemma cmpLane_iff : forall c a b, cmpLane c a b = true <-> relOf c a b.
Proof.
  intros [] a b; cbn [cmpLane relOf]; rewrite ?negb_true_iff, ?Z.eqb_neq; lia.
Qed.

Lemma mask_for : forall c a b, maskFor (relOf c a b) (maskOf (cmpLane c a b)).
Proof.
  intros c a b. unfold maskFor, maskOf, allOnes. pose proof (cmpLane_iff c a b) as H.
  destruct (cmpLane c a b).
  - left. split; [apply H; reflexivity | reflexivity].
  - right. split; [intros K; apply H in K; discriminate | reflexivity].
Qed.

Lemma compare2_lanes : forall c a b,
  Forall3 (fun x y m => maskFor (relOf c x y) m) (lanes2 a) (lanes2 b) (lanes2 (compare2 c a b)).
Proof. intros. repeat (apply F3_cons; [apply mask_for|]). apply F3_nil. Qed.
Lemma compare3_lanes : forall c a b,
  Forall3 (fun x y m => maskFor (relOf c x y) m) (lanes3 a) (lanes3 b) (lanes3 (compare3 c a b)).
Proof. intros. repeat (apply F3_cons; [apply mask_for|]). apply F3_nil. Qed.
Lemma compare4_lanes : forall c a b,
  Forall3 (fun x y m => maskFor (relOf c x y) m) (lanes4 a) (lanes4 b) (lanes4 (compare4 c a b)).
Proof. intros. repeat (apply F3_cons; [apply mask_for|]). apply F3_nil. Qed.

(** ** Reductions *)
Lemma land_ones_iff : forall a b, u32 a -> u32 b ->
  (Z.land a b = allOnes <-> a = allOnes /\ b = allOnes).
Proof.
  intros a b Ha Hb. unfold u32 in *. split.
  - intros H. assert (K : forall i, 0 <= i < 32 -> Z.testbit a i = true /\ Z.testbit b i = true).
    { intros i Hi. apply andb_true_iff. rewrite <- Z.land_spec, H. unfold allOnes.
      change 4294967295 with (Z.ones 32). apply Z.ones_spec_low. lia. }
    split; apply Z.bits_inj'; intros i Hi; unfold allOnes; change 4294967295 with (Z.ones 32).
    + destruct (Z.lt_ge_cases i 32); [rewrite Z.ones_spec_low by lia; apply K; lia|].
      rewrite Z.ones_spec_high by lia. apply (testbit_small a 32); lia.
    + destruct (Z.lt_ge_cases i 32); [rewrite Z.ones_spec_low by lia; apply K; lia|].
      rewrite Z.ones_spec_high by lia. apply (testbit_small b 32); lia.
  - intros [-> ->]. reflexivity.
Qed.

Lemma land_u32 : forall a b, u32 a -> u32 b -> u32 (Z.land a b).
Proof.
  intros a b [Ha Ha'] [Hb Hb']. unfold u32. split; [apply Z.land_nonneg; lia|].
  destruct (Z.eq_dec (Z.land a b) 0) as [->|Hn]; [lia|].
  apply Z.log2_lt_pow2; [assert (0 <= Z.land a b) by (apply Z.land_nonneg; lia); lia|].
  assert (L := Z.log2_land a b Ha Hb).
  assert (Z.log2 a < 32) by (destruct (Z.eq_dec a 0) as [->|]; [cbn; lia | apply Z.log2_lt_pow2; lia]). lia.
Qed.
Lemma lor_u32 : forall a b, u32 a -> u32 b -> u32 (Z.lor a b).
Proof.
  intros a b [Ha Ha'] [Hb Hb']. unfold u32. split; [apply Z.lor_nonneg; lia|].
  destruct (Z.eq_dec (Z.lor a b) 0) as [->|Hn]; [lia|].
  apply Z.log2_lt_pow2; [assert (0 <= Z.lor a b) by (apply Z.lor_nonneg; lia); lia|].
  rewrite Z.log2_lor by assumption.
  assert (Z.log2 a < 32) by (destruct (Z.eq_dec a 0) as [->|]; [cbn; lia | apply Z.log2_lt_pow2; lia]).
  assert (Z.log2 b < 32) by (destruct (Z.eq_dec b 0) as [->|]; [cbn; lia | apply Z.log2_lt_pow2; lia]). lia.
Qed.
Lemma lxor_u32 : forall a b, u32 a -> u32 b -> u32 (Z.lxor a b).
Proof.
  intros a b [Ha Ha'] [Hb Hb']. unfold u32.
  assert (N : 0 <= Z.lxor a b) by (apply Z.lxor_nonneg; lia). split; [assumption|].
  destruct (Z.eq_dec (Z.lxor a b) 0) as [->|Hn]; [lia|].
  apply Z.log2_lt_pow2; [lia|].
  assert (L := Z.log2_lxor a b Ha Hb).
  assert (Z.log2 a < 32) by (destruct (Z.eq_dec a 0) as [->|]; [cbn; lia | apply Z.log2_lt_pow2; lia]).
  assert (Z.log2 b < 32) by (destruct (Z.eq_dec b 0) as [->|]; [cbn; lia | apply Z.log2_lt_pow2; lia]). lia.
Qed.

(** The reductions on arbitrary lanes (two and three lanes, and four on the generic and NEON
    paths): "all bits of all lanes set" and "all bits of all lanes clear". *)
Lemma allTrue2_iff : forall v, Forall u32 (lanes2 v) ->
  (areAllTrue2 v = true <-> Forall (fun x => x = 2 ^ 32 - 1) (lanes2 v)).
Proof.
  intros [x y] H. inversion_clear H as [|? ? Hx K]. inversion_clear K as [|? ? Hy _]. cbn [x2 y2] in *.
  unfold areAllTrue2, lanes2. cbn [x2 y2]. rewrite Z.eqb_eq, (land_ones_iff x y Hx Hy).
  change (2 ^ 32 - 1) with allOnes. split.
  - intros [-> ->]. repeat constructor.
  - intros F. inversion_clear F as [|? ? E F']. inversion_clear F' as [|? ? E' _]. auto.
Qed.
Lemma allTrue3_iff : forall v, Forall u32 (lanes3 v) ->
  (areAllTrue3 v = true <-> Forall (fun x => x = 2 ^ 32 - 1) (lanes3 v)).
Proof.
  intros [x y z] H. inversion_clear H as [|? ? Hx K]. inversion_clear K as [|? ? Hy K'].
  inversion_clear K' as [|? ? Hz _]. cbn [x3 y3 z3] in *.
  unfold areAllTrue3, lanes3. cbn [x3 y3 z3].
  rewrite Z.eqb_eq, (land_ones_iff _ z (land_u32 x y Hx Hy) Hz), (land_ones_iff x y Hx Hy).
  change (2 ^ 32 - 1) with allOnes. split.
  - intros [[-> ->] ->]. repeat constructor.
  - intros F. inversion_clear F as [|? ? E F']. inversion_clear F' as [|? ? E' F''].
    inversion_clear F'' as [|? ? E'' _]. auto.
Qed.
Lemma Forall4_iff : forall (P : Z -> Prop) x y z w,
  Forall P [x; y; z; w] <-> P x /\ P y /\ P z /\ P w.
Proof.
  intros. split.
  - intros F. inversion_clear F as [|? ? E F']. inversion_clear F' as [|? ? E' F''].
    inversion_clear F'' as [|? ? E'' F3]. inversion_clear F3. auto.
  - intros (A & B & C & D). repeat constructor; assumption.
Qed.
Lemma Forall3l_iff : forall (P : Z -> Prop) x y z, Forall P [x; y; z] <-> P x /\ P y /\ P z.
Proof.
  intros. split.
  - intros F. inversion_clear F as [|? ? E F']. inversion_clear F' as [|? ? E' F''].
    inversion_clear F'' as [|? ? E'' F3]. auto.
  - intros (A & B & C). repeat constructor; assumption.
Qed.
Lemma Forall2l_iff : forall (P : Z -> Prop) x y, Forall P [x; y] <-> P x /\ P y.
Proof.
  intros. split.
  - intros F. inversion_clear F as [|? ? E F']. inversion_clear F' as [|? ? E' F'']. auto.
  - intros (A & B). repeat constructor; assumption.
Qed.

Lemma allTrue4_iff : forall p v, p = GEN \/ p = NEON -> Forall u32 (lanes4 v) ->
  (areAllTrue4 p v = true <-> Forall (fun x => x = 2 ^ 32 - 1) (lanes4 v)).
Proof.
  intros p [x y z w] Hp H. unfold lanes4 in *. cbn [vx vy vz vw] in *.
  rewrite Forall4_iff in *. destruct H as (Hx & Hy & Hz & Hw).
  change (2 ^ 32 - 1) with allOnes. destruct Hp as [-> | ->]; cbn [areAllTrue4]; rewrite Z.eqb_eq.
  - cbn [vx vy vz vw].
    rewrite (land_ones_iff _ w (land_u32 _ z (land_u32 x y Hx Hy) Hz) Hw),
      (land_ones_iff _ z (land_u32 x y Hx Hy) Hz), (land_ones_iff x y Hx Hy). tauto.
  - unfold zmin4. cbn [vx vy vz vw]. unfold u32, allOnes in *. lia.
Qed.

Lemma lor0_iff : forall a b, Z.lor a b = 0 <-> a = 0 /\ b = 0.
Proof. intros. apply Z.lor_eq_0_iff. Qed.
Lemma allFalse2_iff : forall v, areAllFalse2 v = true <-> Forall (fun x => x = 0) (lanes2 v).
Proof.
  intros [x y]. unfold areAllFalse2, lanes2. cbn [x2 y2]. rewrite Z.eqb_eq, lor0_iff, Forall2l_iff. tauto.
Qed.
Lemma allFalse3_iff : forall v, areAllFalse3 v = true <-> Forall (fun x => x = 0) (lanes3 v).
Proof.
  intros [x y z]. unfold areAllFalse3, lanes3. cbn [x3 y3 z3].
  rewrite Z.eqb_eq, !lor0_iff, Forall3l_iff. tauto.
Qed.
Lemma allFalse4_iff : forall p v, p <> SSE2 -> Forall u32 (lanes4 v) ->
  (areAllFalse4 p v = true <-> Forall (fun x => x = 0) (lanes4 v)).
Proof.
  intros p [x y z w] Hp H. unfold lanes4 in *. cbn [vx vy vz vw] in *. rewrite Forall4_iff in *.
  destruct H as (Hx & Hy & Hz & Hw).
  destruct p; try congruence; cbn [areAllFalse4]; unfold uallZero, zmax4; cbn [vx vy vz vw];
    rewrite Z.eqb_eq, ?lor0_iff; unfold u32 in *; lia.
Qed.

(** The complements, on every vector and every path. *)
Lemma reductions_dual2 : forall v,
  areAnyFalse2 v = negb (areAllTrue2 v) /\ areAnyTrue2 v = negb (areAllFalse2 v).
Proof. intros. split; reflexivity. Qed.
Lemma reductions_dual3 : forall v,
  areAnyFalse3 v = negb (areAllTrue3 v) /\ areAnyTrue3 v = negb (areAllFalse3 v).
Proof. intros. split; reflexivity. Qed.
Lemma reductions_dual4 : forall p v,
  areAnyFalse4 p v = negb (areAllTrue4 p v) /\ areAnyTrue4 p v = negb (areAllFalse4 p v).
Proof. intros [] v; split; reflexivity. Qed.

(** Masks. *)
Lemma u32_mask : forall b, u32 (maskOf b).
Proof. intros []; unfold u32, maskOf, allOnes; lia. Qed.
Lemma mask_ones : forall b, maskOf b = 2 ^ 32 - 1 <-> b = true.
Proof. intros []; cbn; split; intros; (discriminate || reflexivity). Qed.
Lemma mask_zero : forall b, maskOf b = 0 <-> b = false.
Proof. intros []; cbn; split; intros; (discriminate || reflexivity). Qed.

Lemma F2_2 : forall (R : Z -> Z -> Prop) a b c d, Forall2 R [a; b] [c; d] <-> R a c /\ R b d.
Proof.
  intros. split; [|intros []; repeat constructor; assumption].
  intros H. inversion_clear H as [|? ? ? ? H1 H2]. inversion_clear H2. auto.
Qed.
Lemma F2_3 : forall (R : Z -> Z -> Prop) a b c d e f,
  Forall2 R [a; b; c] [d; e; f] <-> R a d /\ R b e /\ R c f.
Proof.
  intros. split; [|intros (? & ? & ?); repeat constructor; assumption].
  intros H. inversion_clear H as [|? ? ? ? H1 H2]. inversion_clear H2 as [|? ? ? ? H3 H4].
  inversion_clear H4. auto.
Qed.
Lemma F2_4 : forall (R : Z -> Z -> Prop) a b c d e f g h,
  Forall2 R [a; b; c; d] [e; f; g; h] <-> R a e /\ R b f /\ R c g /\ R d h.
Proof.
  intros. split; [|intros (? & ? & ? & ?); repeat constructor; assumption].
  intros H. inversion_clear H as [|? ? ? ? H1 H2]. inversion_clear H2 as [|? ? ? ? H3 H4].
  inversion_clear H4 as [|? ? ? ? H5 H6]. inversion_clear H6. auto.
Qed.
Lemma E2_2 : forall (R : Z -> Z -> Prop) a b c d, Exists2 R [a; b] [c; d] <-> R a c \/ R b d.
Proof.
  intros. split.
  - intros H. inversion_clear H as [? ? ? ? K|? ? ? ? K]; [tauto|].
    inversion_clear K as [? ? ? ? L|? ? ? ? L]; [tauto|]. inversion L.
  - intros [H|H]; [apply Ex_here | apply Ex_there, Ex_here]; exact H.
Qed.
Lemma E2_3 : forall (R : Z -> Z -> Prop) a b c d e f,
  Exists2 R [a; b; c] [d; e; f] <-> R a d \/ R b e \/ R c f.
Proof.
  intros. split.
  - intros H. inversion_clear H as [? ? ? ? K|? ? ? ? K]; [tauto|].
    inversion_clear K as [? ? ? ? L|? ? ? ? L]; [tauto|].
    inversion_clear L as [? ? ? ? M|? ? ? ? M]; [tauto|]. inversion M.
  - intros [H|[H|H]]; [apply Ex_here | apply Ex_there, Ex_here | apply Ex_there, Ex_there, Ex_here]; exact H.
Qed.
Lemma E2_4 : forall (R : Z -> Z -> Prop) a b c d e f g h,
  Exists2 R [a; b; c; d] [e; f; g; h] <-> R a e \/ R b f \/ R c g \/ R d h.
Proof.
  intros. split.
  - intros H. inversion_clear H as [? ? ? ? K|? ? ? ? K]; [tauto|].
    inversion_clear K as [? ? ? ? L|? ? ? ? L]; [tauto|].
    inversion_clear L as [? ? ? ? M|? ? ? ? M]; [tauto|].
    inversion_clear M as [? ? ? ? N|? ? ? ? N]; [tauto|]. inversion N.
  - intros [H|[H|[H|H]]]; [apply Ex_here | apply Ex_there, Ex_here
      | apply Ex_there, Ex_there, Ex_here | apply Ex_there, Ex_there, Ex_there, Ex_here]; exact H.
Qed.

(** The four reductions of a comparison. *)
Lemma reduce2 : forall c a b,
  let m := compare2 c a b in let R := relOf c in
  (areAllTrue2 m = true <-> Forall2 R (lanes2 a) (lanes2 b)) /\
  (areAnyTrue2 m = true <-> Exists2 R (lanes2 a) (lanes2 b)) /\
  (areAllFalse2 m = true <-> Forall2 (fun x y => ~ R x y) (lanes2 a) (lanes2 b)) /\
  (areAnyFalse2 m = true <-> Exists2 (fun x y => ~ R x y) (lanes2 a) (lanes2 b)).
Proof.
  intros c [ax ay] [bx by_] m R.
  unfold m, R, compare2, map2_2, areAllTrue2, areAnyTrue2, areAllFalse2, areAnyFalse2, lanes2.
  cbn [x2 y2]. rewrite !F2_2, !E2_2, <- !cmpLane_iff.
  destruct (cmpLane c ax bx), (cmpLane c ay by_); cbn; intuition congruence.
Qed.
Lemma reduce3 : forall c a b,
  let m := compare3 c a b in let R := relOf c in
  (areAllTrue3 m = true <-> Forall2 R (lanes3 a) (lanes3 b)) /\
  (areAnyTrue3 m = true <-> Exists2 R (lanes3 a) (lanes3 b)) /\
  (areAllFalse3 m = true <-> Forall2 (fun x y => ~ R x y) (lanes3 a) (lanes3 b)) /\
  (areAnyFalse3 m = true <-> Exists2 (fun x y => ~ R x y) (lanes3 a) (lanes3 b)).
Proof.
  intros c [ax ay az] [bx by_ bz] m R.
  unfold m, R, compare3, map2_3, areAllTrue3, areAnyTrue3, areAllFalse3, areAnyFalse3, lanes3.
  cbn [x3 y3 z3]. rewrite !F2_3, !E2_3, <- !cmpLane_iff.
  destruct (cmpLane c ax bx), (cmpLane c ay by_), (cmpLane c az bz); cbn; intuition congruence.
Qed.
(** Four lanes of masks, on every path: the masks may come from any source. *)
Lemma reduce4_mask : forall p b0 b1 b2 b3,
  let m := V4 (maskOf b0) (maskOf b1) (maskOf b2) (maskOf b3) in
  areAllTrue4 p m = (b0 && b1 && b2 && b3)%bool /\
  areAnyTrue4 p m = (b0 || b1 || b2 || b3)%bool /\
  areAllFalse4 p m = negb (b0 || b1 || b2 || b3) /\
  areAnyFalse4 p m = negb (b0 && b1 && b2 && b3) /\
  getTrues4 m = Z.b2z b0 + 2 * Z.b2z b1 + 4 * Z.b2z b2 + 8 * Z.b2z b3.
Proof. intros [] [] [] [] [] m; vm_compute; repeat split; reflexivity. Qed.
Lemma reduce4_gen : forall p (R : Z -> Z -> Prop) (f : Z -> Z -> bool), (forall x y, f x y = true <-> R x y) ->
  forall a b, let m := map2_4 (fun x y => maskOf (f x y)) a b in
  (areAllTrue4 p m = true <-> Forall2 R (lanes4 a) (lanes4 b)) /\
  (areAnyTrue4 p m = true <-> Exists2 R (lanes4 a) (lanes4 b)) /\
  (areAllFalse4 p m = true <-> Forall2 (fun x y => ~ R x y) (lanes4 a) (lanes4 b)) /\
  (areAnyFalse4 p m = true <-> Exists2 (fun x y => ~ R x y) (lanes4 a) (lanes4 b)).
Proof.
  intros p R f Hf [ax ay az aw] [bx by_ bz bw] m.
  unfold m, map2_4, lanes4. cbn [vx vy vz vw].
  destruct (reduce4_mask p (f ax bx) (f ay by_) (f az bz) (f aw bw)) as (-> & -> & -> & -> & _).
  rewrite F2_4, F2_4, E2_4, E2_4, <- !Hf.
  destruct (f ax bx), (f ay by_), (f az bz), (f aw bw); cbn; intuition congruence.
Qed.
Lemma reduce4 : forall p c a b,
  let m := compare4 c a b in let R := relOf c in
  (areAllTrue4 p m = true <-> Forall2 R (lanes4 a) (lanes4 b)) /\
  (areAnyTrue4 p m = true <-> Exists2 R (lanes4 a) (lanes4 b)) /\
  (areAllFalse4 p m = true <-> Forall2 (fun x y => ~ R x y) (lanes4 a) (lanes4 b)) /\
  (areAnyFalse4 p m = true <-> Exists2 (fun x y => ~ R x y) (lanes4 a) (lanes4 b)).
Proof. intros p c a b. exact (reduce4_gen p (relOf c) (cmpLane c) (cmpLane_iff c) a b). Qed.

(** getTrues: bit i of the result is the comparison of lane i. *)
Lemma trues_bits : forall n a b c d, n = Z.b2z a + 2 * Z.b2z b + 4 * Z.b2z c + 8 * Z.b2z d ->
  Z.testbit n 0 = a /\ Z.testbit n 1 = b /\ Z.testbit n 2 = c /\ Z.testbit n 3 = d /\ 0 <= n < 16.
Proof. intros n [] [] [] [] ->; vm_compute; repeat split; congruence. Qed.
Lemma getTrues2_bits : forall c a b, let n := getTrues2 (compare2 c a b) in
  (Z.testbit n 0 = true <-> relOf c (x2 a) (x2 b)) /\
  (Z.testbit n 1 = true <-> relOf c (y2 a) (y2 b)) /\ 0 <= n < 4.
Proof.
  intros c [ax ay] [bx by_] n. unfold n, getTrues2, compare2, map2_2. cbn [x2 y2].
  rewrite <- !cmpLane_iff. destruct (cmpLane c ax bx), (cmpLane c ay by_); vm_compute; intuition congruence.
Qed.
Lemma getTrues3_bits : forall c a b, let n := getTrues3 (compare3 c a b) in
  (Z.testbit n 0 = true <-> relOf c (x3 a) (x3 b)) /\
  (Z.testbit n 1 = true <-> relOf c (y3 a) (y3 b)) /\
  (Z.testbit n 2 = true <-> relOf c (z3 a) (z3 b)) /\ 0 <= n < 8.
Proof.
  intros c [ax ay az] [bx by_ bz] n. unfold n, getTrues3, compare3, map2_3. cbn [x3 y3 z3].
  rewrite <- !cmpLane_iff.
  destruct (cmpLane c ax bx), (cmpLane c ay by_), (cmpLane c az bz); vm_compute; intuition congruence.
Qed.
Lemma getTrues4_bits : forall c a b, let n := getTrues4 (compare4 c a b) in
  (Z.testbit n 0 = true <-> relOf c (vx a) (vx b)) /\
  (Z.testbit n 1 = true <-> relOf c (vy a) (vy b)) /\
  (Z.testbit n 2 = true <-> relOf c (vz a) (vz b)) /\
  (Z.testbit n 3 = true <-> relOf c (vw a) (vw b)) /\ 0 <= n < 16.
Proof.
  intros c [ax ay az aw] [bx by_ bz bw] n.
  assert (E : n = Z.b2z (cmpLane c ax bx) + 2 * Z.b2z (cmpLane c ay by_)
      + 4 * Z.b2z (cmpLane c az bz) + 8 * Z.b2z (cmpLane c aw bw)).
  { apply (reduce4_mask GEN (cmpLane c ax bx) (cmpLane c ay by_) (cmpLane c az bz) (cmpLane c aw bw)). }
  apply trues_bits in E. destruct E as (-> & -> & -> & -> & E). cbn [vx vy vz vw].
  rewrite <- !cmpLane_iff. tauto.
Qed.

(** select by a comparison *)
Lemma sel_mask : forall A c a b (t f : A), chosen (relOf c a b) t f (sel (maskOf (cmpLane c a b)) t f).
Proof.
  intros A c a b t f. pose proof (cmpLane_iff c a b) as H. unfold chosen. destruct (cmpLane c a b).
  - left. split; [tauto | reflexivity].
  - right. split; [intros K; apply H in K; discriminate | reflexivity].
Qed.
