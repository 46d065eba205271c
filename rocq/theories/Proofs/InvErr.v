(** Rounding errors of inverse4x4, followed through the code lane by lane: [q T s k x X] says that
    [x] is within k 2^-24 T of [X], which is at most s T. *)
From Coq Require Import ZArith Bool Reals Lra Lia Psatz List.
From Flocq Require Import Core.Core IEEE754.BinarySingleNaN IEEE754.Binary IEEE754.Bits.
From Verif.Model Require Import Scalar Vec Simd Matrix.
From Verif.Spec Require Import InvErrSpec.
From Verif.Proofs Require Import OrdScalar F32Round F32Err Approx NumericProofs NormProofs MatErrProofs MatrixProofs MatrixInverse.
Import ListNotations.
Local Open Scope R_scope.

Definition q (T s k : R) (x : f32) (X : R) : Prop := fin x /\ Rabs (val x - X) <= k * (u24 * T) /\ Rabs X <= s * T.
(** the scale is far from underflow and overflow *)
Definition fair (T : R) : Prop := 0 < T /\ eta0 <= u24 * T / 1000 /\ T * 1000 <= hugeR.
Definition ok (s k : R) : Prop := 0 <= s <= 100 /\ 0 <= k <= 1000.

Lemma rnd_q : forall T s k x X, fair T -> ok s k -> Rabs (x - X) <= k * (u24 * T) -> Rabs X <= s * T ->
  small x /\ Rabs (rnd x - X) <= (k + s + /100) * (u24 * T).
Proof.
  intros T s k x X (T0 & T1 & T2) ((S0 & S1) & K0 & K1) D B. pose proof u24_val as UV. pose proof u24_pos as UP.
  assert (N : Rabs x <= s * T + k * (u24 * T)).
  { replace x with (X + (x - X)) by ring. eapply Rle_trans; [apply Rabs_triang|]. lra. }
  assert (N' : k * (u24 * T) <= T / 10000).
  { rewrite UV. replace (k * (/ 16777216 * T)) with (k * T / 16777216) by field. nra. }
  assert (N2 : s * T <= 100 * T) by nra.
  split; [apply small_num; lra|].
  pose proof (rnd_err x) as R. replace (rnd x - X) with ((x - X) + (rnd x - x)) by ring.
  eapply Rle_trans; [apply Rabs_triang|].
  assert (u24 * Rabs x <= u24 * (s * T + T / 10000)) by (apply Rmult_le_compat_l; lra).
  assert (u24 * (s * T + T / 10000) = s * (u24 * T) + /10000 * (u24 * T)) by field.
  assert (0 < u24 * T) by (apply Rmult_lt_0_compat; lra). lra.
Qed.
Lemma q_ok_sum : forall s k s' k', ok s k -> ok s' k' -> s + s' <= 100 -> k + k' <= 1000 -> ok (s + s') (k + k').
Proof. unfold ok. intros. lra. Qed.

Section Steps.
Context (T : R) (HT : fair T).
Lemma q_add : forall s k s' k' (x y : f32) X Y, ok (s + s') (k + k') -> q T s k x X -> q T s' k' y Y ->
  q T (s + s') (k + k' + (s + s') + /100) (x + y)%sc (X + Y)%sc.
Proof.
  intros s k s' k' x y X Y K (Fx & Ex & Mx) (Fy & Ey & My). cbn [sadd ScalarR].
  destruct (rnd_q T (s + s') (k + k') (val x + val y) (X + Y) HT K) as [A B].
  - replace (val x + val y - (X + Y)) with ((val x - X) + (val y - Y)) by ring. eapply Rle_trans; [apply Rabs_triang|]. lra.
  - eapply Rle_trans; [apply Rabs_triang|]. lra.
  - destruct (add_small x y Fx Fy A) as [F V]. split; [exact F|]. rewrite V. split; [lra|].
    eapply Rle_trans; [apply Rabs_triang|]. lra.
Qed.
Lemma q_sub : forall s k s' k' (x y : f32) X Y, ok (s + s') (k + k') -> q T s k x X -> q T s' k' y Y ->
  q T (s + s') (k + k' + (s + s') + /100) (x - y)%sc (X - Y)%sc.
Proof.
  intros s k s' k' x y X Y K (Fx & Ex & Mx) (Fy & Ey & My). cbn [ssub ScalarR].
  assert (H : Rabs (X - Y) <= (s + s') * T).
  { unfold Rminus. eapply Rle_trans; [apply Rabs_triang|]. rewrite Rabs_Ropp. lra. }
  destruct (rnd_q T (s + s') (k + k') (val x - val y) (X - Y) HT K) as [A B]; [|exact H|].
  - replace (val x - val y - (X - Y)) with ((val x - X) + - (val y - Y)) by ring. eapply Rle_trans; [apply Rabs_triang|].
    rewrite Rabs_Ropp. lra.
  - destruct (sub_small x y Fx Fy A) as [F V]. split; [exact F|]. rewrite V. split; [lra|exact H].
Qed.
End Steps.
Lemma prod_q : forall A B s k s' k' x y X Y, 0 < A -> 0 < B -> ok s k -> ok s' k' ->
  Rabs (x - X) <= k * (u24 * A) -> Rabs X <= s * A -> Rabs (y - Y) <= k' * (u24 * B) -> Rabs Y <= s' * B ->
  Rabs (x * y - X * Y) <= (s * k' + s' * k + /10) * (u24 * (A * B)) /\ Rabs (X * Y) <= s * s' * (A * B).
Proof.
  intros A B s k s' k' x y X Y A0 B0 (S & K) (S' & K') Ex Mx Ey My. pose proof u24_val as UV. pose proof u24_pos as UP.
  split.
  - eapply Rle_trans; [eapply abs_prod; eassumption|].
    assert (k * k' * u24 <= /10) by (rewrite UV; nra).
    assert (0 < u24 * (A * B)) by (repeat apply Rmult_lt_0_compat; lra).
    replace (k * (u24 * A) * (s' * B) + k' * (u24 * B) * (s * A) + k * (u24 * A) * (k' * (u24 * B)))
      with ((s * k' + s' * k + k * k' * u24) * (u24 * (A * B))) by ring.
    apply Rmult_le_compat_r; lra.
  - rewrite Rabs_mult. replace (s * s' * (A * B)) with ((s * A) * (s' * B)) by ring.
    apply Rmult_le_compat; auto using Rabs_pos.
Qed.
Lemma q_mul : forall A B s k s' k' (x y : f32) X Y, 0 < A -> 0 < B -> fair (A * B) -> ok s k -> ok s' k' ->
  ok (s * s') (s * k' + s' * k + /10) -> q A s k x X -> q B s' k' y Y ->
  q (A * B) (s * s') (s * k' + s' * k + /10 + s * s' + /100) (x * y)%sc (X * Y)%sc.
Proof.
  intros A B s k s' k' x y X Y A0 B0 HT K K' KK (Fx & Ex & Mx) (Fy & Ey & My). cbn [smul ScalarR].
  destruct (prod_q A B s k s' k' _ _ _ _ A0 B0 K K' Ex Mx Ey My) as [P Q].
  destruct (rnd_q (A * B) _ _ _ _ HT KK P Q) as [U V].
  destruct (mul_small x y Fx Fy U) as [F W]. split; [exact F|]. rewrite W. split; [lra|exact Q].
Qed.
Lemma q_fma : forall p A B s k s' k' s2 k2 (x y z : f32) X Y Z, 0 < A -> 0 < B -> fair (A * B) -> ok s k -> ok s' k' ->
  ok (s * s') (s * k' + s' * k + /10) -> ok (s2 + s * s') (k2 + (s * k' + s' * k + /10 + s * s' + /100)) ->
  q A s k x X -> q B s' k' y Y -> q (A * B) s2 k2 z Z ->
  q (A * B) (s2 + s * s') (k2 + (s * k' + s' * k + /10 + s * s' + /100) + (s2 + s * s') + /100) (simdfma p x y z) (simdfma p X Y Z).
Proof.
  intros p A B s k s' k' s2 k2 x y z X Y Z A0 B0 HT K K' KK K3 Qx Qy Qz.
  assert (H1 : q (A * B) (s2 + s * s') (k2 + (s * k' + s' * k + /10 + s * s' + /100) + (s2 + s * s') + /100) (z + x * y)%sc (Z + X * Y)%sc).
  { apply q_add; [exact HT|exact K3|exact Qz|]. apply q_mul; assumption. }
  assert (H2 : q (A * B) (s2 + s * s') (k2 + (s * k' + s' * k + /10 + s * s' + /100) + (s2 + s * s') + /100) (sfma x y z) (sfma X Y Z)).
  { destruct Qx as (Fx & Ex & Mx). destruct Qy as (Fy & Ey & My). destruct Qz as (Fz & Ez & Mz).
    destruct (prod_q A B s k s' k' _ _ _ _ A0 B0 K K' Ex Mx Ey My) as [P Q]. cbn [sfma ScalarR].
    assert (M : Rabs (X * Y + Z) <= (s2 + s * s') * (A * B)) by (eapply Rle_trans; [apply Rabs_triang|lra]).
    assert (PT : 0 < u24 * (A * B)) by (apply Rmult_lt_0_compat; [apply u24_pos|apply HT]).
    assert (E : Rabs (val x * val y + val z - (X * Y + Z)) <= (k2 + (s * k' + s' * k + /10 + s * s' + /100)) * (u24 * (A * B))).
    { replace (val x * val y + val z - (X * Y + Z)) with ((val x * val y - X * Y) + (val z - Z)) by ring.
      eapply Rle_trans; [apply Rabs_triang|]. destruct KK as [[? _] _].
      assert (0 <= (s * s') * (u24 * (A * B))) by (apply Rmult_le_pos; lra). lra. }
    destruct (rnd_q (A * B) _ _ _ _ HT K3 E M) as [U V].
    destruct (fma_small x y z Fx Fy Fz U) as [F W]. split; [exact F|]. rewrite W. split; [lra|exact M]. }
  destruct p; assumption.
Qed.
Lemma q_weak : forall T s k s' k' x X, 0 < T -> q T s k x X -> s <= s' -> k <= k' -> q T s' k' x X.
Proof.
  intros T s k s' k' x X T0 (F & E & M) Hs Hk. pose proof u24_pos. split; [exact F|].
  assert (0 < u24 * T) by (apply Rmult_lt_0_compat; lra). split; nra.
Qed.

(** the same for every lane of a vector *)
Definition qv (T s k : R) (v : vec4 f32) (V : vec4 R) : Prop :=
  q T s k (vx v) (vx V) /\ q T s k (vy v) (vy V) /\ q T s k (vz v) (vz V) /\ q T s k (vw v) (vw V).
Lemma qv_lane : forall T s k v V i, qv T s k v V -> q T s k (lane v i) (lane V i).
Proof. intros T s k v V i (A & B & C & D). unfold lane. destruct i as [|[?|[?|?|]|]|?]; assumption. Qed.
Lemma qv_shuf : forall T s k v V w W d c b a, qv T s k v V -> qv T s k w W -> qv T s k (shuf v w d c b a) (shuf V W d c b a).
Proof. intros. unfold shuf. split; [|split; [|split]]; cbn [vx vy vz vw]; apply qv_lane; assumption. Qed.
Lemma qv_sub : forall T s k s' k' (x y : vec4 f32) X Y, fair T -> ok (s + s') (k + k') -> qv T s k x X -> qv T s' k' y Y ->
  qv T (s + s') (k + k' + (s + s') + /100) (vsub x y) (vsub X Y).
Proof. intros T s k s' k' x y X Y HT K (A & B & C & D) (A' & B' & C' & D'). split; [|split; [|split]]; cbn; apply (q_sub T HT); assumption. Qed.
Lemma qv_add : forall T s k s' k' (x y : vec4 f32) X Y, fair T -> ok (s + s') (k + k') -> qv T s k x X -> qv T s' k' y Y ->
  qv T (s + s') (k + k' + (s + s') + /100) (vadd x y) (vadd X Y).
Proof. intros T s k s' k' x y X Y HT K (A & B & C & D) (A' & B' & C' & D'). split; [|split; [|split]]; cbn; apply (q_add T HT); assumption. Qed.
Lemma qv_mul : forall A B s k s' k' (x y : vec4 f32) X Y, 0 < A -> 0 < B -> fair (A * B) -> ok s k -> ok s' k' ->
  ok (s * s') (s * k' + s' * k + /10) -> qv A s k x X -> qv B s' k' y Y ->
  qv (A * B) (s * s') (s * k' + s' * k + /10 + s * s' + /100) (vmul x y) (vmul X Y).
Proof. intros A B s k s' k' x y X Y A0 B0 HT K K' KK (P & Q & C & D) (P' & Q' & C' & D'). split; [|split; [|split]]; cbn; apply q_mul; assumption. Qed.
Lemma qv_fma : forall p A B s k s' k' s2 k2 (x y z : vec4 f32) X Y Z, 0 < A -> 0 < B -> fair (A * B) -> ok s k -> ok s' k' ->
  ok (s * s') (s * k' + s' * k + /10) -> ok (s2 + s * s') (k2 + (s * k' + s' * k + /10 + s * s' + /100)) ->
  qv A s k x X -> qv B s' k' y Y -> qv (A * B) s2 k2 z Z ->
  qv (A * B) (s2 + s * s') (k2 + (s * k' + s' * k + /10 + s * s' + /100) + (s2 + s * s') + /100) (vfma p x y z) (vfma p X Y Z).
Proof.
  intros p A B s k s' k' s2 k2 x y z X Y Z A0 B0 HT K K' KK K3 (P & Q & C & D) (P' & Q' & C' & D') (P2 & Q2 & C2 & D2).
  split; [|split; [|split]]; cbn [vx vy vz vw vfma]; apply q_fma; assumption.
Qed.
Lemma qv_weak : forall T s k s' k' x X, 0 < T -> qv T s k x X -> s <= s' -> k <= k' -> qv T s' k' x X.
Proof. intros T s k s' k' x X T0 (A & B & C & D) Hs Hk. split; [|split; [|split]]; eapply q_weak; eassumption. Qed.
Definition qm (T s k : R) (m : mat4 f32) (M : mat4 R) : Prop :=
  qv T s k (c0 m) (c0 M) /\ qv T s k (c1 m) (c1 M) /\ qv T s k (c2 m) (c2 M) /\ qv T s k (c3 m) (c3 M).

(** the scales: powers of the bound of the entries *)
Section Scale.
Context (b : R) (Hb : bpow radix2 (-24) <= b <= bpow radix2 24).
Notation B2 := (b * b).
Notation B3 := (b * (b * b)).
Notation B4 := (b * (b * (b * b))).
Lemma b_pos : 0 < b. Proof. pose proof (bpow_gt_0 radix2 (-24)). lra. Qed.
Lemma fairs : fair b /\ fair B2 /\ fair B3 /\ fair B4.
Proof.
  pose proof b_pos as P. destruct Hb as [L U].
  assert (L2 : bpow radix2 (-48) <= B2).
  { change (-48)%Z with (-24 + -24)%Z. rewrite bpow_plus. apply Rmult_le_compat; try lra; apply bpow_ge_0. }
  assert (L3 : bpow radix2 (-72) <= B3).
  { change (-72)%Z with (-24 + -48)%Z. rewrite bpow_plus. apply Rmult_le_compat; try lra; apply bpow_ge_0. }
  assert (L4 : bpow radix2 (-96) <= B4).
  { change (-96)%Z with (-24 + -72)%Z. rewrite bpow_plus. apply Rmult_le_compat; try lra; apply bpow_ge_0. }
  assert (P2 : 0 < B2) by (apply Rmult_lt_0_compat; lra).
  assert (P3 : 0 < B3) by (apply Rmult_lt_0_compat; lra).
  assert (P4 : 0 < B4) by (apply Rmult_lt_0_compat; lra).
  assert (U2 : B2 <= bpow radix2 48).
  { change 48%Z with (24 + 24)%Z. rewrite bpow_plus. apply Rmult_le_compat; lra. }
  assert (U3 : B3 <= bpow radix2 72).
  { change 72%Z with (24 + 48)%Z. rewrite bpow_plus. apply Rmult_le_compat; lra. }
  assert (U4 : B4 <= bpow radix2 96).
  { change 96%Z with (24 + 72)%Z. rewrite bpow_plus. apply Rmult_le_compat; lra. }
  assert (G : forall T, bpow radix2 (-96) <= T -> T <= bpow radix2 96 -> fair T).
  { intros T TL TU. pose proof (bpow_gt_0 radix2 (-96)). split; [lra|]. split.
    - assert (E : eta0 = u24 * bpow radix2 (-96) * bpow radix2 (-30)).
      { change u24 with (bpow radix2 (-24)). rewrite <- !bpow_plus. reflexivity. }
      rewrite E. pose proof u24_pos.
      assert (bpow radix2 (-30) <= / 1000) by (cbn; lra).
      assert (u24 * bpow radix2 (-96) <= u24 * T) by (apply Rmult_le_compat_l; lra).
      assert (0 < u24 * bpow radix2 (-96)) by (apply Rmult_lt_0_compat; lra).
      unfold Rdiv. apply Rmult_le_compat; try lra. apply bpow_ge_0.
    - eapply Rle_trans; [apply Rmult_le_compat_r; [lra|exact TU]|]. cbn. lra. }
  assert (W : forall e f, (e <= f)%Z -> bpow radix2 e <= bpow radix2 f) by (intros; apply bpow_le; assumption).
  pose proof (W (-96) (-24) ltac:(lia))%Z. pose proof (W (-96) (-48) ltac:(lia))%Z. pose proof (W (-96) (-72) ltac:(lia))%Z.
  pose proof (W 24 96 ltac:(lia))%Z. pose proof (W 48 96 ltac:(lia))%Z. pose proof (W 72 96 ltac:(lia))%Z.
  split; [|split; [|split]]; apply G; lra.
Qed.
Lemma b2_pos : 0 < B2. Proof. apply fairs. Qed.
Lemma b3_pos : 0 < B3. Proof. apply fairs. Qed.
Lemma b4_pos : 0 < B4. Proof. apply fairs. Qed.
Ltac scale := first [exact b_pos | exact b2_pos | exact b3_pos | exact b4_pos | exact (proj1 (proj2 fairs)) |
  exact (proj1 (proj2 (proj2 fairs))) | exact (proj2 (proj2 (proj2 fairs))) | exact (proj1 fairs)].
(** walks through an expression and its exact counterpart; the conditions on the numbers remain *)
Ltac walk := lazymatch goal with
  | |- qv _ _ _ (shuf _ _ _ _ _ _) _ => eapply qv_shuf; [walk|walk]
  | |- qv _ _ _ (vsub _ _) _ => eapply qv_sub; [scale| |walk|walk]
  | |- qv _ _ _ (vadd _ _) _ => eapply qv_add; [scale| |walk|walk]
  | |- qv _ _ _ (vmul _ _) _ => eapply qv_mul; [scale|scale|scale| | | |walk|walk]
  | |- qv _ _ _ (vfma _ _ _ _) _ => eapply qv_fma; [scale|scale|scale| | | | |walk|walk|walk]
  | |- _ => eassumption
  end.
Ltac walked := (eapply qv_weak; [scale|walk| |]); unfold ok; lra.
Lemma cofSSE_q : forall p (m : mat4 f32) (M : mat4 R), qm b 1 0 m M ->
  qv b 1 0 (fst (cofactorsSSE p m)) (fst (cofactorsSSE p M)) /\
  qm B3 6 40 (snd (cofactorsSSE p m)) (snd (cofactorsSSE p M)).
Proof.
  intros p [m0 m1 m2 m3] [M0 M1 M2 M3] (H0 & H1 & H2 & H3). cbn [c0 c1 c2 c3] in *.
  cbv beta iota zeta delta [cofactorsSSE fst snd c0 c1 c2 c3]. split; [walk|].
  unfold qm; cbn [c0 c1 c2 c3]. split; [|split; [|split]].
  - walked.
  - walked.
  - walked.
  - walked.
Qed.

(** scalar version, for the portable code *)
Lemma q_one : q 1 1 0 f1 f1 /\ q 1 1 0 (- f1)%sc (- f1)%sc.
Proof.
  destruct (lit_Z 1 ltac:(lia)) as [F V]. assert (E1 : (f1 : R) = 1) by (cbv [f1 slit ScalarR Rlit]; cbn; lra).
  split; (split; [|split]).
  - exact F.
  - rewrite E1. replace (val (f1 : f32)) with 1 by (symmetry; exact V). rewrite Rminus_eq_0, Rabs_R0. lra.
  - rewrite E1, Rabs_R1. lra.
  - exact (proj1 (neg_fin _ F)).
  - cbn [sneg ScalarR]. rewrite E1, (proj2 (neg_fin (f1 : f32) F)). replace (val (f1 : f32)) with 1 by (symmetry; exact V).
    replace (- (1) - - (1)) with 0 by ring. rewrite Rabs_R0. lra.
  - cbn [sneg ScalarR]. rewrite E1, Rabs_Ropp, Rabs_R1. lra.
Qed.
Lemma q_sign : forall T s k (x y : f32) X Y, 0 < T -> fair T -> ok s k -> ok (s * 1) (s * 0 + 1 * k + /10) ->
  q T s k x X -> q 1 1 0 y Y -> q T (s * 1) (s * 0 + 1 * k + /10 + s * 1 + /100) (x * y)%sc (X * Y)%sc.
Proof.
  intros T s k x y X Y T0 HT K K' Qx Qy. rewrite <- (Rmult_1_r T) at 1.
  apply q_mul; try assumption; try lra; [rewrite Rmult_1_r; exact HT|unfold ok; lra].
Qed.
Ltac swalk := lazymatch goal with
  | |- q _ _ _ (_ * f1)%sc _ => eapply q_sign; [scale|scale| | |swalk|exact (proj1 q_one)]
  | |- q _ _ _ (_ * - f1)%sc _ => eapply q_sign; [scale|scale| | |swalk|exact (proj2 q_one)]
  | |- q _ _ _ (_ - _)%sc _ => eapply q_sub; [scale| |swalk|swalk]
  | |- q _ _ _ (_ + _)%sc _ => eapply q_add; [scale| |swalk|swalk]
  | |- q _ _ _ (_ * _)%sc _ => eapply q_mul; [scale|scale|scale| | | |swalk|swalk]
  | |- _ => eassumption
  end.
Ltac swalked := (eapply q_weak; [scale|swalk| |]); unfold ok; lra.
Lemma cof4_q : forall (m : mat4 f32) (M : mat4 R), qm b 1 0 m M -> qm B3 6 40 (cofactors4 m) (cofactors4 M).
Proof.
  intros [m0 m1 m2 m3] [M0 M1 M2 M3] (H0 & H1 & H2 & H3). cbn [c0 c1 c2 c3] in *.
  destruct m0 as [m0x m0y m0z m0w], m1 as [m1x m1y m1z m1w], m2 as [m2x m2y m2z m2w], m3 as [m3x m3y m3z m3w].
  destruct M0 as [M0x M0y M0z M0w], M1 as [M1x M1y M1z M1w], M2 as [M2x M2y M2z M2w], M3 as [M3x M3y M3z M3w].
  destruct H0 as (? & ? & ? & ?), H1 as (? & ? & ? & ?), H2 as (? & ? & ? & ?), H3 as (? & ? & ? & ?).
  cbn [vx vy vz vw] in *.
  cbv beta iota zeta delta [cofactors4 map2_4 vx vy vz vw].
  unfold qm, qv; cbn [c0 c1 c2 c3 vx vy vz vw].
  split; [|split; [|split]]; (split; [|split; [|split]]); swalked.
Qed.
Lemma det_q : forall (r x : vec4 f32) X R0, qv b 1 0 r R0 -> qv B3 6 40 x X ->
  let d := vmul r x in let D := vmul R0 X in
  q B4 24 240 ((vx d + vy d) + (vz d + vw d))%sc ((vx D + vy D) + (vz D + vw D))%sc /\
  q B4 24 240 ((vw d + vz d) + (vy d + vx d))%sc ((vw D + vz D) + (vy D + vx D))%sc.
Proof.
  intros r x X R0 (A & B & C & D0) (A' & B' & C' & D') d D. subst d D.
  cbv beta iota zeta delta [vmul map2_4]. cbn [vx vy vz vw]. split; swalked.
Qed.

(** the division by the determinant *)
Lemma cramer_step : forall (d x : f32) D X, q B4 24 240 d D -> q B3 6 40 x X -> B4 / 16384 <= Rabs D ->
  D <> 0 /\ fin ((f1 / d) * x)%sc /\ fin (x * (f1 / d))%sc /\
  Rabs (val ((f1 / d) * x)%sc - / D * X) <= (70 * (B3 / Rabs D) + 1900 * (b * (B3 * B3) / (D * D))) * u24 /\
  Rabs (val (x * (f1 / d))%sc - / D * X) <= (70 * (B3 / Rabs D) + 1900 * (b * (B3 * B3) / (D * D))) * u24.
Proof.
  intros d x D X (Fd & Ed & Md) (Fx & Ex & Mx) HA.
  pose proof b_pos as P1. pose proof b3_pos as P3. pose proof b4_pos as P4.
  pose proof u24_val as UV. pose proof u24_pos as UP. pose proof eta0_pos as EP.
  set (T := B4) in *. set (S := B3) in *. set (A := Rabs D) in *.
  assert (TS : T = b * S) by reflexivity.
  assert (A0 : 0 < A) by lra.
  assert (DN : D <> 0) by (intros E; subst A; rewrite E, Rabs_R0 in A0; lra).
  set (r := / A). assert (r0 : 0 < r) by (apply Rinv_0_lt_compat; exact A0).
  assert (rA : r * A = 1) by (unfold r; field; lra).
  assert (RD : Rabs (/ D) = r) by (unfold r, A; apply Rabs_inv).
  assert (Tr : T * r <= 16384) by (apply Rle_trans with (16384 * (r * A)); [nra|rewrite rA; lra]).
  assert (Ar : 1 <= 24 * (T * r)) by (rewrite <- rA; nra).
  (* the computed determinant *)
  assert (Ed' : Rabs (val d - D) <= 0.235 * A) by (eapply Rle_trans; [exact Ed|]; rewrite UV; lra).
  assert (Ld : 0.765 * A <= Rabs (val d)).
  { assert (A <= Rabs (val d) + Rabs (val d - D)).
    { unfold A. replace D with (val d + - (val d - D)) at 1 by ring. eapply Rle_trans; [apply Rabs_triang|]. rewrite Rabs_Ropp. lra. }
    lra. }
  assert (dN : val d <> 0) by (intros E; rewrite E, Rabs_R0 in Ld; lra).
  set (g := / val d).
  assert (Gg : Rabs g <= 1.3073 * r).
  { unfold g. rewrite Rabs_inv. apply Rmult_le_reg_r with (Rabs (val d)); [lra|]. rewrite Rinv_l by lra. nra. }
  assert (GD : Rabs (g - / D) <= 313.8 * (u24 * T * (r * r))).
  { replace (g - / D) with (- (val d - D) * (g * / D)) by (unfold g; field; split; assumption).
    rewrite Rabs_mult, Rabs_mult, Rabs_Ropp, RD.
    apply Rle_trans with ((240 * (u24 * T)) * (1.3073 * r * r)).
    - apply Rmult_le_compat; [apply Rabs_pos|apply Rmult_le_pos; [apply Rabs_pos|lra]|exact Ed|apply Rmult_le_compat_r; lra].
    - assert (0 <= u24 * T * (r * r)) by (repeat apply Rmult_le_pos; lra). lra. }
  (* the reciprocal *)
  assert (bT : T <= bpow radix2 96 /\ b <= bpow radix2 24).
  { split; [|apply Hb]. unfold T. change 96%Z with (24 + (24 + (24 + 24)))%Z. rewrite !bpow_plus.
    pose proof b2_pos. repeat (apply Rmult_le_compat; [| | |]); try lra; try apply Rmult_le_pos; lra. }
  assert (eT : eta0 * bpow radix2 20 <= u24 * r).
  { assert (E : eta0 * bpow radix2 20 = u24 * bpow radix2 (-106)).
    { change u24 with (bpow radix2 (-24)). change eta0 with (bpow radix2 (-150)). rewrite <- !bpow_plus. reflexivity. }
    rewrite E. apply Rmult_le_compat_l; [lra|]. apply Rmult_le_reg_r with A; [exact A0|]. rewrite rA.
    apply Rle_trans with (bpow radix2 (-106) * (24 * bpow radix2 96)).
    - apply Rmult_le_compat_l; [apply bpow_ge_0|]. lra.
    - replace (bpow radix2 (-106) * (24 * bpow radix2 96)) with (24 * (bpow radix2 (-106) * bpow radix2 96)) by ring.
      rewrite <- bpow_plus. cbn. lra. }
  assert (big : bpow radix2 20 = 1048576) by (cbn; lra). rewrite big in eT.
  destruct (lit_Z 1 ltac:(lia)) as [F1 V1].
  assert (E1 : val (f1 : f32) = 1) by exact V1.
  assert (Gi : val (f1 : f32) / val d = g) by (rewrite E1; unfold g, Rdiv; ring).
  assert (rB : r <= bpow radix2 110).
  { apply Rmult_le_reg_r with T; [exact P4|]. apply Rle_trans with 16384; [lra|].
    apply Rle_trans with (bpow radix2 110 * bpow radix2 (-96)); [rewrite <- bpow_plus; cbn; lra|].
    apply Rmult_le_compat_l; [apply bpow_ge_0|]. unfold T.
    change (-96)%Z with (-24 + (-24 + (-24 + -24)))%Z. rewrite !bpow_plus.
    pose proof (bpow_ge_0 radix2 (-24)). destruct Hb.
    repeat (apply Rmult_le_compat; [| | |]); try lra; repeat apply Rmult_le_pos; lra. }
  destruct (div_small (f1 : f32) d F1 Fd dN) as [Fk Vk].
  { rewrite Gi. apply small_num. eapply Rle_trans; [exact Gg|].
    apply Rle_trans with (1.3073 * bpow radix2 110); [lra|cbn; lra]. }
  rewrite Gi in Vk. set (k := ((f1 : f32) / d)%sc) in *.
  pose proof (rnd_err g) as Rg. rewrite <- Vk in Rg.
  assert (Kg : Rabs (val k - g) <= 1.3083 * (u24 * r)).
  { eapply Rle_trans; [exact Rg|]. assert (u24 * Rabs g <= u24 * (1.3073 * r)) by (apply Rmult_le_compat_l; lra). lra. }
  assert (ur : u24 * r <= r / 16777216) by (rewrite UV; lra).
  assert (Kk : Rabs (val k) <= 1.3074 * r).
  { replace (val k) with (g + (val k - g)) by ring. eapply Rle_trans; [apply Rabs_triang|]. lra. }
  assert (KD : Rabs (val k - / D) <= 313.8 * (u24 * T * (r * r)) + 1.3083 * (u24 * r)).
  { replace (val k - / D) with ((val k - g) + (g - / D)) by ring. eapply Rle_trans; [apply Rabs_triang|]. lra. }
  (* the product *)
  assert (Nx : Rabs (val x) <= 6.001 * S).
  { replace (val x) with (X + (val x - X)) by ring. eapply Rle_trans; [apply Rabs_triang|]. rewrite UV in Ex. lra. }
  set (p1 := u24 * (S * r)). set (p2 := u24 * (S * T * (r * r))).
  assert (Sr0 : 0 < S * r) by (apply Rmult_lt_0_compat; lra).
  assert (PE : Rabs (val k * val x - / D * X) <= 60.15 * p1 + 1882.8 * p2).
  { replace (val k * val x - / D * X) with ((val x - X) * val k + X * (val k - / D)) by ring.
    eapply Rle_trans; [apply Rabs_triang|]. rewrite !Rabs_mult.
    assert (H1 : Rabs (val x - X) * Rabs (val k) <= 40 * (u24 * S) * (1.3074 * r)) by (apply Rmult_le_compat; auto using Rabs_pos).
    assert (H2 : Rabs X * Rabs (val k - / D) <= 6 * S * (313.8 * (u24 * T * (r * r)) + 1.3083 * (u24 * r)))
      by (apply Rmult_le_compat; auto using Rabs_pos).
    assert (0 <= p1) by (unfold p1; apply Rmult_le_pos; lra).
    unfold p1, p2 in *. lra. }
  assert (PM : Rabs (val k * val x) <= 7.846 * (S * r)).
  { rewrite Rabs_mult. apply Rle_trans with (1.3074 * r * (6.001 * S)); [apply Rmult_le_compat; auto using Rabs_pos|]. lra. }
  assert (Sb : S * r <= bpow radix2 40).
  { apply Rmult_le_reg_r with b; [exact P1|]. replace (S * r * b) with (T * r) by (rewrite TS; ring).
    apply Rle_trans with (bpow radix2 40 * bpow radix2 (-24)); [rewrite <- bpow_plus; cbn; lra|].
    apply Rmult_le_compat_l; [apply bpow_ge_0|apply Hb]. }
  assert (sm : small (val k * val x)).
  { apply small_num. eapply Rle_trans; [exact PM|]. apply Rle_trans with (7.846 * bpow radix2 40); [lra|cbn; lra]. }
  assert (eP : eta0 <= 0.001 * p1).
  { assert (bpow radix2 (-29) <= S * r).
    { apply Rmult_le_reg_r with b; [exact P1|]. replace (S * r * b) with (T * r) by (rewrite TS; ring).
      apply Rle_trans with (bpow radix2 (-29) * bpow radix2 24); [apply Rmult_le_compat_l; [apply bpow_ge_0|apply bT]|].
      rewrite <- bpow_plus. cbn. lra. }
    unfold p1. apply Rle_trans with (0.001 * (u24 * bpow radix2 (-29))).
    - change u24 with (bpow radix2 (-24)). rewrite <- bpow_plus. change eta0 with (bpow radix2 (-150)). cbn. lra.
    - apply Rmult_le_compat_l; [lra|]. apply Rmult_le_compat_l; lra. }
  assert (Fin : Rabs (rnd (val k * val x) - / D * X) <= 70 * p1 + 1900 * p2).
  { pose proof (rnd_err (val k * val x)) as R.
    assert (u24 * Rabs (val k * val x) <= u24 * (7.846 * (S * r))) by (apply Rmult_le_compat_l; lra).
    replace (rnd (val k * val x) - / D * X) with ((rnd (val k * val x) - val k * val x) + (val k * val x - / D * X)) by ring.
    eapply Rle_trans; [apply Rabs_triang|].
    assert (0 <= p2) by (unfold p2; repeat apply Rmult_le_pos; lra).
    assert (0 <= p1) by (unfold p1; apply Rmult_le_pos; lra). unfold p1 in *. lra. }
  assert (ED : (70 * (S / A) + 1900 * (b * (S * S) / (D * D))) * u24 = 70 * p1 + 1900 * p2).
  { assert (DD : / (D * D) = r * r).
    { rewrite Rinv_mult. rewrite <- RD. rewrite <- Rabs_mult. symmetry. apply Rabs_pos_eq. apply Rle_0_sqr. }
    unfold Rdiv. rewrite DD. fold r. unfold p1, p2. rewrite TS. ring. }
  rewrite ED.
  destruct (mul_small k x Fk Fx sm) as [Fp Vp].
  destruct (mul_small x k Fx Fk) as [Fq Vq]; [rewrite Rmult_comm; exact sm|].
  split; [exact DN|]. split; [exact Fp|]. split; [exact Fq|]. split; [rewrite Vp; exact Fin|].
  rewrite Vq, (Rmult_comm (val x)). exact Fin.
Qed.

Lemma near_cols : forall e (x : mat4 f32) (n : mat4 R),
  (forall f : forall A, vec4 A -> A, f = @vx \/ f = @vy \/ f = @vz \/ f = @vw ->
   (fin (f _ (c0 x)) /\ Rabs (val (f _ (c0 x)) - f _ (c0 n)) <= e) /\ (fin (f _ (c1 x)) /\ Rabs (val (f _ (c1 x)) - f _ (c1 n)) <= e) /\
   (fin (f _ (c2 x)) /\ Rabs (val (f _ (c2 x)) - f _ (c2 n)) <= e) /\ (fin (f _ (c3 x)) /\ Rabs (val (f _ (c3 x)) - f _ (c3 n)) <= e)) ->
  entriesNear e x n.
Proof.
  intros e x n H i j Hi Hj.
  destruct (H (@vx)) as (X0 & X1 & X2 & X3); [auto|]. destruct (H (@vy)) as (Y0 & Y1 & Y2 & Y3); [auto|].
  destruct (H (@vz)) as (Z0 & Z1 & Z2 & Z3); [auto|]. destruct (H (@vw)) as (W0 & W1 & W2 & W3); [auto|].
  destruct i as [|[|[|[|]]]]; [| | | |lia]; (destruct j as [|[|[|[|]]]]; [| | | |lia]); assumption.
Qed.
Theorem inverse_q : forall p (m : mat4 f32) (M : mat4 R), qm b 1 0 m M -> B4 / 16384 <= Rabs (det 4 (ent4 M)) ->
  entriesNear ((70 * (B3 / Rabs (det 4 (ent4 M))) + 1900 * (b * (B3 * B3) / (det 4 (ent4 M) * det 4 (ent4 M)))) * u24)
    (inverse4x4 p m) (scaleM4 (/ det 4 (ent4 M)) (adj4 M)).
Proof.
  intros p m M Q HD. set (e := (70 * _ + _) * u24).
  assert (NEONe : cofactorsNEON NEON m = cofactorsSSE NEON m) by apply cofactorsNEON_SSE.
  destruct (cofSSE_q p m M Q) as [Qr Qc]. pose proof (cof4_q m M Q) as Q4. rewrite cofactors4_adj in Q4.
  assert (EX := cofactorsSSE_adj p M). rewrite EX in Qr, Qc. cbn [fst snd] in Qr, Qc.
  set (D := det 4 (ent4 M)) in *.
  destruct (adj4 M) as [A0 A1 A2 A3] eqn:EA.
  assert (D1 := expand_det M _ _ _ _ EA). assert (D2 := expand_det_col M _ _ _ _ EA). fold D in D1, D2.
  assert (SIMD : forall d r x0 x1 x2 x3, cofactorsSSE p m = (r, M4 x0 x1 x2 x3) ->
    (d = let t := vmul r x0 in ((vx t + vy t) + (vz t + vw t))%sc) \/ (d = let t := vmul r x0 in ((vw t + vz t) + (vy t + vx t))%sc) ->
    forall x, x = M4 (vmul (dup4 (f1 / d)%sc) x0) (vmul (dup4 (f1 / d)%sc) x1) (vmul (dup4 (f1 / d)%sc) x2) (vmul (dup4 (f1 / d)%sc) x3) ->
    entriesNear e x (scaleM4 (/ D) (M4 A0 A1 A2 A3))).
  { intros d r x0 x1 x2 x3 EC Ed x ->. rewrite EC in Qr, Qc. cbn [fst snd] in Qr, Qc.
    destruct Qc as (K0 & K1 & K2 & K3). cbn [c0 c1 c2 c3] in K0, K1, K2, K3.
    destruct (det_q _ _ _ _ Qr K0) as [G1 G2].
    assert (QD : q B4 24 240 d D).
    { destruct Ed as [-> | ->]; cbv zeta.
      - replace D with (let t := vmul {| vx := vx (c0 M); vy := vx (c1 M); vz := vx (c2 M); vw := vx (c3 M) |} A0 in
          ((vx t + vy t) + (vz t + vw t))%sc); [exact G1|]. rewrite <- D1. cbv zeta. mcbn. ring.
      - replace D with (let t := vmul {| vx := vx (c0 M); vy := vx (c1 M); vz := vx (c2 M); vw := vx (c3 M) |} A0 in
          ((vw t + vz t) + (vy t + vx t))%sc); [exact G2|]. rewrite <- D1. cbv zeta. mcbn. ring. }
    apply near_cols. intros f Hf.
    assert (L : forall y Y, qv B3 6 40 y Y ->
      fin (f _ (vmul (dup4 (f1 / d)%sc) y)) /\ Rabs (val (f _ (vmul (dup4 (f1 / d)%sc) y)) - f _ (vmul (dup4 (/ D)) Y)) <= e).
    { intros y Y (Y0 & Y1 & Y2 & Y3).
      assert (S1 : forall a A, q B3 6 40 a A -> fin ((f1 / d) * a)%sc /\ Rabs (val ((f1 / d) * a)%sc - / D * A) <= e).
      { intros a A Qa. destruct (cramer_step d a D A QD Qa HD) as (_ & P1 & _ & P2 & _). split; assumption. }
      destruct Hf as [-> | [-> | [-> | ->]]]; apply S1; assumption. }
    cbn [c0 c1 c2 c3]. rewrite scale_col. cbn [c0 c1 c2 c3]. repeat apply conj; first [apply (L _ _ K0)|apply (L _ _ K1)|apply (L _ _ K2)|apply (L _ _ K3)]. }
  destruct (cofactorsSSE p m) as [r [x0 x1 x2 x3]] eqn:EC.
  destruct p.
  - eapply SIMD; [reflexivity|right; reflexivity|]. unfold inverse4x4. rewrite EC. reflexivity.
  - eapply SIMD; [reflexivity|right; reflexivity|]. unfold inverse4x4. rewrite EC. reflexivity.
  - eapply SIMD; [reflexivity|right; reflexivity|]. unfold inverse4x4. rewrite EC. reflexivity.
  - eapply SIMD; [reflexivity|left; reflexivity|]. unfold inverse4x4. rewrite NEONe, EC. reflexivity.
  - clear SIMD Qr Qc EC EX. unfold inverse4x4, inverse4. destruct (cofactors4 m) as [y0 y1 y2 y3].
    destruct Q4 as (K0 & K1 & K2 & K3). cbn [c0 c1 c2 c3] in K0, K1, K2, K3.
    assert (QR : qv B3 6 40 (V4 (vx y0) (vx y1) (vx y2) (vx y3)) (V4 (vx A0) (vx A1) (vx A2) (vx A3))).
    { split; [apply K0|split; [apply K1|split; [apply K2|apply K3]]]. }
    destruct (det_q _ _ _ _ (proj1 Q) QR) as [G1 _]. cbv zeta in G1.
    cbv zeta. set (d := (_ + _)%sc).
    assert (QD : q B4 24 240 d D).
    { replace D with (let t := vmul (c0 M) {| vx := vx A0; vy := vx A1; vz := vx A2; vw := vx A3 |} in
          ((vx t + vy t) + (vz t + vw t))%sc); [exact G1|]. rewrite <- D2. cbv zeta. mcbn. ring. }
    apply near_cols. intros f Hf.
    assert (L : forall y Y, qv B3 6 40 y Y ->
      fin (f _ (scalep4 y (f1 / d)%sc)) /\ Rabs (val (f _ (scalep4 y (f1 / d)%sc)) - f _ (vmul (dup4 (/ D)) Y)) <= e).
    { intros y Y (Y0 & Y1 & Y2 & Y3).
      assert (S1 : forall a A, q B3 6 40 a A -> fin (a * (f1 / d))%sc /\ Rabs (val (a * (f1 / d))%sc - / D * A) <= e).
      { intros a A Qa. destruct (cramer_step d a D A QD Qa HD) as (_ & _ & P1 & _ & P2). split; assumption. }
      destruct Hf as [-> | [-> | [-> | ->]]]; apply S1; assumption. }
    cbn [c0 c1 c2 c3]. rewrite scale_col. cbn [c0 c1 c2 c3]. repeat apply conj; first [apply (L _ _ K0)|apply (L _ _ K1)|apply (L _ _ K2)|apply (L _ _ K3)].
Qed.
End Scale.
