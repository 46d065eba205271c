(** Model matrices in binary32. *)
From Coq Require Import ZArith Bool List Reals Lra Lia Psatz.
From Flocq Require Import Core.Core IEEE754.Binary.
From Verif.Model Require Import Scalar Vec Simd Lanes Quaternion Matrix Transform.
From Verif.Spec Require Import ModelErrSpec.
From Verif.Proofs Require Import OrdScalar F32Round F32Err Approx NormProofs RayErr SphereErr CullProofs DepthProofs OrthoErr MatErrProofs QuatErr QuatMat.
Import ListNotations.
Local Open Scope R_scope.

(** ** Sums with at most one term *)
Lemma single_step : forall p (a b c : f32), fin a -> fin b -> fin c -> small (val c) -> small (val a * val b) -> (val a * val b = 0 \/ val c = 0) ->
  fin (simdfma p a b c) /\ val (simdfma p a b c) = rnd (val a * val b + val c).
Proof.
  intros p a b c Fa Fb Fc Sc Sp D.
  assert (S : small (val a * val b + val c)) by (destruct D as [D|D]; rewrite D; [rewrite Rplus_0_l|rewrite Rplus_0_r]; assumption).
  assert (G1 : fin (sfma a b c) /\ val (sfma a b c) = rnd (val a * val b + val c)) by (apply fma_small; assumption).
  assert (G2 : fin (c + a * b)%sc /\ val (c + a * b)%sc = rnd (val a * val b + val c)).
  { destruct (mul_small a b Fa Fb Sp) as [F V]. destruct D as [D|D].
    - rewrite D, rnd_0 in V. destruct (add_small c (a * b)%sc Fc F) as [F' V']; [rewrite V, Rplus_0_r; exact Sc|].
      split; [exact F'|]. rewrite V', V, D. f_equal. ring.
    - destruct (add_small c (a * b)%sc Fc F) as [F' V']; [rewrite D, Rplus_0_l, V; apply rnd_small_le, Sp|].
      split; [exact F'|]. rewrite V', D, Rplus_0_l, Rplus_0_r, <- V. apply rnd_val. }
  destruct p; first [exact G1 | exact G2].
Qed.
Definition four (p : path) (a b c d x y z w : f32) : f32 :=
  match p with GEN => (a * x + b * y + c * z + d * w)%sc
  | _ => simdfma p d w (simdfma p c z (simdfma p b y (a * x)%sc)) end.
Lemma rnd_rnd : forall x, rnd (rnd x) = rnd x.
Proof. intros x. apply round_generic; [apply valid_rnd_N|]. apply generic_format_round; [apply FLT_exp_valid; reflexivity|apply valid_rnd_N]. Qed.
Lemma four_single : forall p (a b c d x y z w : f32), fin a -> fin b -> fin c -> fin d -> fin x -> fin y -> fin z -> fin w ->
  let A := val a * val x in let B := val b * val y in let C := val c * val z in let D := val d * val w in
  small A -> small B -> small C -> small D ->
  (B = 0 /\ C = 0 /\ D = 0 \/ A = 0 /\ C = 0 /\ D = 0 \/ A = 0 /\ B = 0 /\ D = 0 \/ A = 0 /\ B = 0 /\ C = 0) ->
  fin (four p a b c d x y z w) /\ val (four p a b c d x y z w) = rnd (A + B + C + D).
Proof.
  intros p a b c d x y z w Fa Fb Fc Fd Fx Fy Fz Fw A B C D SA SB SC SD H.
  destruct (mul_small a x Fa Fx SA) as [F1 V1]. fold A in V1.
  assert (G : forall q, fin (simdfma q d w (simdfma q c z (simdfma q b y (a * x)%sc))) /\
    val (simdfma q d w (simdfma q c z (simdfma q b y (a * x)%sc))) = rnd (A + B + C + D)).
  { intros q.
    destruct (single_step q b y (a * x)%sc Fb Fy F1) as [F2 V2]; [rewrite V1; apply rnd_small_le, SA|exact SB| |].
    { fold B. rewrite V1. destruct H as [(E & _)|[(E & _)|[(E & _)|(E & _)]]]; [left; exact E|right; rewrite E; apply rnd_0..]. }
    fold B in V2. rewrite V1 in V2.
    assert (E2 : val (simdfma q b y (a * x)%sc) = rnd (A + B) /\ small (val (simdfma q b y (a * x)%sc))).
    { rewrite V2. destruct H as [(E & _)|[(E & _)|[(E & E' & _)|(E & E' & _)]]].
      - rewrite E, Rplus_0_l, Rplus_0_r, rnd_rnd. split; [reflexivity|apply rnd_small_le, SA].
      - rewrite E, rnd_0, Rplus_0_r, Rplus_0_l. split; [reflexivity|apply rnd_small_le, SB].
      - rewrite E, E', rnd_0, !Rplus_0_r, rnd_0. split; [reflexivity|apply small0].
      - rewrite E, E', rnd_0, !Rplus_0_r, rnd_0. split; [reflexivity|apply small0]. }
    destruct E2 as [E2 S2]. set (t := simdfma q b y (a * x)%sc) in *.
    destruct (single_step q c z t Fc Fz F2 S2 SC) as [F3 V3].
    { fold C. rewrite E2. destruct H as [(_ & E & _)|[(_ & E & _)|[(E & E' & _)|(E & E' & _)]]]; [left; exact E|left; exact E|right|right]; rewrite E, E', Rplus_0_r; apply rnd_0. }
    fold C in V3. rewrite E2 in V3.
    assert (E3 : val (simdfma q c z t) = rnd (A + B + C) /\ small (val (simdfma q c z t))).
    { rewrite V3. destruct H as [(E & E' & _)|[(E & E' & _)|[(E & E' & _)|(E & E' & E'')]]].
      - rewrite E, E', !Rplus_0_r, Rplus_0_l, rnd_rnd. split; [reflexivity|apply rnd_small_le, SA].
      - rewrite E, E', Rplus_0_r, !Rplus_0_l, rnd_rnd. split; [reflexivity|apply rnd_small_le, SB].
      - rewrite E, E', Rplus_0_r, rnd_0, Rplus_0_r, Rplus_0_l. split; [reflexivity|apply rnd_small_le, SC].
      - rewrite E, E', E'', !Rplus_0_r, rnd_0, Rplus_0_r, rnd_0. split; [reflexivity|apply small0]. }
    destruct E3 as [E3 S3]. set (s := simdfma q c z t) in *.
    destruct (single_step q d w s Fd Fw F3 S3 SD) as [F4 V4'].
    { fold D. rewrite E3. destruct H as [(_ & _ & E)|[(_ & _ & E)|[(_ & _ & E)|(E & E' & E'')]]]; [left; exact E..|right]. rewrite E, E', E'', !Rplus_0_r. apply rnd_0. }
    fold D in V4'. split; [exact F4|]. rewrite V4', E3. destruct H as [(_ & _ & E)|[(_ & _ & E)|[(_ & _ & E)|(E & E' & E'')]]].
    - rewrite E, Rplus_0_l, Rplus_0_r. apply rnd_rnd.
    - rewrite E, Rplus_0_l, Rplus_0_r. apply rnd_rnd.
    - rewrite E, Rplus_0_l, Rplus_0_r. apply rnd_rnd.
    - rewrite E, E', E'', !Rplus_0_r, rnd_0, Rplus_0_l, Rplus_0_r. reflexivity. }
  destruct p; [apply (G SSE2)|apply (G SSE41)|apply (G AVX2)|apply (G NEON)|apply (G SSE2)].
Qed.
Definition colOf (p : path) (a : mat4 f32) (w : vec4 f32) : vec4 f32 := match p with GEN => col4 a w | _ => simdCol p a w end.
Lemma colOf_lanes : forall p a w, let v := colOf p a w in
  vx v = four p (vx (c0 a)) (vx (c1 a)) (vx (c2 a)) (vx (c3 a)) (vx w) (vy w) (vz w) (vw w) /\
  vy v = four p (vy (c0 a)) (vy (c1 a)) (vy (c2 a)) (vy (c3 a)) (vx w) (vy w) (vz w) (vw w) /\
  vz v = four p (vz (c0 a)) (vz (c1 a)) (vz (c2 a)) (vz (c3 a)) (vx w) (vy w) (vz w) (vw w) /\
  vw v = four p (vw (c0 a)) (vw (c1 a)) (vw (c2 a)) (vw (c3 a)) (vx w) (vy w) (vz w) (vw w).
Proof. intros p a w. destruct p; (split; [|split; [|split]]); reflexivity. Qed.
Lemma mulM_lanes : forall p (a b : mat4 f32) (col : mat4 f32 -> vec4 f32), In col [c0; c1; c2; c3] -> let v := col (mulM p a b) in let w := col b in
  vx v = four p (vx (c0 a)) (vx (c1 a)) (vx (c2 a)) (vx (c3 a)) (vx w) (vy w) (vz w) (vw w) /\
  vy v = four p (vy (c0 a)) (vy (c1 a)) (vy (c2 a)) (vy (c3 a)) (vx w) (vy w) (vz w) (vw w) /\
  vz v = four p (vz (c0 a)) (vz (c1 a)) (vz (c2 a)) (vz (c3 a)) (vx w) (vy w) (vz w) (vw w) /\
  vw v = four p (vw (c0 a)) (vw (c1 a)) (vw (c2 a)) (vw (c3 a)) (vx w) (vy w) (vz w) (vw w).
Proof.
  intros p a b col H v w. subst v w.
  assert (E : mulM p a b = M4 (colOf p a (c0 b)) (colOf p a (c1 b)) (colOf p a (c2 b)) (colOf p a (c3 b))) by (destruct p; reflexivity).
  rewrite E. cbn [In] in H. destruct H as [<-|[<-|[<-|[<-|[]]]]]; cbn [c0 c1 c2 c3]; apply colOf_lanes.
Qed.

(** ** The entries of a model matrix *)
Definition holds (x : f32) (r : R) : Prop := fin x /\ val x = r.
Definition colIs (v : vec4 f32) (a b c d : R) : Prop := holds (vx v) a /\ holds (vy v) b /\ holds (vz v) c /\ holds (vw v) d.
Definition size (k : Z) (v : vec4 f32) : Prop := Rabs (val (vx v)) <= bpow radix2 k /\ Rabs (val (vy v)) <= bpow radix2 k /\ Rabs (val (vz v)) <= bpow radix2 k.
Lemma small_prod : forall x y, Rabs x <= bpow radix2 50 -> Rabs y <= bpow radix2 60 -> small (x * y).
Proof.
  intros x y X Y. unfold small. rewrite Rabs_mult. apply Rle_trans with (bpow radix2 50 * bpow radix2 60).
  - apply Rmult_le_compat; try apply Rabs_pos; assumption.
  - rewrite <- bpow_plus. apply bpow_le. lia.
Qed.
Lemma small_zero : forall x y, x = 0 \/ y = 0 -> small (x * y).
Proof. intros x y [-> | ->]; [rewrite Rmult_0_l|rewrite Rmult_0_r]; apply small0. Qed.
Lemma four_first : forall p (a b c d x y z w : f32), fin a -> fin b -> fin c -> fin d -> fin x -> fin y -> fin z -> fin w ->
  small (val a * val x) -> val b * val y = 0 -> val c * val z = 0 -> val d * val w = 0 -> holds (four p a b c d x y z w) (rnd (val a * val x)).
Proof.
  intros p a b c d x y z w Fa Fb Fc Fd Fx Fy Fz Fw S B C D. pose proof small0 as Z.
  destruct (four_single p a b c d x y z w) as [F V]; try assumption; try (rewrite ?B, ?C, ?D; assumption); [left; auto|].
  split; [exact F|]. rewrite V, B, C, D, !Rplus_0_r. reflexivity.
Qed.
Lemma four_second : forall p (a b c d x y z w : f32), fin a -> fin b -> fin c -> fin d -> fin x -> fin y -> fin z -> fin w ->
  val a * val x = 0 -> small (val b * val y) -> val c * val z = 0 -> val d * val w = 0 -> holds (four p a b c d x y z w) (rnd (val b * val y)).
Proof.
  intros p a b c d x y z w Fa Fb Fc Fd Fx Fy Fz Fw A S C D. pose proof small0 as Z.
  destruct (four_single p a b c d x y z w) as [F V]; try assumption; try (rewrite ?A, ?C, ?D; assumption); [right; left; auto|].
  split; [exact F|]. rewrite V, A, C, D, !Rplus_0_r, Rplus_0_l. reflexivity.
Qed.
Lemma four_third : forall p (a b c d x y z w : f32), fin a -> fin b -> fin c -> fin d -> fin x -> fin y -> fin z -> fin w ->
  val a * val x = 0 -> val b * val y = 0 -> small (val c * val z) -> val d * val w = 0 -> holds (four p a b c d x y z w) (rnd (val c * val z)).
Proof.
  intros p a b c d x y z w Fa Fb Fc Fd Fx Fy Fz Fw A B S D. pose proof small0 as Z.
  destruct (four_single p a b c d x y z w) as [F V]; try assumption; try (rewrite ?A, ?B, ?D; assumption); [right; right; left; auto|].
  split; [exact F|]. rewrite V, A, B, D, !Rplus_0_r, !Rplus_0_l. reflexivity.
Qed.
Lemma four_fourth : forall p (a b c d x y z w : f32), fin a -> fin b -> fin c -> fin d -> fin x -> fin y -> fin z -> fin w ->
  val a * val x = 0 -> val b * val y = 0 -> val c * val z = 0 -> small (val d * val w) -> holds (four p a b c d x y z w) (rnd (val d * val w)).
Proof.
  intros p a b c d x y z w Fa Fb Fc Fd Fx Fy Fz Fw A B C S. pose proof small0 as Z.
  destruct (four_single p a b c d x y z w) as [F V]; try assumption; try (rewrite ?A, ?B, ?C; assumption); [right; right; right; auto|].
  split; [exact F|]. rewrite V, A, B, C, !Rplus_0_l. reflexivity.
Qed.
Lemma zero_lit : fin (f0 : f32) /\ val (f0 : f32) = 0. Proof. exact (lit_Z 0 ltac:(lia)). Qed.
Lemma one_lit : fin (f1 : f32) /\ val (f1 : f32) = 1. Proof. exact (lit_Z 1 ltac:(lia)). Qed.
Definition okL (x : f32) : Prop := fin x /\ Rabs (val x) <= bpow radix2 60.
Definition okV (v : vec4 f32) : Prop := okL (vx v) /\ okL (vy v) /\ okL (vz v) /\ okL (vw v).
Lemma small_ok : forall x y, Rabs x <= bpow radix2 60 -> Rabs y <= bpow radix2 50 -> small (x * y).
Proof. intros. rewrite Rmult_comm. apply small_prod; assumption. Qed.
Lemma one_ok : Rabs 1 <= bpow radix2 50.
Proof. rewrite Rabs_R1. apply (bpow_le radix2 0 50). lia. Qed.
Lemma scaled_columns : forall p (a : mat4 f32) (s : vec4 f32), okV (c0 a) -> okV (c1 a) -> okV (c2 a) -> okV (c3 a) -> inRange s ->
  let m := mulM p a (scale s) in let r := fun x y : f32 => rnd (val x * val y) in
  colIs (c0 m) (r (vx (c0 a)) (vx s)) (r (vy (c0 a)) (vx s)) (r (vz (c0 a)) (vx s)) (r (vw (c0 a)) (vx s)) /\
  colIs (c1 m) (r (vx (c1 a)) (vy s)) (r (vy (c1 a)) (vy s)) (r (vz (c1 a)) (vy s)) (r (vw (c1 a)) (vy s)) /\
  colIs (c2 m) (r (vx (c2 a)) (vz s)) (r (vy (c2 a)) (vz s)) (r (vz (c2 a)) (vz s)) (r (vw (c2 a)) (vz s)) /\
  colIs (c3 m) (val (vx (c3 a))) (val (vy (c3 a))) (val (vz (c3 a))) (val (vw (c3 a))).
Proof.
  intros p a s ((A1 & A1') & (A2 & A2') & (A3 & A3') & A4 & A4') ((B1 & B1') & (B2 & B2') & (B3 & B3') & B4 & B4')
    ((C1 & C1') & (C2 & C2') & (C3 & C3') & C4 & C4') ((D1 & D1') & (D2 & D2') & (D3 & D3') & D4 & D4') [Fs Bs] m r.
  unfold allFin, boundedBy, l43 in Fs, Bs. inversion Fs as [|? ? X Fs1]; subst. inversion Fs1 as [|? ? Y Fs2]; subst. inversion Fs2 as [|? ? Z _]; subst.
  inversion Bs as [|? ? X' Bs1]; subst. inversion Bs1 as [|? ? Y' Bs2]; subst. inversion Bs2 as [|? ? Z' _]; subst. clear Fs Fs1 Fs2 Bs Bs1 Bs2.
  destruct zero_lit as [F0 V0]. destruct one_lit as [F1 V1].
  pose proof (mulM_lanes p a (scale s) c0 ltac:(cbn; tauto)) as (L1 & L2 & L3 & L4).
  pose proof (mulM_lanes p a (scale s) c1 ltac:(cbn; tauto)) as (M1 & M2 & M3 & M4).
  pose proof (mulM_lanes p a (scale s) c2 ltac:(cbn; tauto)) as (N1 & N2 & N3 & N4).
  pose proof (mulM_lanes p a (scale s) c3 ltac:(cbn; tauto)) as (O1 & O2 & O3 & O4).
  fold m in L1, L2, L3, L4, M1, M2, M3, M4, N1, N2, N3, N4, O1, O2, O3, O4.
  change (c0 (scale s)) with (V4 (vx s) f0 f0 f0) in *. change (c1 (scale s)) with (V4 f0 (vy s) f0 f0) in *.
  change (c2 (scale s)) with (V4 f0 f0 (vz s) f0) in *. change (c3 (scale s)) with (V4 (f0 : f32) f0 f0 f1) in *. cbn [vx vy vz vw] in *.
  assert (Z0 : forall x : f32, val x * val (f0 : f32) = 0) by (intros; rewrite V0; ring).
  assert (One : forall (t x y z w : f32), t = x -> holds x (rnd (val w * val (f1 : f32))) -> holds t (val w)).
  { intros t x _ _ w -> [F V]. split; [exact F|]. rewrite V, V1, Rmult_1_r. apply rnd_val. }
  assert (One' : forall w : f32, Rabs (val w) <= bpow radix2 60 -> small (val w * val (f1 : f32))) by (intros w Hw; apply small_ok; [exact Hw|rewrite V1; apply one_ok]).
  unfold colIs, r. rewrite L1, L2, L3, L4, M1, M2, M3, M4, N1, N2, N3, N4.
  split; [|split; [|split]]; (split; [|split; [|split]]).
  1-4: apply four_first; try assumption; try apply Z0; apply small_ok; assumption.
  1-4: apply four_second; try assumption; try apply Z0; apply small_ok; assumption.
  1-4: apply four_third; try assumption; try apply Z0; apply small_ok; assumption.
  - eapply One; [exact f0|exact f0|exact O1|]. apply four_fourth; try assumption; try apply Z0. apply One'; assumption.
  - eapply One; [exact f0|exact f0|exact O2|]. apply four_fourth; try assumption; try apply Z0. apply One'; assumption.
  - eapply One; [exact f0|exact f0|exact O3|]. apply four_fourth; try assumption; try apply Z0. apply One'; assumption.
  - eapply One; [exact f0|exact f0|exact O4|]. apply four_fourth; try assumption; try apply Z0. apply One'; assumption.
Qed.
Definition okCol (w : R) (v : vec4 f32) : Prop := okL (vx v) /\ okL (vy v) /\ okL (vz v) /\ fin (vw v) /\ val (vw v) = w.
Lemma moved_columns : forall p (m : mat4 f32) (t : vec4 f32), okCol 0 (c0 m) -> okCol 0 (c1 m) -> okCol 0 (c2 m) -> c3 m = V4 f0 f0 f0 f1 -> inRange t ->
  let n := mulM p (translate t) m in
  colIs (c0 n) (val (vx (c0 m))) (val (vy (c0 m))) (val (vz (c0 m))) 0 /\
  colIs (c1 n) (val (vx (c1 m))) (val (vy (c1 m))) (val (vz (c1 m))) 0 /\
  colIs (c2 n) (val (vx (c2 m))) (val (vy (c2 m))) (val (vz (c2 m))) 0 /\
  colIs (c3 n) (val (vx t)) (val (vy t)) (val (vz t)) 1.
Proof.
  intros p m t H0 H1 H2 H3 [Ft Bt] n.
  unfold allFin, boundedBy, l43 in Ft, Bt. inversion Ft as [|? ? X Ft1]; subst. inversion Ft1 as [|? ? Y Ft2]; subst. inversion Ft2 as [|? ? Z _]; subst.
  inversion Bt as [|? ? X' Bt1]; subst. inversion Bt1 as [|? ? Y' Bt2]; subst. inversion Bt2 as [|? ? Z' _]; subst. clear Ft Ft1 Ft2 Bt Bt1 Bt2.
  destruct zero_lit as [F0 V0]. destruct one_lit as [F1 V1].
  assert (Cols : forall col : mat4 f32 -> vec4 f32, In col [c0; c1; c2] -> okCol 0 (col m) ->
    colIs (col n) (val (vx (col m))) (val (vy (col m))) (val (vz (col m))) 0).
  { intros col I ((A1 & A1') & (A2 & A2') & (A3 & A3') & A4 & A4').
    assert (I' : In col [c0; c1; c2; c3]) by (cbn in *; tauto).
    pose proof (mulM_lanes p (translate t) m col I') as (L1 & L2 & L3 & L4). fold n in L1, L2, L3, L4.
    unfold translate, withW in L1, L2, L3, L4. cbn [c0 c1 c2 c3 vx vy vz vw] in L1, L2, L3, L4.
    unfold colIs. rewrite L1, L2, L3, L4. clear L1 L2 L3 L4.
    assert (Z0 : forall x : f32, val (f0 : f32) * val x = 0) by (intros; rewrite V0; ring).
    assert (W0 : forall x : f32, val x * val (vw (col m)) = 0) by (intros; rewrite A4'; ring).
    assert (O1 : forall x : f32, rnd (val (f1 : f32) * val x) = val x) by (intros; rewrite V1, Rmult_1_l; apply rnd_val).
    assert (S1 : forall x : f32, Rabs (val x) <= bpow radix2 60 -> small (val (f1 : f32) * val x)) by (intros x Hx; apply small_prod; [rewrite V1; apply one_ok|exact Hx]).
    split; [|split; [|split]].
    - rewrite <- (O1 (vx (col m))). apply four_first; try assumption; try apply Z0; try apply W0. apply S1; assumption.
    - rewrite <- (O1 (vy (col m))). apply four_second; try assumption; try apply Z0; try apply W0. apply S1; assumption.
    - rewrite <- (O1 (vz (col m))). apply four_third; try assumption; try apply Z0; try apply W0. apply S1; assumption.
    - replace 0 with (rnd (val (f1 : f32) * val (vw (col m)))) by (rewrite O1; exact A4').
      apply four_fourth; try assumption; try apply Z0. rewrite W0. apply small0. }
  split; [apply Cols; [cbn; tauto|exact H0]|]. split; [apply Cols; [cbn; tauto|exact H1]|]. split; [apply Cols; [cbn; tauto|exact H2]|].
  pose proof (mulM_lanes p (translate t) m c3 ltac:(cbn; tauto)) as (L1 & L2 & L3 & L4). fold n in L1, L2, L3, L4. rewrite H3 in L1, L2, L3, L4.
  unfold translate, withW in L1, L2, L3, L4. cbn [c0 c1 c2 c3 vx vy vz vw] in L1, L2, L3, L4.
  unfold colIs. rewrite L1, L2, L3, L4. clear L1 L2 L3 L4.
  assert (Z0 : forall x : f32, val x * val (f0 : f32) = 0) by (intros; rewrite V0; ring).
  assert (O1 : forall x : f32, rnd (val x * val (f1 : f32)) = val x) by (intros; rewrite V1, Rmult_1_r; apply rnd_val).
  assert (S1 : forall x : f32, Rabs (val x) <= bpow radix2 50 -> small (val x * val (f1 : f32))).
  { intros x Hx. apply small_prod; [exact Hx|rewrite V1, Rabs_R1; apply (bpow_le radix2 0 60); lia]. }
  split; [|split; [|split]].
  - rewrite <- (O1 (vx t)). apply four_fourth; try assumption; try apply Z0. apply S1; assumption.
  - rewrite <- (O1 (vy t)). apply four_fourth; try assumption; try apply Z0. apply S1; assumption.
  - rewrite <- (O1 (vz t)). apply four_fourth; try assumption; try apply Z0. apply S1; assumption.
  - replace 1 with (rnd (val (f1 : f32) * val (f1 : f32))) by (rewrite O1; exact V1).
    apply four_fourth; try assumption; try apply Z0. apply S1. rewrite V1. apply one_ok.
Qed.
Lemma one_val : forall x : f32, fin x -> seq x f1 = true -> val x = 1.
Proof.
  intros x F H. destruct one_lit as [F1 V1]. apply (seq_iff x f1 (fin_num _ F) (fin_num _ F1)) in H. rewrite !fin_ext in H by assumption. rewrite H. exact V1.
Qed.
Definition rotN (p : path) (q : vec4 f32) : mat4 f32 := rotate (qnormalize p q).
Lemma rotN_near : forall p q, moderate (l4 q) -> nearRot (28.6 * / 16777216) (rotN p q) (unitized (valQ q)).
Proof.
  intros p q M. destruct (rotate_near (5.2 / 16777216) _ _ ltac:(lra) (qnormalize_near p q M)) as [[H K] _]. split; [exact H|].
  assert (W : forall (l : list f32) r, Forall2 (fun (x : f32) r => fin x /\ Rabs (val x - r) <= 4.04 * (5.2 / 16777216) + 7.5 / 16777216) l r ->
    Forall2 (fun (x : f32) r => fin x /\ Rabs (val x - r) <= 28.6 * / 16777216) l r).
  { intros l r L. induction L as [|x y l r [A B] L IH]; constructor; [split; [exact A|lra]|exact IH]. }
  fold (rotN p q) in K. induction K as [|l r a b L K IH]; constructor; [apply W; exact L|exact IH].
Qed.
Lemma ok_entry : forall d (x : f32) X, ab d x X -> 0 <= d <= 1 -> -1 <= X <= 1 -> okL x /\ Rabs (val x) <= 2.
Proof.
  intros d x X [F H] Hd HX. apply Rabs_le_inv in H. assert (B : Rabs (val x) <= 2) by (apply Rabs_le; lra). split; [|exact B].
  split; [exact F|]. apply Rle_trans with (1 := B). apply (bpow_le radix2 1 60). lia.
Qed.
(** the entries of a rotation are at most one *)
Lemma unit_entries : forall u, unitQ u -> let x := vx u in let y := vy u in let z := vz u in let w := vw u in
  (-1 <= 1 - 2 * (y * y + z * z) <= 1 /\ -1 <= 2 * (x * y + w * z) <= 1 /\ -1 <= 2 * (x * z - w * y) <= 1) /\
  (-1 <= 2 * (x * y - w * z) <= 1 /\ -1 <= 1 - 2 * (x * x + z * z) <= 1 /\ -1 <= 2 * (y * z + w * x) <= 1) /\
  (-1 <= 2 * (x * z + w * y) <= 1 /\ -1 <= 2 * (y * z - w * x) <= 1 /\ -1 <= 1 - 2 * (x * x + y * y) <= 1).
Proof.
  intros [X Y Z W] Hu x y z w. unfold unitQ, norm2 in Hu. subst x y z w. cbn [vx vy vz vw] in *.
  pose proof (Rle_0_sqr X) as Sx. pose proof (Rle_0_sqr Y) as Sy. pose proof (Rle_0_sqr Z) as Sz. pose proof (Rle_0_sqr W) as Sw. unfold Rsqr in Sx, Sy, Sz, Sw.
  assert (B2 : forall p q, 2 * (p * q) <= p * p + q * q /\ - (p * p + q * q) <= 2 * (p * q))
    by (intros p q; pose proof (Rle_0_sqr (p - q)); pose proof (Rle_0_sqr (p + q)); unfold Rsqr in *; split; lra).
  pose proof (B2 X Y). pose proof (B2 X Z). pose proof (B2 Y Z). pose proof (B2 W X). pose proof (B2 W Y). pose proof (B2 W Z).
  repeat split; lra.
Qed.
Theorem model_entries : forall p (pos q s : vec4 f32), inRange pos -> moderate (l4 q) -> inRange s ->
  let m := calcModel p pos q s in let n := rotN p q in let r := fun x y : f32 => rnd (val x * val y) in
  colIs (c0 m) (r (vx (c0 n)) (vx s)) (r (vy (c0 n)) (vx s)) (r (vz (c0 n)) (vx s)) 0 /\
  colIs (c1 m) (r (vx (c1 n)) (vy s)) (r (vy (c1 n)) (vy s)) (r (vz (c1 n)) (vy s)) 0 /\
  colIs (c2 m) (r (vx (c2 n)) (vz s)) (r (vy (c2 n)) (vz s)) (r (vz (c2 n)) (vz s)) 0 /\
  colIs (c3 m) (val (vx pos)) (val (vy pos)) (val (vz pos)) 1.
Proof.
  intros p pos q s Hp Hq Hs m n r. destruct zero_lit as [F0 V0]. destruct one_lit as [F1 V1].
  destruct (entries _ _ _ (rotN_near p q Hq)) as (Hu & P0 & P1 & P2 & P3 & P4 & P5 & P6 & P7 & P8).
  destruct (unit_entries _ Hu) as ((E0 & E1 & E2) & (E3 & E4 & E5) & (E6 & E7 & E8)). fold n in P0, P1, P2, P3, P4, P5, P6, P7, P8.
  destruct (ok_entry _ _ _ P0 ltac:(lra) E0) as [K0 _]. destruct (ok_entry _ _ _ P1 ltac:(lra) E1) as [K1 _]. destruct (ok_entry _ _ _ P2 ltac:(lra) E2) as [K2 _].
  destruct (ok_entry _ _ _ P3 ltac:(lra) E3) as [K3 _]. destruct (ok_entry _ _ _ P4 ltac:(lra) E4) as [K4 _]. destruct (ok_entry _ _ _ P5 ltac:(lra) E5) as [K5 _].
  destruct (ok_entry _ _ _ P6 ltac:(lra) E6) as [K6 _]. destruct (ok_entry _ _ _ P7 ltac:(lra) E7) as [K7 _]. destruct (ok_entry _ _ _ P8 ltac:(lra) E8) as [K8 _].
  unfold m, calcModel. destruct (allEq s (dup4 f1)) eqn:E.
  - unfold allEq, dup4 in E. cbn [vx vy vz vw] in E. rewrite !andb_true_iff in E. destruct E as (((Ex & Ey) & Ez) & _).
    pose proof (proj1 Hs) as Fs. unfold allFin, l43 in Fs. inversion Fs as [|? ? Gx Fs1]; subst. inversion Fs1 as [|? ? Gy Fs2]; subst. inversion Fs2 as [|? ? Gz _]; subst.
    apply one_val in Ex, Ey, Ez; [|assumption..]. unfold r. rewrite Ex, Ey, Ez. fold (rotN p q). fold n. rewrite !Rmult_1_r, !rnd_val.
    destruct Hp as [Fp _]. unfold allFin, l43 in Fp. inversion Fp as [|? ? X Fp1]; subst. inversion Fp1 as [|? ? Y Fp2]; subst. inversion Fp2 as [|? ? Z _]; subst.
    unfold translateOf, colIs, holds. cbn [c0 c1 c2 c3]. change (vw (c0 n)) with (f0 : f32). change (vw (c1 n)) with (f0 : f32). change (vw (c2 n)) with (f0 : f32).
    change (c3 n) with (V4 (f0 : f32) f0 f0 f1). unfold withW, vadd, map2_4. cbn [vx vy vz vw].
    destruct (zero_plus _ X) as [GX EX]. destruct (zero_plus _ Y) as [GY EY]. destruct (zero_plus _ Z) as [GZ EZ].
    destruct K0, K1, K2, K3, K4, K5, K6, K7, K8. repeat split; assumption.
  - fold (rotN p q). fold n.
    destruct (moved_columns p n pos) as (A0 & A1 & A2 & A3); try assumption; try reflexivity.
    1-3: split; [assumption|]; split; [assumption|]; split; [assumption|]; split; [exact F0|exact V0].
    set (t := mulM p (translate pos) n) in *.
    assert (O : forall (x : f32) v, holds x v -> Rabs v <= bpow radix2 60 -> okL x) by (intros x v [F V] B; split; [exact F|rewrite V; exact B]).
    assert (Z60 : Rabs 0 <= bpow radix2 60) by (rewrite Rabs_R0; apply bpow_ge_0).
    assert (I60 : Rabs 1 <= bpow radix2 60) by (rewrite Rabs_R1; apply (bpow_le radix2 0 60); lia).
    assert (B5 : bpow radix2 50 <= bpow radix2 60) by (apply bpow_le; lia).
    destruct Hp as [Fp Bp]. unfold boundedBy, l43 in Bp. inversion Bp as [|? ? X' Bp1]; subst. inversion Bp1 as [|? ? Y' Bp2]; subst. inversion Bp2 as [|? ? Z' _]; subst.
    destruct (scaled_columns p t s) as (B0 & B1 & B2 & B3); try assumption.
    + destruct A0 as (a & b & c & d). split; [eapply O; [exact a|apply K0]|]. split; [eapply O; [exact b|apply K1]|]. split; [eapply O; [exact c|apply K2]|]. eapply O; [exact d|exact Z60].
    + destruct A1 as (a & b & c & d). split; [eapply O; [exact a|apply K3]|]. split; [eapply O; [exact b|apply K4]|]. split; [eapply O; [exact c|apply K5]|]. eapply O; [exact d|exact Z60].
    + destruct A2 as (a & b & c & d). split; [eapply O; [exact a|apply K6]|]. split; [eapply O; [exact b|apply K7]|]. split; [eapply O; [exact c|apply K8]|]. eapply O; [exact d|exact Z60].
    + destruct A3 as (a & b & c & d). split; [eapply O; [exact a|lra]|]. split; [eapply O; [exact b|lra]|]. split; [eapply O; [exact c|lra]|]. eapply O; [exact d|exact I60].
    + destruct A0 as ((_ & a0) & (_ & b0) & (_ & c0') & (_ & d0)). destruct A1 as ((_ & a1) & (_ & b1) & (_ & c1') & (_ & d1)).
      destruct A2 as ((_ & a2) & (_ & b2) & (_ & c2') & (_ & d2)). destruct A3 as ((_ & a3) & (_ & b3) & (_ & c3') & (_ & d3)).
      rewrite a0, b0, c0', d0, Rmult_0_l, rnd_0 in B0. rewrite a1, b1, c1', d1, Rmult_0_l, rnd_0 in B1. rewrite a2, b2, c2', d2, Rmult_0_l, rnd_0 in B2.
      rewrite a3, b3, c3', d3 in B3. unfold r. split; [exact B0|]. split; [exact B1|]. split; [exact B2|exact B3].
Qed.

(** ** The image of a point *)
Lemma term_near : forall (a n s x : f32) X, val a = rnd (val n * val s) -> ab (28.6 * / 16777216) n X -> -1 <= X <= 1 ->
  Rabs (val a * val x - X * (val s * val x)) <= 29.61 * / 16777216 * Rabs (val s * val x) + eta0 * Rabs (val x).
Proof.
  intros a n s x X V [F H] HX. pose proof (rnd_err (val n * val s)) as R. rewrite <- V, u24_val in R.
  replace (val a * val x - X * (val s * val x)) with ((val a - val n * val s) * val x + (val n - X) * (val s * val x)) by ring.
  assert (Bn : Rabs (val n) <= 1.0001) by (apply Rabs_le_inv in H; apply Rabs_le; lra).
  pose proof (Rabs_triang ((val a - val n * val s) * val x) ((val n - X) * (val s * val x))) as T.
  rewrite (Rabs_mult (val a - _)), (Rabs_mult (val n - X)) in T. rewrite (Rabs_mult (val n)) in R. pose proof (Rabs_pos (val x)) as Px. pose proof (Rabs_pos (val s)) as Ps.
  pose proof (Rabs_pos (val n)) as Pn. rewrite (Rabs_mult (val s)) in T |- *.
  set (S := Rabs (val s)) in *. set (Y := Rabs (val x)) in *. assert (PSY : 0 <= S * Y) by (apply Rmult_le_pos; assumption).
  assert (A : Rabs (val a - val n * val s) * Y <= (/ 16777216 * (1.0001 * S) + eta0) * Y).
  { apply Rmult_le_compat_r; [exact Px|]. apply Rle_trans with (1 := R). apply Rplus_le_compat_r. apply Rmult_le_compat_l; [lra|]. apply Rmult_le_compat_r; assumption. }
  assert (B : Rabs (val n - X) * (S * Y) <= 28.6 * / 16777216 * (S * Y)) by (apply Rmult_le_compat_r; assumption).
  lra.
Qed.
Lemma row_near : forall (r a b c t n1 n2 n3 : f32) (s v : vec4 f32) A B C, fin r ->
  innerErr 4.01 r [a; b; c; t] [vx v; vy v; vz v; f1] ->
  val a = rnd (val n1 * val (vx s)) -> ab (28.6 * / 16777216) n1 A -> -1 <= A <= 1 ->
  val b = rnd (val n2 * val (vy s)) -> ab (28.6 * / 16777216) n2 B -> -1 <= B <= 1 ->
  val c = rnd (val n3 * val (vz s)) -> ab (28.6 * / 16777216) n3 C -> -1 <= C <= 1 ->
  laneNear r (val t + (A * (val (vx s) * val (vx v)) + B * (val (vy s) * val (vy v)) + C * (val (vz s) * val (vz v)))) (val t) s v.
Proof.
  intros r a b c t n1 n2 n3 s v A B C F [_ E] Va Na HA Vb Nb HB Vc Nc HC. split; [exact F|].
  pose proof (term_near a n1 (vx s) (vx v) A Va Na HA) as T1. pose proof (term_near b n2 (vy s) (vy v) B Vb Nb HB) as T2. pose proof (term_near c n3 (vz s) (vz v) C Vc Nc HC) as T3.
  cbn [inner innerAbs] in E. destruct one_lit as [_ V1]. rewrite V1, !Rmult_1_r, !Rplus_0_r in E.
  unfold reach, total, ulp1. replace (bpow radix2 (-146)) with (16 * eta0) by (unfold eta0; cbn; lra). replace (bpow radix2 (-150)) with eta0 in E by reflexivity.
  pose proof eta0_pos as PE.
  set (X := val (vx s) * val (vx v)) in *. set (Y := val (vy s) * val (vy v)) in *. set (Z := val (vz s) * val (vz v)) in *.
  assert (M : forall k w W, -1 <= k <= 1 -> Rabs w <= Rabs W + Rabs (w - k * W)).
  { intros k w W Hk. replace w with (k * W + (w - k * W)) at 1 by ring. pose proof (Rabs_triang (k * W) (w - k * W)) as T. rewrite (Rabs_mult k W) in T.
    assert (Rabs k <= 1) by (apply Rabs_le; exact Hk). pose proof (Rabs_pos W). assert (Rabs k * Rabs W <= 1 * Rabs W) by (apply Rmult_le_compat_r; assumption). lra. }
  pose proof (M A (val a * val (vx v)) X HA) as M1. pose proof (M B (val b * val (vy v)) Y HB) as M2. pose proof (M C (val c * val (vz v)) Z HC) as M3. clear M.
  pose proof (Rabs_pos X). pose proof (Rabs_pos Y). pose proof (Rabs_pos Z). pose proof (Rabs_pos (val t)).
  assert (Px : 0 <= eta0 * Rabs (val (vx v))) by (apply Rmult_le_pos; [lra|apply Rabs_pos]). assert (Py : 0 <= eta0 * Rabs (val (vy v))) by (apply Rmult_le_pos; [lra|apply Rabs_pos]).
  assert (Pz : 0 <= eta0 * Rabs (val (vz v))) by (apply Rmult_le_pos; [lra|apply Rabs_pos]).
  match goal with |- Rabs ?g <= _ => replace g with ((val r - (val a * val (vx v) + (val b * val (vy v) + (val c * val (vz v) + val t)))) +
    ((val a * val (vx v) - A * X) + (val b * val (vy v) - B * Y) + (val c * val (vz v) - C * Z))) by ring end.
  pose proof (Rabs_triang (val r - (val a * val (vx v) + (val b * val (vy v) + (val c * val (vz v) + val t)))) ((val a * val (vx v) - A * X) + (val b * val (vy v) - B * Y) + (val c * val (vz v) - C * Z))) as U1.
  pose proof (Rabs_triang ((val a * val (vx v) - A * X) + (val b * val (vy v) - B * Y)) (val c * val (vz v) - C * Z)) as U2.
  pose proof (Rabs_triang (val a * val (vx v) - A * X) (val b * val (vy v) - B * Y)) as U3.
  lra.
Qed.
Lemma entry_mild : forall (a n s : f32), val a = rnd (val n * val s) -> Rabs (val n) <= 2 -> Rabs (val s) <= bpow radix2 50 -> Rabs (val a) <= bpow radix2 60.
Proof.
  intros a n s V N S. rewrite V. apply Rle_trans with (IZR 1 * bpow radix2 51); [apply rnd_abs_le; [lia|lia|]|rewrite Rmult_1_l; apply bpow_le; lia].
  rewrite Rmult_1_l, Rabs_mult. replace (bpow radix2 51) with (2 * bpow radix2 50) by (change (bpow radix2 51) with (bpow radix2 (1 + 50)); rewrite bpow_plus; cbn; lra).
  apply Rmult_le_compat; try apply Rabs_pos; assumption.
Qed.
Theorem model_places : forall p (pos q s v : vec4 f32), inRange pos -> moderate (l4 q) -> inRange s -> inRange v ->
  let r := mulV p (calcModel p pos q s) (withW v f1) in let e := placed (valQ pos) (unitized (valQ q)) (valQ s) (valQ v) in
  laneNear (vx r) (vx e) (val (vx pos)) s v /\ laneNear (vy r) (vy e) (val (vy pos)) s v /\ laneNear (vz r) (vz e) (val (vz pos)) s v /\
  fin (vw r) /\ val (vw r) = 1.
Proof.
  intros p pos q s v Hp Hq Hs Hv r e. destruct one_lit as [F1 V1].
  pose proof (model_entries p pos q s Hp Hq Hs) as ME. cbv zeta in ME. set (m := calcModel p pos q s) in *. set (n := rotN p q) in *.
  destruct ME as (((A1 & A1') & (A2 & A2') & (A3 & A3') & A4 & A4') & ((B1 & B1') & (B2 & B2') & (B3 & B3') & B4 & B4') &
    ((C1 & C1') & (C2 & C2') & (C3 & C3') & C4 & C4') & ((D1 & D1') & (D2 & D2') & (D3 & D3') & D4 & D4')).
  destruct (entries _ _ _ (rotN_near p q Hq)) as (Hu & P0 & P1 & P2 & P3 & P4 & P5 & P6 & P7 & P8).
  destruct (unit_entries _ Hu) as ((E0 & E1 & E2) & (E3 & E4 & E5) & (E6 & E7 & E8)). fold n in P0, P1, P2, P3, P4, P5, P6, P7, P8.
  destruct (ok_entry _ _ _ P0 ltac:(lra) E0) as [_ K0]. destruct (ok_entry _ _ _ P1 ltac:(lra) E1) as [_ K1]. destruct (ok_entry _ _ _ P2 ltac:(lra) E2) as [_ K2].
  destruct (ok_entry _ _ _ P3 ltac:(lra) E3) as [_ K3]. destruct (ok_entry _ _ _ P4 ltac:(lra) E4) as [_ K4]. destruct (ok_entry _ _ _ P5 ltac:(lra) E5) as [_ K5].
  destruct (ok_entry _ _ _ P6 ltac:(lra) E6) as [_ K6]. destruct (ok_entry _ _ _ P7 ltac:(lra) E7) as [_ K7]. destruct (ok_entry _ _ _ P8 ltac:(lra) E8) as [_ K8].
  assert (B5 : bpow radix2 50 <= bpow radix2 60) by (apply bpow_le; lia).
  assert (Z60 : Rabs 0 <= bpow radix2 60) by (rewrite Rabs_R0; apply bpow_ge_0).
  assert (I60 : Rabs 1 <= bpow radix2 60) by (rewrite Rabs_R1; apply (bpow_le radix2 0 60); lia).
  destruct Hp as [_ Bp]. unfold boundedBy, l43 in Bp. inversion Bp as [|? ? Xp Bp1]; subst. inversion Bp1 as [|? ? Yp Bp2]; subst. inversion Bp2 as [|? ? Zp _]; subst. clear Bp Bp1 Bp2.
  destruct Hs as [_ Bs]. unfold boundedBy, l43 in Bs. inversion Bs as [|? ? Xs Bs1]; subst. inversion Bs1 as [|? ? Ys Bs2]; subst. inversion Bs2 as [|? ? Zs _]; subst. clear Bs Bs1 Bs2.
  destruct Hv as [Fv Bv]. unfold allFin, boundedBy, l43 in Fv, Bv. inversion Bv as [|? ? Xv Bv1]; subst. inversion Bv1 as [|? ? Yv Bv2]; subst. inversion Bv2 as [|? ? Zv _]; subst. clear Bv Bv1 Bv2.
  inversion Fv as [|? ? FX Fv1]; subst. inversion Fv1 as [|? ? FY Fv2]; subst. inversion Fv2 as [|? ? FZ _]; subst. clear Fv Fv1 Fv2.
  assert (MV : mild (l4 (withW v f1))).
  { split; unfold allFin, boundedBy, l4, withW; cbn [vx vy vz vw]; repeat apply Forall_cons; try apply Forall_nil; try assumption; try lra. rewrite V1. exact I60. }
  assert (MM : mildM (rowsOf4 m)).
  { unfold mildM, rowsOf4. repeat apply Forall_cons; try apply Forall_nil; (split; unfold allFin, boundedBy; repeat apply Forall_cons; try apply Forall_nil; try assumption);
      first [eapply entry_mild; [eassumption|assumption|assumption] | rewrite D1'; lra | rewrite D2'; lra | rewrite D3'; lra | rewrite ?A4', ?B4', ?C4', ?D4'; assumption]. }
  destruct (action_near p) as (_ & _ & _ & AN & _). specialize (AN m (withW v f1) MM MV). fold r in AN. unfold actionErr, rowsOf4, l4 in AN.
  inversion AN as [|? ? ? ? L1 AN1]; subst. inversion AN1 as [|? ? ? ? L2 AN2]; subst. inversion AN2 as [|? ? ? ? L3 AN3]; subst. inversion AN3 as [|? ? ? ? L4 _]; subst. clear AN AN1 AN2 AN3.
  unfold withW in L1, L2, L3. cbn [vx vy vz vw] in L1, L2, L3.
  assert (G : forall (x : f32) a b t, laneNear x a t s v -> a = b -> laneNear x b t s v) by (intros ? ? ? ? H <-; exact H).
  unfold unitQ, norm2 in Hu. set (u := unitized (valQ q)) in *. clearbody u. destruct u as [X Y Z W]. cbn [vx vy vz vw] in *.
  assert (Ze : forall k, (X * X + Y * Y + Z * Z + W * W - 1) * k = 0) by (intros; rewrite Hu; ring).
  split; [|split; [|split]].
  - rewrite <- D1'. eapply G; [eapply (row_near (vx r)); [exact (proj1 L1)|exact L1|exact A1'|exact P0|exact E0|exact B1'|exact P3|exact E3|exact C1'|exact P6|exact E6]|].
    rewrite D1'. unfold e, placed, turned, ham, valQ. cbn [vx vy vz vw]. pose proof (Ze (val (vx s) * val (vx v))). lra.
  - rewrite <- D2'. eapply G; [eapply (row_near (vy r)); [exact (proj1 L2)|exact L2|exact A2'|exact P1|exact E1|exact B2'|exact P4|exact E4|exact C2'|exact P7|exact E7]|].
    rewrite D2'. unfold e, placed, turned, ham, valQ. cbn [vx vy vz vw]. pose proof (Ze (val (vy s) * val (vy v))). lra.
  - rewrite <- D3'. eapply G; [eapply (row_near (vz r)); [exact (proj1 L3)|exact L3|exact A3'|exact P2|exact E2|exact B3'|exact P5|exact E5|exact C3'|exact P8|exact E8]|].
    rewrite D3'. unfold e, placed, turned, ham, valQ. cbn [vx vy vz vw]. pose proof (Ze (val (vz s) * val (vz v))). lra.
  - assert (EW : vw r = four p (vw (c0 m)) (vw (c1 m)) (vw (c2 m)) (vw (c3 m)) (vx v) (vy v) (vz v) f1) by (unfold r; destruct p; reflexivity).
    rewrite EW. assert (H1 : holds (four p (vw (c0 m)) (vw (c1 m)) (vw (c2 m)) (vw (c3 m)) (vx v) (vy v) (vz v) f1) (rnd (val (vw (c3 m)) * val (f1 : f32)))).
    { apply four_fourth; try assumption; rewrite ?A4', ?B4', ?C4', ?D4', ?V1; try ring. rewrite Rmult_1_r. apply small_le with 1; [rewrite Rabs_R1|]; lra. }
    destruct H1 as [FH VH]. split; [exact FH|]. rewrite VH, D4', V1, Rmult_1_r. exact (rnd_Z 1 ltac:(lia)).
Qed.
Theorem model_matrix : forall p (pos q s : vec4 f32), inRange pos -> moderate (l4 q) -> inRange s ->
  let m := calcModel p pos q s in let u := unitized (valQ q) in
  colNear (c0 m) (vx s) (turned u axisX) /\ colNear (c1 m) (vy s) (turned u axisY) /\ colNear (c2 m) (vz s) (turned u axisZ) /\
  allFin (l4 (c3 m)) /\ reals (l4 (c3 m)) = reals (l43 pos) ++ [1].
Proof.
  intros p pos q s Hp Hq Hs m. cbv zeta. destruct one_lit as [F1 V1].
  pose proof (model_entries p pos q s Hp Hq Hs) as ME. cbv zeta in ME. fold m in ME. set (n := rotN p q) in *.
  destruct ME as (((A1 & A1') & (A2 & A2') & (A3 & A3') & A4 & A4') & ((B1 & B1') & (B2 & B2') & (B3 & B3') & B4 & B4') &
    ((C1 & C1') & (C2 & C2') & (C3 & C3') & C4 & C4') & ((D1 & D1') & (D2 & D2') & (D3 & D3') & D4 & D4')).
  destruct (entries _ _ _ (rotN_near p q Hq)) as (Hu & P0 & P1 & P2 & P3 & P4 & P5 & P6 & P7 & P8).
  destruct (unit_entries _ Hu) as ((E0 & E1 & E2) & (E3 & E4 & E5) & (E6 & E7 & E8)). fold n in P0, P1, P2, P3, P4, P5, P6, P7, P8.
  assert (G : forall (a k t : f32) X Y, fin a -> val a = rnd (val k * val t) -> ab (28.6 * / 16777216) k X -> -1 <= X <= 1 -> X = Y ->
    fin a /\ Rabs (val a - Y * val t) <= 30 * ulp1 * Rabs (val t) + bpow radix2 (-150)).
  { intros a k t X Y F V N B <-. split; [exact F|]. pose proof (term_near a k t f1 X V N B) as T. rewrite V1, !Rmult_1_r, Rabs_R1, Rmult_1_r in T.
    change (bpow radix2 (-150)) with eta0. unfold ulp1. pose proof (Rabs_pos (val t)). lra. }
  unfold unitQ, norm2 in Hu. set (u := unitized (valQ q)) in *. clearbody u. destruct u as [X Y Z W]. cbn [vx vy vz vw] in *.
  split; [|split; [|split; [|split]]].
  - split; [|split; assumption]. unfold l43, turned, ham, axisX. cbn [vx vy vz vw]. repeat apply Forall2_cons; try apply Forall2_nil.
    + eapply G; [exact A1|exact A1'|exact P0|exact E0|lra].
    + eapply G; [exact A2|exact A2'|exact P1|exact E1|lra].
    + eapply G; [exact A3|exact A3'|exact P2|exact E2|lra].
  - split; [|split; assumption]. unfold l43, turned, ham, axisY. cbn [vx vy vz vw]. repeat apply Forall2_cons; try apply Forall2_nil.
    + eapply G; [exact B1|exact B1'|exact P3|exact E3|lra].
    + eapply G; [exact B2|exact B2'|exact P4|exact E4|lra].
    + eapply G; [exact B3|exact B3'|exact P5|exact E5|lra].
  - split; [|split; assumption]. unfold l43, turned, ham, axisZ. cbn [vx vy vz vw]. repeat apply Forall2_cons; try apply Forall2_nil.
    + eapply G; [exact C1|exact C1'|exact P6|exact E6|lra].
    + eapply G; [exact C2|exact C2'|exact P7|exact E7|lra].
    + eapply G; [exact C3|exact C3'|exact P8|exact E8|lra].
  - unfold allFin, l4. repeat (apply Forall_cons; [assumption|]). apply Forall_nil.
  - unfold reals, l4, l43. cbn [map app]. rewrite D1', D2', D3', D4'. reflexivity.
Qed.
