(** C134: depth values in binary32. *)
From Coq Require Import ZArith Bool List Reals Lra Lia Psatz.
From Flocq Require Import Core.Core IEEE754.Binary IEEE754.Bits.
From Verif.Model Require Import Outcome Scalar Vec Simd Matrix Trig Transform.
From Verif.Spec Require Import GeomSpec MatSpec ProjSpec DepthSpec.
From Verif.Proofs Require Import OrdScalar F32Round F32Err Approx RayErr CullProofs AabbWitness.
Local Open Scope R_scope.

(** ** Relative errors *)
Definition near (k x X : R) : Prop := Rabs (x - X) <= k * u24 * Rabs X.
Lemma near_factor : forall k x X, near k x X -> X <> 0 -> exists e, Rabs e <= k * u24 /\ x = X * (1 + e).
Proof.
  intros k x X H N. assert (P : 0 < Rabs X) by (apply Rabs_pos_lt; exact N). exists ((x - X) / X). split.
  - unfold Rdiv. rewrite Rabs_mult, Rabs_inv. apply Rmult_le_reg_r with (Rabs X); [exact P|]. rewrite Rmult_assoc, Rinv_l by lra. unfold near in H. lra.
  - field. exact N.
Qed.
Lemma near_of : forall k X e, Rabs e <= k * u24 -> near k (X * (1 + e)) X.
Proof.
  intros k X e H. unfold near. replace (X * (1 + e) - X) with (e * X) by ring. rewrite Rabs_mult.
  apply Rmult_le_compat_r; [apply Rabs_pos|exact H].
Qed.
Lemma near_mul : forall k j x y X Y, 0 <= k <= 10 -> 0 <= j <= 10 -> X <> 0 -> Y <> 0 -> near k x X -> near j y Y -> near (k + j + / 1000) (x * y) (X * Y).
Proof.
  intros k j x y X Y Hk Hj NX NY A B. destruct (near_factor _ _ _ A NX) as (e & He & ->), (near_factor _ _ _ B NY) as (d & Hd & ->).
  replace (X * (1 + e) * (Y * (1 + d))) with (X * Y * (1 + (e + d + e * d))) by ring. apply near_of.
  rewrite u24_val in *. assert (E : Rabs (e * d) <= / 1000 * / 16777216).
  { rewrite Rabs_mult. pose proof (Rabs_pos e). pose proof (Rabs_pos d).
    apply Rle_trans with ((10 * / 16777216) * (10 * / 16777216)); [apply Rmult_le_compat; lra|lra]. }
  pose proof (Rabs_triang (e + d) (e * d)). pose proof (Rabs_triang e d). lra.
Qed.
Lemma near_div : forall k j x y X Y, 0 <= k <= 10 -> 0 <= j <= 10 -> X <> 0 -> Y <> 0 -> near k x X -> near j y Y -> near (k + j + / 1000) (x / y) (X / Y).
Proof.
  intros k j x y X Y Hk Hj NX NY A B. destruct (near_factor _ _ _ A NX) as (e & He & ->), (near_factor _ _ _ B NY) as (d & Hd & ->).
  rewrite u24_val in *. assert (D : Rabs d <= 10 * / 16777216) by lra. apply Rabs_le_inv in D.
  replace (X * (1 + e) / (Y * (1 + d))) with (X / Y * (1 + (e - d) / (1 + d))) by (field; split; [lra|exact NY]).
  apply near_of. unfold Rdiv. rewrite Rabs_mult, Rabs_inv, (Rabs_pos_eq (1 + d)) by lra.
  assert (Rabs (e - d) <= (k + j) * / 16777216).
  { unfold Rminus. pose proof (Rabs_triang e (- d)) as T. rewrite Rabs_Ropp in T. lra. }
  assert (/ (1 + d) <= 1 + / 100000).
  { apply Rle_trans with (/ (1 - 10 * / 16777216)); [apply Rinv_le_contravar; lra|]. lra. }
  assert (0 < / (1 + d)) by (apply Rinv_0_lt_compat; lra).
  rewrite u24_val. apply Rle_trans with ((k + j) * / 16777216 * (1 + / 100000)); [apply Rmult_le_compat; try apply Rabs_pos; lra|]. lra.
Qed.
Lemma near_rnd : forall k x X, 0 <= k <= 10 -> X <> 0 -> bpow radix2 (-126) <= Rabs x -> near k x X -> near (k + 1 + / 1000) (rnd x) X.
Proof.
  intros k x X Hk N L A. destruct (rel_normal x L) as (e & He & ->).
  assert (B : near 1 (1 + e) 1) by (replace (1 + e) with (1 * (1 + e)) by ring; apply near_of; lra).
  replace X with (X * 1) by ring. apply near_mul; try lra; assumption.
Qed.
Lemma near_low : forall k x X, 0 <= k <= 10 -> near k x X -> Rabs X / 2 <= Rabs x <= 2 * Rabs X.
Proof.
  intros k x X Hk A. unfold near in A. rewrite u24_val in A. pose proof (Rabs_pos X).
  assert (k * / 16777216 * Rabs X <= / 2 * Rabs X) by (apply Rmult_le_compat_r; lra).
  pose proof (Rabs_triang_inv X x) as T1. pose proof (Rabs_triang_inv x X) as T2. rewrite (Rabs_minus_sym X x) in T1. lra.
Qed.
Lemma near_refl : forall x, near 0 x x.
Proof. intros x. unfold near. rewrite Rminus_eq_0, Rabs_R0. lra. Qed.
Lemma near_opp : forall k x X, near k x X -> near k (- x) (- X).
Proof. intros k x X H. unfold near in *. replace (- x - - X) with (- (x - X)) by ring. rewrite !Rabs_Ropp. exact H. Qed.

(** ** Two rows of the projected point *)
Definition lane (p : path) (A B x y z : f32) : f32 :=
  match p with GEN => (f0 * x + f0 * y + A * z + B * f1)%sc
  | _ => simdfma p B f1 (simdfma p A z (simdfma p f0 y (f0 * x)%sc)) end.
Lemma small0 : small 0.
Proof. unfold small. rewrite Rabs_R0. apply bpow_ge_0. Qed.
Lemma rnd_small_le : forall x, small x -> small (rnd x).
Proof.
  intros x H. unfold small in *. apply Rabs_le_inv in H.
  assert (E : rnd (bpow radix2 127) = bpow radix2 127).
  { pose proof (rnd_lit 1 127 ltac:(lia) ltac:(lia)) as L. rewrite Rmult_1_l in L. exact L. }
  apply Rabs_le. split; [rewrite <- E, <- rnd_opp|rewrite <- E]; apply rnd_le; lra.
Qed.
Lemma fma_step : forall p (a b c : f32), fin a -> fin b -> fin c -> (val c = 0 -> small (val a * val b)) ->
  (val c = 0 -> fin (simdfma p a b c) /\ val (simdfma p a b c) = rnd (val a * val b)).
Proof.
  intros p a b c Fa Fb Fc H C. specialize (H C).
  assert (G1 : fin (sfma a b c) /\ val (sfma a b c) = rnd (val a * val b)).
  { destruct (fma_small a b c Fa Fb Fc) as [F V]; [rewrite C, Rplus_0_r; exact H|]. split; [exact F|]. rewrite V, C, Rplus_0_r. reflexivity. }
  assert (G2 : fin (c + a * b)%sc /\ val (c + a * b)%sc = rnd (val a * val b)).
  { destruct (mul_small a b Fa Fb H) as [F V]. destruct (add_small c (a * b)%sc Fc F) as [F' V'].
    - rewrite C, Rplus_0_l, V. apply rnd_small_le, H.
    - split; [exact F'|]. rewrite V', C, Rplus_0_l, V. rewrite <- V. apply rnd_val. }
  destruct p; first [exact G1 | exact G2].
Qed.
Lemma one_step : forall p (b c : f32), fin b -> fin c -> small (val c + val b) ->
  fin (simdfma p b f1 c) /\ val (simdfma p b f1 c) = rnd (val c + val b).
Proof.
  intros p b c Fb Fc H. destruct f1_fin as [F1 V1].
  assert (V1' : val (f1 : f32) = 1) by exact V1.
  assert (G1 : fin (sfma b f1 c) /\ val (sfma b f1 c) = rnd (val c + val b)).
  { destruct (fma_small b f1 c Fb F1 Fc) as [F V]; [rewrite V1', Rmult_1_r, Rplus_comm; exact H|]. split; [exact F|]. rewrite V, V1', Rmult_1_r, Rplus_comm. reflexivity. }
  assert (G2 : fin (c + b * f1)%sc /\ val (c + b * f1)%sc = rnd (val c + val b)).
  { assert (S : Rabs (val b) < maxF) by apply abs_B2R_lt_emax.
    destruct (mul_fin b f1 Fb F1) as [N E]. rewrite V1', Rmult_1_r in E. unfold RX in E. rewrite rnd_val, clampR_id in E by lra.
    assert (F : fin (b * f1)%sc) by (apply ext_fin; [exact N|]; rewrite E; apply Rabs_lt_inv in S; lra).
    rewrite fin_ext in E by exact F. destruct (add_small c (b * f1)%sc Fc F) as [F' V']; [rewrite E; exact H|].
    split; [exact F'|]. rewrite V', E. reflexivity. }
  destruct p; first [exact G1 | exact G2].
Qed.
Lemma lane_eval : forall p (A B x y z : f32), fin A -> fin B -> fin x -> fin y -> fin z -> small (val A * val z) ->
  small (rnd (val A * val z) + val B) -> fin (lane p A B x y z) /\ val (lane p A B x y z) = rnd (rnd (val A * val z) + val B).
Proof.
  intros p A B x y z FA FB Fx Fy Fz S1 S2. destruct f0_val as [F0 V0].
  assert (V0' : val (f0 : f32) = 0) by exact V0.
  destruct (mul_small f0 x F0 Fx) as [Fa Va]; [rewrite V0', Rmult_0_l; apply small0|]. rewrite V0', Rmult_0_l, rnd_0 in Va.
  assert (G : forall q, fin (simdfma q B f1 (simdfma q A z (simdfma q f0 y (f0 * x)%sc))) /\
    val (simdfma q B f1 (simdfma q A z (simdfma q f0 y (f0 * x)%sc))) = rnd (rnd (val A * val z) + val B)).
  { intros q.
  destruct (fma_step q f0 y (f0 * x)%sc F0 Fy Fa) as [Fb Vb]; [intros _; rewrite V0', Rmult_0_l; apply small0|exact Va|].
    rewrite V0', Rmult_0_l, rnd_0 in Vb.
    destruct (fma_step q A z _ FA Fz Fb (fun _ => S1) Vb) as [Fc Vc].
    destruct (one_step q B _ FB Fc) as [Fd Vd]; [rewrite Vc; exact S2|]. rewrite Vc in Vd. split; assumption. }
  destruct p; [apply (G SSE2)|apply (G SSE41)|apply (G AVX2)|apply (G NEON)|apply (G SSE2)].
Qed.
Section Clip.
  Context {T : Trig f32}.
  Variable p : path.
  (** the position of the point (x, y, z) in clip space *)
  Notation clip M x y z := (mulV p M (V4 x y z f1)).
  Lemma clip_inf : forall fov aspect n x y z : f32, let c := clip (calcPerspProjInfRevZ fov aspect n) x y z in
    vz c = lane p f0 n x y z /\ vw c = lane p f1 f0 x y z.
  Proof. intros. unfold c. destruct p; split; reflexivity. Qed.
  Lemma clip_rev : forall fov aspect n f x y z : f32, let c := clip (calcPerspProjRevZ fov aspect n f) x y z in
    vz c = lane p (n / (n - f))%sc (- (n * f) / (n - f))%sc x y z /\ vw c = lane p f1 f0 x y z.
  Proof. intros. unfold c. destruct p; split; reflexivity. Qed.
  Lemma clip_std : forall fov aspect n f x y z : f32, let c := clip (calcPerspProj fov aspect n f) x y z in
    vz c = lane p (f / (f - n))%sc (- (f * n) / (f - n))%sc x y z /\ vw c = lane p f1 f0 x y z.
  Proof. intros. unfold c. destruct p; split; reflexivity. Qed.
  Lemma w_eval : forall x y z : f32, fin x -> fin y -> fin z -> small (val z) -> fin (lane p f1 f0 x y z) /\ val (lane p f1 f0 x y z) = val z.
  Proof.
    intros x y z Fx Fy Fz S. destruct f0_val as [F0 V0], f1_fin as [F1 V1].
    assert (V0' : val (f0 : f32) = 0) by exact V0. assert (V1' : val (f1 : f32) = 1) by exact V1.
    destruct (lane_eval p f1 f0 x y z F1 F0 Fx Fy Fz) as [F V].
    - rewrite V1', Rmult_1_l. exact S.
    - rewrite V1', Rmult_1_l, V0', Rplus_0_r, rnd_val. exact S.
    - split; [exact F|]. rewrite V, V1', Rmult_1_l, V0', Rplus_0_r, !rnd_val. reflexivity.
  Qed.
  (** ** Infinite reversed projection *)
  Theorem depth_inf : forall fov aspect n x y z : f32, fin n -> fin x -> fin y -> fin z -> 0 < val n <= val z -> val z <= bpow radix2 127 ->
    let d := depth32 (clip (calcPerspProjInfRevZ fov aspect n) x y z) in
    fin d /\ val d = rnd (val n / val z) /\ 0 <= val d <= 1 /\ (val z = val n -> val d = 1).
  Proof.
    intros fov aspect n x y z Fn Fx Fy Fz H Hz d. unfold d, depth32.
    destruct (clip_inf fov aspect n x y z) as [-> ->]. destruct f0_val as [F0 V0]. assert (V0' : val (f0 : f32) = 0) by exact V0.
    assert (S : small (val z)) by (unfold small; rewrite Rabs_pos_eq; lra).
    destruct (w_eval x y z Fx Fy Fz S) as [Fw Vw].
    destruct (lane_eval p f0 n x y z F0 Fn Fx Fy Fz) as [Fc Vc].
    - rewrite V0', Rmult_0_l. apply small0.
    - rewrite V0', Rmult_0_l, rnd_0, Rplus_0_l. unfold small. rewrite Rabs_pos_eq; lra.
    - rewrite V0', Rmult_0_l, rnd_0, Rplus_0_l, rnd_val in Vc.
      assert (Q : 0 <= val n / val z <= 1).
      { split; [apply Rmult_le_pos; [lra|left; apply Rinv_0_lt_compat; lra]|].
        apply Rmult_le_reg_r with (val z); [lra|]. unfold Rdiv. rewrite Rmult_assoc, Rinv_l by lra. lra. }
      destruct (div_small _ _ Fc Fw) as [F V]; [rewrite Vw; lra|rewrite Vc, Vw; apply small_le with 1; [rewrite Rabs_pos_eq; lra|lra]|].
      rewrite Vc, Vw in V. split; [exact F|]. split; [exact V|]. rewrite V.
      assert (R1 : rnd 1 = 1) by (apply (rnd_Z 1); lia).
      split; [split; [rewrite <- rnd_0; apply rnd_le; lra|rewrite <- R1; apply rnd_le; lra]|].
      intros ->. unfold Rdiv. rewrite Rinv_r by lra. exact R1.
  Qed.
  Theorem depth_inf_order : forall fov aspect n x y z x' y' z' : f32, fin n -> fin x -> fin y -> fin z -> fin x' -> fin y' -> fin z' ->
    0 < val n <= val z -> val z <= val z' <= bpow radix2 127 ->
    let d := depth32 (clip (calcPerspProjInfRevZ fov aspect n) x y z) in let d' := depth32 (clip (calcPerspProjInfRevZ fov aspect n) x' y' z') in
    val d' <= val d /\ (val z * (1 + 4 / 16777216) <= val z' -> bpow radix2 (-126) <= val n / val z' -> val d' < val d).
  Proof.
    intros fov aspect n x y z x' y' z' Fn Fx Fy Fz Fx' Fy' Fz' H Hz d d'.
    destruct (depth_inf fov aspect n x y z Fn Fx Fy Fz H ltac:(lra)) as (_ & V & _).
    destruct (depth_inf fov aspect n x' y' z' Fn Fx' Fy' Fz' ltac:(lra) ltac:(lra)) as (_ & V' & _).
    fold d in V. fold d' in V'. rewrite V, V'.
    assert (Q : val n / val z' <= val n / val z) by (apply Rmult_le_compat_l; [lra|apply Rinv_le_contravar; lra]).
    split; [apply rnd_le, Q|]. intros K L.
    assert (P : 0 < val n / val z') by (apply Rdiv_lt_0_compat; lra).
    destruct (rel_normal (val n / val z')) as (e & He & E); [rewrite Rabs_pos_eq; lra|].
    destruct (rel_normal (val n / val z)) as (g & Hg & G); [rewrite Rabs_pos_eq; lra|].
    assert (M : val n / val z' * (1 + 4 / 16777216) <= val n / val z).
    { apply Rmult_le_reg_r with (val z' * val z); [apply Rmult_lt_0_compat; lra|].
      replace (val n / val z' * (1 + 4 / 16777216) * (val z' * val z)) with (val n * (val z * (1 + 4 / 16777216))) by (field; lra).
      replace (val n / val z * (val z' * val z)) with (val n * val z') by (field; lra). apply Rmult_le_compat_l; lra. }
    rewrite E, G. rewrite u24_val in He, Hg. apply Rabs_le_inv in He. apply Rabs_le_inv in Hg.
    apply Rle_lt_trans with (val n / val z' * (1 + / 16777216)); [apply Rmult_le_compat_l; lra|].
    apply Rlt_le_trans with (val n / val z' * (1 + 4 / 16777216) * (1 - / 16777216)).
    - rewrite Rmult_assoc. apply Rmult_lt_compat_l; [exact P|]. lra.
    - apply Rmult_le_compat; try lra.
  Qed.
  (** ** Finite projections *)
  (** a point at distance z under a matrix with the entries A = a / (s-t) and B = - (a b) / (s - t) *)
  Lemma p30' : bpow radix2 30 = 1073741824. Proof. reflexivity. Qed.
  Lemma entries : forall a b s t : f32, medium a -> medium b -> fin s -> fin t -> bpow radix2 (-30) <= Rabs (val s - val t) <= bpow radix2 31 ->
    let D := val s - val t in
    fin (a / (s - t))%sc /\ near 2.1 (val (a / (s - t))%sc) (val a / D) /\ / 2305843009213693952 <= Rabs (val a / D) <= 1152921504606846976 /\
    fin (- (a * b) / (s - t))%sc /\ near 3.1 (val (- (a * b) / (s - t))%sc) (- (val a * val b) / D) /\
    / 2475880078570760549798248448 <= Rabs (- (val a * val b) / D) <= 1237940039285380274899124224.
  Proof.
    intros a b s t (Fa & Ha) (Fb & Hb) Fs Ft H D. fold D in H.
    assert (M30 : bpow radix2 (-30) = / 1073741824) by reflexivity. assert (P31 : bpow radix2 31 = 2147483648) by reflexivity.
    pose proof p30' as P30. rewrite M30 in *. rewrite P30 in *. rewrite P31 in *.
    assert (Low : forall x, / 10000000000000000000000000000000000000 <= x -> bpow radix2 (-126) <= x).
    { intros x Hx. apply Rle_trans with (bpow radix2 (-123)); [apply bpow_le; lia|].
      apply Rle_trans with (/ 10000000000000000000000000000000000000); [|exact Hx].
      replace (bpow radix2 (-123)) with (/ bpow radix2 123) by (symmetry; apply (bpow_opp radix2 123)).
      apply Rinv_le_contravar; [lra|]. change (bpow radix2 123) with (IZR (2 ^ 123)). apply IZR_le. vm_compute. discriminate. }
    assert (Sm : forall x, Rabs x <= 10000000000000000000000000000000000000 -> small x).
    { intros x Hx. unfold small. eapply Rle_trans; [exact Hx|]. change (bpow radix2 127) with (IZR (2 ^ 127)). apply IZR_le. vm_compute. discriminate. }
    assert (ND : D <> 0) by (intros E; rewrite E, Rabs_R0 in H; lra).
    assert (PD : 0 < / Rabs D) by (apply Rinv_0_lt_compat; lra).
    assert (ID : / 2147483648 <= / Rabs D <= 1073741824).
    { split; [apply Rinv_le_contravar; lra|]. rewrite <- (Rinv_inv 1073741824). apply Rinv_le_contravar; lra. }
    destruct (sub_small s t Fs Ft) as [Fd Vd]; [apply Sm; fold D; lra|].
    destruct (sub_rel s t) as (e & He & Ed). fold D in Vd, Ed. rewrite Ed in Vd.
    assert (Nd : near 1 (val (s - t)%sc) D) by (rewrite Vd; apply near_of; lra).
    pose proof (near_low 1 _ _ ltac:(lra) Nd) as Bd.
    assert (Zd : val (s - t)%sc <> 0) by (intros E; rewrite E, Rabs_R0 in Bd; lra).
    assert (Na0 : val a <> 0) by lra. assert (Nb0 : val b <> 0) by lra.
    (* A *)
    pose proof (near_div 0 1 (val a) _ (val a) D ltac:(lra) ltac:(lra) Na0 ND (near_refl _) Nd) as QA.
    pose proof (near_low (0 + 1 + / 1000) _ _ ltac:(lra) QA) as BA.
    assert (BA' : / 2305843009213693952 <= Rabs (val a / D) <= 1152921504606846976).
    { unfold Rdiv. rewrite Rabs_mult, Rabs_inv, (Rabs_pos_eq (val a)) by lra. split.
      - apply Rle_trans with (/ 1073741824 * / 2147483648); [lra|apply Rmult_le_compat; lra].
      - apply Rle_trans with (1073741824 * 1073741824); [apply Rmult_le_compat; lra|lra]. }
    destruct (div_small a _ Fa Fd Zd) as [FA VA]; [apply Sm; lra|].
    split; [exact FA|]. split.
    { rewrite VA. assert (T2 : val a / D <> 0) by (intros E; rewrite E, Rabs_R0 in BA'; lra).
      assert (T1 : bpow radix2 (-126) <= Rabs (val a / val (s - t)%sc)) by (apply Low; lra).
      assert (T3 : 0 <= 0 + 1 + / 1000 <= 10) by lra.
      assert (X := near_rnd (0 + 1 + / 1000) _ (val a / D) T3 T2 T1 QA).
      unfold near in *. eapply Rle_trans; [exact X|]. apply Rmult_le_compat_r; [apply Rabs_pos|]. rewrite u24_val. lra. }
    split; [exact BA'|].
    (* B *)
    assert (Bab : / 1152921504606846976 <= val a * val b <= 1152921504606846976).
    { split; [apply Rle_trans with (/ 1073741824 * / 1073741824); [lra|]|apply Rle_trans with (1073741824 * 1073741824); [|lra]]; apply Rmult_le_compat; lra. }
    destruct (mul_small a b Fa Fb) as [Fp Vp]; [apply Sm; rewrite Rabs_pos_eq; lra|].
    assert (Np : near 1.001 (val (a * b)%sc) (val a * val b)).
    { rewrite Vp. assert (X := near_rnd 0 _ (val a * val b) ltac:(lra) ltac:(lra) (Low (Rabs (val a * val b)) ltac:(rewrite Rabs_pos_eq; lra)) (near_refl _)).
      unfold near in *. eapply Rle_trans; [exact X|]. apply Rmult_le_compat_r; [apply Rabs_pos|]. rewrite u24_val. lra. }
    assert (Fo : fin (- (a * b))%sc) by (cbn [sneg ScalarF32]; unfold b32_opp; rewrite is_finite_Bopp; exact Fp).
    assert (Vo : val (- (a * b))%sc = - val (a * b)%sc) by (cbn [sneg ScalarF32]; unfold b32_opp; apply B2R_Bopp).
    pose proof (near_div 1.001 1 _ _ (- (val a * val b)) D ltac:(lra) ltac:(lra) ltac:(lra) ND (near_opp _ _ _ Np) Nd) as QB.
    rewrite <- Vo in QB.
    pose proof (near_low (1.001 + 1 + / 1000) _ _ ltac:(lra) QB) as BB.
    assert (BB' : / 2475880078570760549798248448 <= Rabs (- (val a * val b) / D) <= 1237940039285380274899124224).
    { unfold Rdiv. rewrite Rabs_mult, Rabs_inv, Rabs_Ropp, (Rabs_pos_eq (val a * val b)) by lra. split.
      - apply Rle_trans with (/ 1152921504606846976 * / 2147483648); [lra|apply Rmult_le_compat; lra].
      - apply Rle_trans with (1152921504606846976 * 1073741824); [apply Rmult_le_compat; lra|lra]. }
    destruct (div_small _ _ Fo Fd Zd) as [FB VB]; [apply Sm; lra|].
    split; [exact FB|]. split; [|exact BB'].
    rewrite VB. assert (T2 : - (val a * val b) / D <> 0) by (intros E; rewrite E, Rabs_R0 in BB'; lra).
    assert (T1 : bpow radix2 (-126) <= Rabs (val (- (a * b))%sc / val (s - t)%sc)) by (apply Low; lra).
    assert (T3 : 0 <= 1.001 + 1 + / 1000 <= 10) by lra.
    assert (X := near_rnd (1.001 + 1 + / 1000) _ (- (val a * val b) / D) T3 T2 T1 QB).
    unfold near in *. eapply Rle_trans; [exact X|]. apply Rmult_le_compat_r; [apply Rabs_pos|]. rewrite u24_val. lra.
  Qed.
  Lemma eta_tiny : eta0 <= / 1000000000000000000000000000000000000000000000.
  Proof.
    unfold eta0. replace (bpow radix2 (-150)) with (/ bpow radix2 150) by (symmetry; apply (bpow_opp radix2 150)).
    apply Rinv_le_contravar; [lra|]. change (bpow radix2 150) with (IZR (2 ^ 150)). apply IZR_le. vm_compute. discriminate.
  Qed.
  Lemma finite_near : forall (A B x y z : f32) Ae Be, fin A -> fin B -> fin x -> fin y -> medium z -> near 2.1 (val A) Ae -> near 3.1 (val B) Be ->
    / 2305843009213693952 <= Rabs Ae <= 1152921504606846976 -> / 2475880078570760549798248448 <= Rabs Be <= 1237940039285380274899124224 ->
    let c := lane p A B x y z in let d := sdiv c (lane p f1 f0 x y z) in
    fin c /\ val c = rnd (rnd (val A * val z) + val B) /\ fin d /\ val d = rnd (val c / val z) /\
    Rabs (val d - (Ae + Be / val z)) <= 5.4 / 16777216 * (Rabs Ae + Rabs Be / val z).
  Proof.
    intros A B x y z Ae Be FA FB Fx Fy (Fz & Hz) NA NB BA BB c d.
    assert (M30 : bpow radix2 (-30) = / 1073741824) by reflexivity. pose proof p30' as P30. rewrite M30, P30 in Hz.
    pose proof eta_tiny as ET. pose proof eta0_pos as EP.
    assert (Sm : forall x, Rabs x <= 10000000000000000000000000000000000000 -> small x).
    { intros r Hx. unfold small. eapply Rle_trans; [exact Hx|]. change (bpow radix2 127) with (IZR (2 ^ 127)). apply IZR_le. vm_compute. discriminate. }
    set (a := Rabs Ae) in *. set (b := Rabs Be) in *. set (Z := val z) in *.
    assert (Naz : near 2.2 (val A * Z) (Ae * Z)).
    { assert (X := near_mul 2.1 0 (val A) Z Ae Z ltac:(lra) ltac:(lra) ltac:(intros E; subst a; rewrite E, Rabs_R0 in BA; lra) ltac:(lra) NA (near_refl _)).
      unfold near in *. eapply Rle_trans; [exact X|]. apply Rmult_le_compat_r; [apply Rabs_pos|]. rewrite u24_val. lra. }
    assert (EaZ : Rabs (Ae * Z) = a * Z) by (rewrite Rabs_mult, (Rabs_pos_eq Z) by lra; reflexivity).
    assert (LaZ : / 2305843009213693952 * / 1073741824 <= a * Z <= 1152921504606846976 * 1073741824) by (split; apply Rmult_le_compat; lra).
    pose proof (near_low 2.2 _ _ ltac:(lra) Naz) as Laz. rewrite EaZ in Laz.
    assert (NM : near 3.3 (rnd (val A * Z)) (Ae * Z)).
    { assert (X := near_rnd 2.2 (val A * Z) (Ae * Z) ltac:(lra) ltac:(intros E; rewrite E, Rabs_R0 in EaZ; lra)
        ltac:(apply Rle_trans with (bpow radix2 (-100)); [apply bpow_le; lia|];
          replace (bpow radix2 (-100)) with (/ bpow radix2 100) by (symmetry; apply (bpow_opp radix2 100));
          change (bpow radix2 100) with 1267650600228229401496703205376; lra) Naz).
      unfold near in *. eapply Rle_trans; [exact X|]. apply Rmult_le_compat_r; [apply Rabs_pos|]. rewrite u24_val. lra. }
    unfold near in NM, NB. rewrite EaZ in NM. fold b in NB. rewrite u24_val in NM, NB.
    set (M := rnd (val A * Z)) in *.
    assert (aM : Rabs M <= 2 * (a * Z)).
    { pose proof (Rabs_triang (Ae * Z) (M - Ae * Z)) as TT. replace (Ae * Z + (M - Ae * Z)) with M in TT by ring. rewrite EaZ in TT. lra. }
    assert (aB : Rabs (val B) <= 2 * b).
    { pose proof (Rabs_triang Be (val B - Be)) as TT. replace (Be + (val B - Be)) with (val B) in TT by ring. fold b in TT. lra. }
    assert (aMB : Rabs (M + val B) <= 2 * (a * Z) + 2 * b) by (pose proof (Rabs_triang M (val B)); lra).
    assert (aMB' : Rabs (M + val B) <= (1 + 4 / 16777216) * (a * Z + b)).
    { pose proof (Rabs_triang (Ae * Z + Be) ((M - Ae * Z) + (val B - Be))) as TT. replace (Ae * Z + Be + (M - Ae * Z + (val B - Be))) with (M + val B) in TT by ring.
      pose proof (Rabs_triang (Ae * Z) Be) as T2. rewrite EaZ in T2. fold b in T2. pose proof (Rabs_triang (M - Ae * Z) (val B - Be)) as T3. lra. }
    destruct (lane_eval p A B x y z FA FB Fx Fy Fz) as [Fc Vc].
    - apply Sm. fold Z. lra.
    - apply Sm. fold Z M. lra.
    - fold Z in Vc. fold M in Vc. fold c in Fc, Vc.
      assert (Dc : Rabs (val c - (Ae * Z + Be)) <= 4.302 / 16777216 * (a * Z + b)).
      { pose proof (rnd_err (M + val B)) as R. rewrite <- Vc, u24_val in R.
        replace (val c - (Ae * Z + Be)) with ((val c - (M + val B)) + ((M - Ae * Z) + (val B - Be))) by ring.
        eapply Rle_trans; [apply Rabs_triang|]. pose proof (Rabs_triang (M - Ae * Z) (val B - Be)) as T3. lra. }
      destruct (w_eval x y z Fx Fy Fz) as [Fw Vw]; [apply Sm; fold Z; rewrite Rabs_pos_eq; lra|]. fold Z in Vw.
      split; [exact Fc|]. split; [exact Vc|].
      assert (Pz : 0 < / Z) by (apply Rinv_0_lt_compat; lra).
      assert (Iz : / Z <= 1073741824) by (rewrite <- (Rinv_inv 1073741824); apply Rinv_le_contravar; lra).
      assert (Qz : (a * Z + b) * / Z = a + b / Z) by (field; lra).
      assert (Lg : a <= a + b / Z) by (assert (0 <= b / Z) by (apply Rmult_le_pos; lra); lra).
      assert (Ug : a + b / Z <= 1152921504606846976 + 1237940039285380274899124224 * 1073741824).
      { apply Rplus_le_compat; [lra|]. apply Rmult_le_compat; lra. }
      assert (Dq : Rabs (val c / Z - (Ae + Be / Z)) <= 4.302 / 16777216 * (a + b / Z)).
      { replace (val c / Z - (Ae + Be / Z)) with ((val c - (Ae * Z + Be)) * / Z) by (field; lra).
        rewrite Rabs_mult, (Rabs_pos_eq (/ Z)) by lra. rewrite <- Qz, <- Rmult_assoc. apply Rmult_le_compat_r; lra. }
      assert (De : Rabs (Ae + Be / Z) <= a + b / Z).
      { eapply Rle_trans; [apply Rabs_triang|]. unfold Rdiv. rewrite Rabs_mult, (Rabs_pos_eq (/ Z)) by lra. fold a b. lra. }
      assert (Ac : Rabs (val c / Z) <= (1 + 5 / 16777216) * (a + b / Z)).
      { pose proof (Rabs_triang (Ae + Be / Z) (val c / Z - (Ae + Be / Z))) as TT. replace (Ae + Be / Z + (val c / Z - (Ae + Be / Z))) with (val c / Z) in TT by ring. lra. }
      destruct (div_small c (lane p f1 f0 x y z) Fc Fw) as [Fd Vd]; [rewrite Vw; lra|rewrite Vw; apply Sm; lra|].
      rewrite Vw in Vd. fold d in Fd, Vd. split; [exact Fd|]. split; [exact Vd|].
      pose proof (rnd_err (val c / Z)) as R. rewrite <- Vd, u24_val in R.
      replace (val d - (Ae + Be / Z)) with ((val d - val c / Z) + (val c / Z - (Ae + Be / Z))) by ring.
      eapply Rle_trans; [apply Rabs_triang|]. lra.
  Qed.
  Section Finite.
    Variables fov aspect n f x y z : f32.
    Hypothesis Mn : medium n. Hypothesis Mf : medium f. Hypothesis Mz : medium z. Hypothesis Fx : fin x. Hypothesis Fy : fin y.
    Hypothesis Gap : bpow radix2 (-30) <= val f - val n.
    Let N := val n. Let Fr := val f. Let Z := val z.
    Lemma ranges : 0 < N /\ 0 < Fr /\ 0 < Z /\ 0 < Fr - N <= bpow radix2 31.
    Proof.
      destruct Mn as [_ H1], Mf as [_ H2], Mz as [_ H3]. pose proof (bpow_gt_0 radix2 (-30)). unfold N, Fr, Z.
      assert (bpow radix2 30 <= bpow radix2 31) by (apply bpow_le; lia). lra.
    Qed.
    Theorem rev_near : let d := depth32 (clip (calcPerspProjRevZ fov aspect n f) x y z) in
      fin d /\ Rabs (val d - depthRev N Fr Z) <= 5.4 / 16777216 * (N * (Z + Fr) / (Z * (Fr - N))).
    Proof.
      intros d. destruct ranges as (PN & PF & PZ & PG). unfold d, depth32. destruct (clip_rev fov aspect n f x y z) as [-> ->].
      destruct (entries n f n f Mn Mf (proj1 Mn) (proj1 Mf)) as (FA & NA & BA & FB & NB & BB).
      { rewrite Rabs_minus_sym, Rabs_pos_eq by (fold N Fr; lra). fold N Fr. unfold N, Fr in *. lra. }
      destruct (finite_near _ _ x y z _ _ FA FB Fx Fy Mz NA NB BA BB) as (_ & _ & Fd & _ & E). fold N Fr Z in E.
      split; [exact Fd|].
      assert (S1 : Rabs (N / (N - Fr)) = N / (Fr - N)).
      { replace (N / (N - Fr)) with (- (N / (Fr - N))) by (field; lra). rewrite Rabs_Ropp. apply Rabs_pos_eq. apply Rmult_le_pos; [lra|left; apply Rinv_0_lt_compat; lra]. }
      assert (S2 : Rabs (- (N * Fr) / (N - Fr)) = N * Fr / (Fr - N)).
      { replace (- (N * Fr) / (N - Fr)) with (N * Fr / (Fr - N)) by (field; lra). apply Rabs_pos_eq. apply Rmult_le_pos; [apply Rmult_le_pos; lra|left; apply Rinv_0_lt_compat; lra]. }
      rewrite S1, S2 in E. unfold depthRev. fold N Fr Z.
      replace (N * (Fr - Z) / (Z * (Fr - N))) with (N / (N - Fr) + - (N * Fr) / (N - Fr) / Z) by (field; lra).
      replace (N * (Z + Fr) / (Z * (Fr - N))) with (N / (Fr - N) + N * Fr / (Fr - N) / Z) by (field; lra). exact E.
    Qed.
    Theorem std_near : let d := depth32 (clip (calcPerspProj fov aspect n f) x y z) in
      fin d /\ Rabs (val d - depthStd N Fr Z) <= 5.4 / 16777216 * (Fr * (Z + N) / (Z * (Fr - N))).
    Proof.
      intros d. destruct ranges as (PN & PF & PZ & PG). unfold d, depth32. destruct (clip_std fov aspect n f x y z) as [-> ->].
      destruct (entries f n f n Mf Mn (proj1 Mf) (proj1 Mn)) as (FA & NA & BA & FB & NB & BB).
      { rewrite Rabs_pos_eq by (fold N Fr; lra). unfold N, Fr in *. lra. }
      destruct (finite_near _ _ x y z _ _ FA FB Fx Fy Mz NA NB BA BB) as (_ & _ & Fd & _ & E). fold N Fr Z in E.
      split; [exact Fd|].
      assert (PI : 0 < / (Fr - N)) by (apply Rinv_0_lt_compat; lra).
      assert (S1 : Rabs (Fr / (Fr - N)) = Fr / (Fr - N)) by (apply Rabs_pos_eq; apply Rmult_le_pos; lra).
      assert (S2 : Rabs (- (Fr * N) / (Fr - N)) = Fr * N / (Fr - N)).
      { unfold Rdiv. rewrite Rabs_mult, Rabs_Ropp, !Rabs_pos_eq; [reflexivity|lra|apply Rmult_le_pos; lra]. }
      rewrite S1, S2 in E. unfold depthStd. fold N Fr Z.
      replace (Fr * (Z - N) / (Z * (Fr - N))) with (Fr / (Fr - N) + - (Fr * N) / (Fr - N) / Z) by (field; lra).
      replace (Fr * (Z + N) / (Z * (Fr - N))) with (Fr / (Fr - N) + Fr * N / (Fr - N) / Z) by (field; lra). exact E.
    Qed.
    (** nearer points of the reversed projection do not get smaller depths *)
    Theorem rev_order : forall x' y' z' : f32, fin x' -> fin y' -> medium z' -> val z <= val z' ->
      let c := clip (calcPerspProjRevZ fov aspect n f) x y z in let c' := clip (calcPerspProjRevZ fov aspect n f) x' y' z' in
      val (vz c') <= val (vz c) /\ (0 <= val (vz c') -> val (depth32 c') <= val (depth32 c)).
    Proof.
      intros x' y' z' Fx' Fy' Mz' L c c'. destruct ranges as (PN & PF & PZ & PG). fold Z in L. unfold c, c', depth32.
      destruct (clip_rev fov aspect n f x y z) as [-> ->]. destruct (clip_rev fov aspect n f x' y' z') as [-> ->].
      destruct (entries n f n f Mn Mf (proj1 Mn) (proj1 Mf)) as (FA & NA & BA & FB & NB & BB).
      { rewrite Rabs_minus_sym, Rabs_pos_eq by (fold N Fr; lra). fold N Fr. unfold N, Fr in *. lra. }
      destruct (finite_near _ _ x y z _ _ FA FB Fx Fy Mz NA NB BA BB) as (_ & Vc & _ & Vd & _).
      destruct (finite_near _ _ x' y' z' _ _ FA FB Fx' Fy' Mz' NA NB BA BB) as (_ & Vc' & _ & Vd' & _).
      fold N Fr in NA, BA. fold Z in Vc, Vd.
      set (A := (n / (n - f))%sc) in *. set (B := (- (n * f) / (n - f))%sc) in *. clearbody A B.
      assert (SA : val A <= 0).
      { assert (Nz : N / (N - Fr) <> 0) by (intros E; rewrite E, Rabs_R0 in BA; lra).
        destruct (near_factor _ _ _ NA Nz) as (e & He & ->). rewrite u24_val in He. apply Rabs_le_inv in He.
        assert (N / (N - Fr) <= 0). { replace (N / (N - Fr)) with (- (N / (Fr - N))) by (field; lra). assert (0 < N / (Fr - N)) by (apply Rdiv_lt_0_compat; lra). lra. }
        replace 0 with (0 * (1 + e)) by ring. apply Rmult_le_compat_r; lra. }
      assert (O : val (lane p A B x' y' z') <= val (lane p A B x y z)).
      { rewrite Vc, Vc'. apply rnd_le, Rplus_le_compat_r, rnd_le. apply Rmult_le_compat_neg_l; assumption. }
      split; [exact O|]. intros Q. rewrite Vd, Vd'. apply rnd_le. apply Rmult_le_compat; [exact Q| |exact O|apply Rinv_le_contravar; lra].
      left. apply Rinv_0_lt_compat. lra.
    Qed.
  End Finite.
End Clip.
(** ** Wrong orders and ranges *)
Lemma slt_val : forall a b : f32, fin a -> fin b -> slt a b = true -> val a < val b.
Proof.
  intros a b Fa Fb H. rewrite (slt_ext a b (fin_num _ Fa) (fin_num _ Fb)), !fin_ext in H by assumption.
  destruct (Rlt_bool_spec (val a) (val b)); [assumption|discriminate].
Qed.
Lemma medium_lit : forall m e, (Z.abs m < 2 ^ 24)%Z -> (-149 <= e <= 104)%Z -> bpow radix2 (-30) <= IZR m * bpow radix2 e <= bpow radix2 30 ->
  medium (slit m e) /\ val (slit m e : f32) = IZR m * bpow radix2 e.
Proof.
  intros m e Hm He H. destruct (lit_exact m e Hm He) as [F V]. split; [|exact V].
  split; [exact F|]. rewrite V. exact H.
Qed.
Ltac med := apply medium_lit; [lia|lia|split; [apply Rle_trans with (bpow radix2 (-10)); [apply bpow_le; lia|cbn; lra]|
  apply Rle_trans with (bpow radix2 10); [cbn; lra|apply bpow_le; lia]]].
Theorem std_disorder : forall (T : Trig f32) p fov aspect, exists n f z z' : f32, medium n /\ medium f /\ medium z /\ medium z' /\
  val n = 1 /\ val f = 3 /\ 1 < val z < val z' /\ val z' < 3 /\
  let d := depth32 (mulV p (calcPerspProj fov aspect n f) (V4 f0 f0 z f1)) in let d' := depth32 (mulV p (calcPerspProj fov aspect n f) (V4 f0 f0 z' f1)) in
  fin d /\ fin d' /\ val d' < val d.
Proof.
  intros T p fov aspect. exists (slit 1 0), (slit 3 0), (slit 11184813 (-23)), (slit 11184814 (-23)).
  assert (Mn : medium (slit 1 0) /\ val (slit 1 0 : f32) = IZR 1 * bpow radix2 0) by med.
  assert (Mf : medium (slit 3 0) /\ val (slit 3 0 : f32) = IZR 3 * bpow radix2 0) by med.
  assert (Mz : medium (slit 11184813 (-23)) /\ val (slit 11184813 (-23) : f32) = IZR 11184813 * bpow radix2 (-23)) by med.
  assert (Mz' : medium (slit 11184814 (-23)) /\ val (slit 11184814 (-23) : f32) = IZR 11184814 * bpow radix2 (-23)) by med.
  destruct Mn as [Mn Vn], Mf as [Mf Vf], Mz as [Mz Vz], Mz' as [Mz' Vz'].
  split; [exact Mn|]. split; [exact Mf|]. split; [exact Mz|]. split; [exact Mz'|].
  assert (M23 : bpow radix2 (-23) = / 8388608) by reflexivity. assert (B0 : bpow radix2 0 = 1) by reflexivity.
  rewrite M23 in Vz, Vz'. rewrite B0 in Vn, Vf.
  split; [rewrite Vn; lra|]. split; [rewrite Vf; lra|]. split; [rewrite Vz, Vz'; lra|]. split; [rewrite Vz'; lra|].
  intros d d'.
  assert (E : forall z, depth32 (mulV p (calcPerspProj fov aspect (slit 1 0) (slit 3 0)) (V4 f0 f0 z f1)) =
    sdiv (lane p (slit 3 0 / (slit 3 0 - slit 1 0))%sc (- (slit 3 0 * slit 1 0) / (slit 3 0 - slit 1 0))%sc f0 f0 z) (lane p f1 f0 f0 f0 z)).
  { intros z. unfold depth32. destruct (clip_std p fov aspect (slit 1 0) (slit 3 0) f0 f0 z) as [-> ->]. reflexivity. }
  unfold d, d'. rewrite !E. clear.
  assert (F1 : fin (sdiv (lane p (slit 3 0 / (slit 3 0 - slit 1 0))%sc (- (slit 3 0 * slit 1 0) / (slit 3 0 - slit 1 0))%sc f0 f0 (slit 11184813 (-23))) (lane p f1 f0 f0 f0 (slit 11184813 (-23))) : f32))
    by (destruct p; vm_compute; reflexivity).
  assert (F2 : fin (sdiv (lane p (slit 3 0 / (slit 3 0 - slit 1 0))%sc (- (slit 3 0 * slit 1 0) / (slit 3 0 - slit 1 0))%sc f0 f0 (slit 11184814 (-23))) (lane p f1 f0 f0 f0 (slit 11184814 (-23))) : f32))
    by (destruct p; vm_compute; reflexivity).
  split; [exact F1|]. split; [exact F2|]. apply slt_val; [exact F2|exact F1|]. destruct p; vm_compute; reflexivity.
Qed.
(** near plane 0.1f, far plane 10 *)
Theorem rev_range : forall (T : Trig f32) p fov aspect, exists n f : f32, medium n /\ medium f /\ val f = 10 /\ val n = 13421773 * bpow radix2 (-27) /\
  let d := depth32 (mulV p (calcPerspProjRevZ fov aspect n f) (V4 f0 f0 n f1)) in let d' := depth32 (mulV p (calcPerspProjRevZ fov aspect n f) (V4 f0 f0 f f1)) in
  fin d /\ fin d' /\ 1 < val d /\ val d' < 0.
Proof.
  intros T p fov aspect. exists (slit 13421773 (-27)), (slit 10 0).
  assert (Mn : medium (slit 13421773 (-27)) /\ val (slit 13421773 (-27) : f32) = IZR 13421773 * bpow radix2 (-27)) by med.
  assert (Mf : medium (slit 10 0) /\ val (slit 10 0 : f32) = IZR 10 * bpow radix2 0) by med.
  destruct Mn as [Mn Vn], Mf as [Mf Vf]. assert (B0 : bpow radix2 0 = 1) by reflexivity.
  split; [exact Mn|]. split; [exact Mf|]. split; [rewrite Vf, B0; lra|]. split; [exact Vn|].
  intros d d'.
  assert (E : forall z, depth32 (mulV p (calcPerspProjRevZ fov aspect (slit 13421773 (-27)) (slit 10 0)) (V4 f0 f0 z f1)) =
    sdiv (lane p (slit 13421773 (-27) / (slit 13421773 (-27) - slit 10 0))%sc (- (slit 13421773 (-27) * slit 10 0) / (slit 13421773 (-27) - slit 10 0))%sc f0 f0 z) (lane p f1 f0 f0 f0 z)).
  { intros z. unfold depth32. destruct (clip_rev p fov aspect (slit 13421773 (-27)) (slit 10 0) f0 f0 z) as [-> ->]. reflexivity. }
  unfold d, d'. rewrite !E. clear. destruct f0_val as [F0 V0], f1_fin as [F1 V1].
  set (x := sdiv (lane p _ _ f0 f0 (slit 13421773 (-27))) _). set (y := sdiv (lane p _ _ f0 f0 (slit 10 0)) _).
  assert (Fx : fin x) by (unfold x; destruct p; vm_compute; reflexivity). assert (Fy : fin y) by (unfold y; destruct p; vm_compute; reflexivity).
  assert (Lx : slt f1 x = true) by (unfold x; destruct p; vm_compute; reflexivity). assert (Ly : slt y f0 = true) by (unfold y; destruct p; vm_compute; reflexivity).
  clearbody x y. split; [exact Fx|]. split; [exact Fy|].
  apply slt_val in Lx; [|exact F1|exact Fx]. apply slt_val in Ly; [|exact Fy|exact F0].
  change (val (f1 : f32) = 1) in V1. change (val (f0 : f32) = 0) in V0. lra.
Qed.
