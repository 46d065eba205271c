(** Directions of cube map texels in binary32. *)
From Coq Require Import ZArith Bool List Reals Lra Lia Psatz.
From Flocq Require Import Core.Core IEEE754.BinarySingleNaN IEEE754.Binary IEEE754.Bits.
From Verif.Model Require Import Outcome Scalar Vec Simd Ibl.
From Verif.Spec Require Import NormSpec CubeSpec.
From Verif.Proofs Require Import OrdScalar F32Round F32Err Approx NumericProofs NormProofs RayErr YxyErr YxyRgb IblProofs.
Import ListNotations.
Local Open Scope R_scope.

Lemma rerr : forall x, Rabs (rnd x - x) <= U * Rabs x + / 1000000000000000000.
Proof.
  intros x. eapply Rle_trans; [apply rnd_err|]. apply Rplus_le_compat.
  - apply Rmult_le_compat_r; [apply Rabs_pos|]. unfold u24. cbn. lra.
  - unfold eta0. eapply Rle_trans; [apply (bpow_le radix2 _ (-100)); lia|]. cbn. lra.
Qed.
Lemma rerr_b : forall x b, - b <= x <= b -> x - (U * b + / 1000000000000000000) <= rnd x <= x + (U * b + / 1000000000000000000).
Proof.
  intros x b H. pose proof (rerr x) as R. assert (A : Rabs x <= b) by (apply Rabs_le; exact H).
  assert (U * Rabs x <= U * b) by (apply Rmult_le_compat_l; lra). apply Rabs_le_inv in R. lra.
Qed.
Lemma small10 : forall x, -10 <= x <= 10 -> small x.
Proof. intros x H. apply small_le with 10; [apply Rabs_le; exact H|lra]. Qed.

Section St.
  Context (n : Z) (N : (1 <= n <= 2 ^ 16)%Z).
  Let inv : f32 := (f1 / slit n 0)%sc.
  Lemma nR : 1 <= IZR n <= 65536.
  Proof. split; [apply IZR_le; lia|]. apply (IZR_le n 65536). lia. Qed.
  Lemma inv_val : fin inv /\ exists e, Rabs e <= U /\ val inv = / IZR n * (1 + e).
  Proof.
    pose proof nR as B. destruct (lit_Z n ltac:(lia)) as [Fn Vn]. destruct (lit_Z 1 ltac:(lia)) as [F1 V1]. change (slit 1 0 : f32) with (f1 : f32) in F1, V1.
    assert (I : / 65536 <= / IZR n <= 1) by (split; [apply Rinv_le; lra|rewrite <- Rinv_1; apply Rinv_le; lra]).
    assert (E : val (f1 : f32) / val (slit n 0 : f32) = / IZR n) by (rewrite V1, Vn; unfold Rdiv; ring).
    destruct (div_small f1 (slit n 0) F1 Fn) as [F V]; [rewrite Vn; lra|rewrite E; apply small10; lra|]. rewrite E in V.
    destruct (rel_normal (/ IZR n)) as (e & He & K).
    { rewrite Rabs_right by lra. apply Rle_trans with (bpow radix2 (-16)); [apply bpow_le; lia|cbn; lra]. }
    split; [exact F|]. exists e. split; [eapply Rle_trans; [exact He|]; unfold u24; cbn; lra|]. unfold inv. rewrite V. exact K.
  Qed.
  Lemma centre_in : forall c, (0 <= c < n)%Z -> / 2 * / IZR n <= centre n c <= 1 - / 2 * / IZR n.
  Proof.
    intros c C. pose proof nR as B. unfold centre. assert (P : 0 < / IZR n) by (apply Rinv_0_lt_compat; lra).
    assert (0 <= IZR c) by (apply IZR_le; lia). assert (IZR c <= IZR n - 1) by (rewrite <- minus_IZR; apply IZR_le; lia).
    unfold Rdiv. split; [apply Rmult_le_compat_r; lra|].
    apply Rle_trans with ((IZR n - / 2) * / IZR n); [apply Rmult_le_compat_r; lra|]. rewrite Rmult_minus_distr_r, Rinv_r by lra. lra.
  Qed.
  Lemma st_near : forall c, (0 <= c < n)%Z -> fin (stOf c inv) /\ Rabs (val (stOf c inv) - (1 - 2 * centre n c)) <= 7.1 * U.
  Proof.
    intros c C. pose proof nR as B. destruct inv_val as (Fi & e & He & Ei). apply Rabs_le_inv in He. pose proof (centre_in c C) as [S1 S2].
    assert (P : 0 < / IZR n) by (apply Rinv_0_lt_compat; lra).
    assert (HH : fin (slit c 0 + fhalf : f32)%sc /\ val (slit c 0 + fhalf : f32)%sc = IZR c + / 2).
    { destruct (lit_Z c ltac:(lia)) as [Fc Vc]. destruct half_val as [Fh Vh]. destruct (add_small (slit c 0) fhalf Fc Fh) as [F V].
      - rewrite Vc, Vh. apply small_le with 65536; [|lra]. rewrite Rabs_right; [|apply Rle_ge; assert (0 <= IZR c) by (apply IZR_le; lia); lra].
        assert (IZR c <= IZR n - 1) by (rewrite <- minus_IZR; apply IZR_le; lia). lra.
      - split; [exact F|]. rewrite V, Vc, Vh. replace (IZR c + / 2) with (IZR (2 * c + 1) * bpow radix2 (-1)).
        + apply rnd_lit; lia.
        + rewrite plus_IZR, mult_IZR. cbn. lra. }
    destruct HH as [Fh Vh]. destruct (lit_Z 1 ltac:(lia)) as [F1 V1]. change (slit 1 0 : f32) with (f1 : f32) in F1, V1.
    destruct (lit_Z 2 ltac:(lia)) as [F2 V2]. change (slit 2 0 : f32) with (f2 : f32) in F2, V2. destruct (lit_Z (-1) ltac:(lia)) as [Fm Vm].
    set (s := centre n c) in *.
    assert (Ep : val (slit c 0 + fhalf : f32)%sc * val inv = s * (1 + e)) by (rewrite Vh, Ei; unfold s, centre; field; lra).
    assert (Bp : s - U <= s * (1 + e) <= s + U).
    { assert (- U <= s * e <= U); [|lra]. split; [apply Rle_trans with (s * - U); [lra|apply Rmult_le_compat_l; lra]|apply Rle_trans with (s * U); [apply Rmult_le_compat_l; lra|lra]]. }
    destruct (mul_small _ inv Fh Fi) as [Fp Vp]; [rewrite Ep; apply small10; lra|]. rewrite Ep in Vp.
    pose proof (rerr_b (s * (1 + e)) 1.001 ltac:(lra)) as Rp. rewrite <- Vp in Rp. set (p := ((slit c 0 + fhalf) * inv)%sc) in *.
    destruct (sub_small f1 p F1 Fp) as [Fd Vd]; [rewrite V1; apply small10; lra|]. rewrite V1 in Vd.
    pose proof (rerr_b (1 - val p) 1.001 ltac:(lra)) as Rd. rewrite <- Vd in Rd.
    destruct (fma_small (f1 - p)%sc f2 (slit (-1) 0) Fd F2 Fm) as [Fr Vr]; [rewrite V2, Vm; apply small10; lra|]. rewrite V2, Vm in Vr.
    match type of Vr with _ = rnd ?t => assert (Bt : - (1.001) <= t <= 1.001) by lra; pose proof (rerr_b t 1.001 Bt) as Rr end. rewrite <- Vr in Rr.
    split; [exact Fr|]. apply Rabs_le. change (stOf c inv) with (sfma (f1 - p)%sc f2 (slit (-1) 0)). lra.
  Qed.
End St.

(** ** Directions *)
Notation tiny := (/ 1000000000000000000).
Lemma ratio : forall L o M ro, 1 <= L <= 2 -> -1 <= o <= 1 ->
  Rabs (ro - o / L) <= 5.1 * U * Rabs (o / L) + tiny -> Rabs (M - 1 / L) <= 5.1 * U * Rabs (1 / L) + tiny -> 0.4 <= M /\ Rabs (ro / M - o) <= 10.3 * U.
Proof.
  intros L o M ro HL Ho Hr HM. assert (PL : 0 < L) by lra. assert (PI' : 0 < / L) by (apply Rinv_0_lt_compat; lra).
  assert (SC : forall a b, Rabs (a - b / L) <= 5.1 * U * Rabs (b / L) + tiny -> Rabs (a * L - b) <= 5.1 * U * Rabs b + 2 * tiny).
  { intros a b H. replace (a * L - b) with ((a - b / L) * L) by (field; lra). rewrite Rabs_mult, (Rabs_right L) by lra.
    apply Rle_trans with ((5.1 * U * Rabs (b / L) + tiny) * L); [apply Rmult_le_compat_r; lra|].
    unfold Rdiv. rewrite Rabs_mult, (Rabs_right (/ L)) by lra. rewrite Rmult_plus_distr_r.
    replace (5.1 * U * (Rabs b * / L) * L) with (5.1 * U * Rabs b) by (field; lra). apply Rplus_le_compat_l. lra. }
  apply SC in Hr. apply SC in HM. rewrite Rabs_R1 in HM. assert (Ao : Rabs o <= 1) by (apply Rabs_le; lra).
  assert (Hr' : Rabs (ro * L - o) <= 5.1 * U + 2 * tiny) by lra. apply Rabs_le_inv in Hr'. apply Rabs_le_inv in HM.
  assert (P : 0.4 <= M).
  { apply Rmult_le_reg_r with L; [lra|]. lra. }
  split; [exact P|]. set (d := M * L - 1) in *. set (e := ro * L - o) in *.
  assert (E : ro / M - o = (e - o * d) * / (M * L)) by (unfold e, d; field; split; lra).
  assert (D : 0 < / (M * L) <= 1.001).
  { assert (0.9999 <= M * L) by (unfold d in HM; lra). split; [apply Rinv_0_lt_compat; lra|]. apply Rle_trans with (/ 0.9999); [apply Rinv_le; lra|lra]. }
  assert (OD : Rabs (o * d) <= 5.1 * U + 2 * tiny).
  { rewrite Rabs_mult. apply Rle_trans with (1 * (5.1 * U + 2 * tiny)); [|lra]. apply Rmult_le_compat; [apply Rabs_pos|apply Rabs_pos|exact Ao|apply Rabs_le; lra]. }
  apply Rabs_le_inv in OD. rewrite E, Rabs_mult, (Rabs_right (/ (M * L))) by lra.
  apply Rle_trans with ((10.2 * U + 4 * tiny) * 1.001); [|lra]. apply Rmult_le_compat; [apply Rabs_pos|lra|apply Rabs_le; lra|lra].
Qed.
Lemma place : forall sc ma st s, Rabs (- sc / ma - st) <= 10.3 * U -> Rabs (st - (1 - 2 * s)) <= 7.1 * U -> Rabs ((sc / ma + 1) / 2 - s) <= 9 / 16777216.
Proof.
  intros sc ma st s A B. replace (- sc / ma) with (- (sc / ma)) in A by (unfold Rdiv; ring). apply Rabs_le_inv in A. apply Rabs_le_inv in B. apply Rabs_le. lra.
Qed.
Lemma below : forall sc ma st s, 0.4 <= ma -> Rabs (- sc / ma - st) <= 10.3 * U -> Rabs (st - (1 - 2 * s)) <= 7.1 * U -> / 131072 <= s <= 1 - / 131072 -> Rabs sc < ma.
Proof.
  intros sc ma st s M A B S. replace (- sc / ma) with (- (sc / ma)) in A by (unfold Rdiv; ring). apply Rabs_le_inv in A. apply Rabs_le_inv in B.
  assert (Q : Rabs (sc / ma) < 1) by (apply Rabs_def1; lra). replace sc with (sc / ma * ma) by (field; lra). rewrite Rabs_mult, (Rabs_right ma) by lra.
  apply Rlt_le_trans with (1 * ma); [apply Rmult_lt_compat_r; lra|lra].
Qed.
Lemma sq_near : forall X x, Rabs x <= 1 -> Rabs (X - x) <= 5.1 * U * Rabs x + tiny -> Rabs (X * X - x * x) <= 10.21 * U * (x * x) + 3 * tiny.
Proof.
  intros X x Hx H. replace (X * X - x * x) with ((X - x) * (2 * x + (X - x))) by ring. rewrite Rabs_mult.
  pose proof (Rabs_pos x) as P0. pose proof (Rabs_pos (X - x)) as P1. set (d := X - x) in *.
  assert (S : Rabs (2 * x + d) <= (2 + 5.1 * U) * Rabs x + tiny).
  { eapply Rle_trans; [apply Rabs_triang|]. rewrite Rabs_mult, (Rabs_right 2) by lra. lra. }
  replace (x * x) with (Rabs x * Rabs x) by (rewrite <- Rabs_mult; apply Rabs_right, Rle_ge, Rle_0_sqr).
  eapply Rle_trans; [apply Rmult_le_compat; [apply Rabs_pos|apply Rabs_pos|exact H|exact S]|].
  set (a := Rabs x) in *. assert (Q : 0 <= a * a <= a).
  { split; [apply Rle_0_sqr|]. rewrite <- (Rmult_1_r a) at 3. apply Rmult_le_compat_l; lra. }
  replace ((5.1 * U * a + tiny) * ((2 + 5.1 * U) * a + tiny)) with (5.1 * U * (2 + 5.1 * U) * (a * a) + tiny * (5.1 * U + 2 + 5.1 * U) * a + tiny * tiny) by ring. lra.
Qed.

Section Dir.
  Context (v : vec3 f32) (Hv : allFin (l3 v)) (Ho : inner (l3 v) (l3 v) <= 3) (Hm : 1 <= inner (l3 v) (l3 v)).
  Let L : R := norm (l3 v).
  Lemma L_in : 1 <= L <= 2.
  Proof.
    unfold L, norm. split.
    - rewrite <- sqrt_1. apply sqrt_le_1; lra.
    - rewrite <- (sqrt_square 2) by lra. apply sqrt_le_1; lra.
  Qed.
  Lemma lanes_near : let r := normalizep3 v in fin3 r /\ Rabs (val (x3 r) - val (x3 v) / L) <= 5.1 * U * Rabs (val (x3 v) / L) + tiny /\
    Rabs (val (y3 r) - val (y3 v) / L) <= 5.1 * U * Rabs (val (y3 v) / L) + tiny /\ Rabs (val (z3 r) - val (z3 v) / L) <= 5.1 * U * Rabs (val (z3 v) / L) + tiny.
  Proof.
    intros r. destruct (normalize_near GEN) as (_ & K & _). destruct (K v) as [F N].
    { split; [exact Hv|]. split; [apply Rle_trans with (bpow radix2 0); [apply bpow_le; lia|change (bpow radix2 0) with 1; lra]|apply Rle_trans with (bpow radix2 2); [change (bpow radix2 2) with 4; lra|apply bpow_le; lia]]. }
    fold r in F, N. fold L in N. assert (T : 2 * bpow radix2 (-150) <= tiny).
    { eapply Rle_trans; [apply Rmult_le_compat_l; [lra|apply (bpow_le radix2 _ (-100)); lia]|]. cbn. lra. }
    unfold l3 in N; apply three in N; destruct N as (A & B & C). unfold l3, allFin in F. split; [|split; [|split]].
    - inversion F as [|? ? Fx F1]. inversion F1 as [|? ? Fy F2]. inversion F2 as [|? ? Fz F3]. repeat split; assumption.
    - eapply Rle_trans; [exact A|]. lra.
    - eapply Rle_trans; [exact B|]. lra.
    - eapply Rle_trans; [exact C|]. lra.
  Qed.
  Lemma unit_near : nearUnit (10.3 / 16777216) (real3 (normalizep3 v)).
  Proof.
    destruct lanes_near as (_ & A & B & C). pose proof L_in as HL. set (r := normalizep3 v) in *. unfold nearUnit, real3. cbn [x3 y3 z3].
    assert (I : val (x3 v) / L * (val (x3 v) / L) + val (y3 v) / L * (val (y3 v) / L) + val (z3 v) / L * (val (z3 v) / L) = 1).
    { assert (LL : L * L = inner (l3 v) (l3 v)) by (apply sqrt_def; lra).
      replace (val (x3 v) / L * (val (x3 v) / L) + val (y3 v) / L * (val (y3 v) / L) + val (z3 v) / L * (val (z3 v) / L)) with (inner (l3 v) (l3 v) * / (L * L)) by (unfold l3; cbn [inner]; field; lra).
      rewrite LL. apply Rinv_r. lra. }
    set (x := val (x3 v) / L) in *. set (y := val (y3 v) / L) in *. set (z := val (z3 v) / L) in *.
    assert (S : forall t, t * t <= 1 -> Rabs t <= 1).
    { intros t H. apply Rsqr_le_abs_0 || idtac. replace 1 with (Rabs 1) by apply Rabs_R1. apply Rsqr_le_abs_0. unfold Rsqr. lra. }
    assert (0 <= x * x) by apply Rle_0_sqr. assert (0 <= y * y) by apply Rle_0_sqr. assert (0 <= z * z) by apply Rle_0_sqr.
    apply sq_near in A; [|apply S; lra]. apply sq_near in B; [|apply S; lra]. apply sq_near in C; [|apply S; lra].
    apply Rabs_le_inv in A. apply Rabs_le_inv in B. apply Rabs_le_inv in C. apply Rabs_le. lra.
  Qed.
End Dir.

(** a direction with a lane of magnitude one and two smaller ones *)
Lemma inner3 : forall a b c : f32, inner (l3 (V3 a b c)) (l3 (V3 a b c)) = val a * val a + val b * val b + val c * val c.
Proof. intros. unfold l3. cbn [inner x3 y3 z3]. ring. Qed.
Lemma fin_l3 : forall a b c : f32, fin a -> fin b -> fin c -> allFin (l3 (V3 a b c)).
Proof. intros. unfold l3, allFin. cbn [x3 y3 z3]. repeat (apply Forall_cons; [assumption|]). apply Forall_nil. Qed.
Lemma neg_near : forall L a b, Rabs (a - b / L) <= 5.1 * U * Rabs (b / L) + tiny -> Rabs (- a - - b / L) <= 5.1 * U * Rabs (- b / L) + tiny.
Proof.
  intros L a b H. replace (- b / L) with (- (b / L)) by (unfold Rdiv; ring). rewrite Rabs_Ropp.
  replace (- a - - (b / L)) with (- (a - b / L)) by ring. rewrite Rabs_Ropp. exact H.
Qed.
Lemma texel_direction : forall n cx cy f, texel n cx cy f -> exists d,
  coordsToDir cx cy f (f1 / slit n 0 : f32)%sc = Ok d /\ fin3 d /\ throughFace f (real3 d) /\
  meetsNear (9 / 16777216) f (real3 d) (centre n cx) (centre n cy) /\ nearUnit (10.3 / 16777216) (real3 d).
Proof.
  intros n cx cy f (X & Y & N & Hf). assert (N' : (1 <= n <= 2 ^ 16)%Z) by lia. unfold coordsToDir, coordsToST.
  destruct (st_near n N' cx X) as [Fs Es]. destruct (st_near n N' cy Y) as [Ft Et].
  pose proof (centre_in n N' cx X) as Cs. pose proof (centre_in n N' cy Y) as Ct. pose proof (nR n N') as B.
  assert (I : / 65536 <= / IZR n) by (apply Rinv_le; lra).
  assert (Cs' : / 131072 <= centre n cx <= 1 - / 131072) by lra. assert (Ct' : / 131072 <= centre n cy <= 1 - / 131072) by lra. clear Cs Ct.
  set (s := stOf cx (f1 / slit n 0)%sc) in *. set (t := stOf cy (f1 / slit n 0)%sc) in *.
  destruct (neg_fin s Fs) as [Fs' Vs']. destruct (neg_fin t Ft) as [Ft' Vt'].
  destruct (lit_Z 1 ltac:(lia)) as [F1 V1]. change (slit 1 0 : f32) with (@f1 f32 ScalarF32) in F1, V1. destruct (lit_Z (-1) ltac:(lia)) as [Fm Vm].
  assert (Bs : -1 <= val s <= 1) by (apply Rabs_le_inv in Es; lra). assert (Bt : -1 <= val t <= 1) by (apply Rabs_le_inv in Et; lra).
  assert (Q : forall u, -1 <= u <= 1 -> 0 <= u * u <= 1) by (intros u H; nra). pose proof (Q _ Bs) as Qs. pose proof (Q _ Bt) as Qt.
  assert (W : forall sc tc ma L, 1 <= L <= 2 -> Rabs (- sc - val s / L) <= 5.1 * U * Rabs (val s / L) + tiny ->
    Rabs (- tc - val t / L) <= 5.1 * U * Rabs (val t / L) + tiny -> Rabs (ma - 1 / L) <= 5.1 * U * Rabs (1 / L) + tiny ->
    (Rabs sc < ma /\ Rabs tc < ma) /\ Rabs ((sc / ma + 1) / 2 - centre n cx) <= 9 / 16777216 /\ Rabs ((tc / ma + 1) / 2 - centre n cy) <= 9 / 16777216).
  { intros sc tc ma L HL A C D. destruct (ratio L _ ma _ HL Bs A D) as [M R1]. destruct (ratio L _ ma _ HL Bt C D) as [_ R2].
    split; split; [apply (below sc ma (val s) (centre n cx))|apply (below tc ma (val t) (centre n cy))|apply (place sc ma (val s))|apply (place tc ma (val t))]; assumption. }
  assert (V : forall (a b c : f32), fin a -> fin b -> fin c -> 1 <= val a * val a + val b * val b + val c * val c <= 3 ->
    fin3 (normalizep3 (V3 a b c)) /\ nearUnit (10.3 / 16777216) (real3 (normalizep3 (V3 a b c))) /\ exists L, 1 <= L <= 2 /\
    let r := real3 (normalizep3 (V3 a b c)) in Rabs (x3 r - val a / L) <= 5.1 * U * Rabs (val a / L) + tiny /\
    Rabs (y3 r - val b / L) <= 5.1 * U * Rabs (val b / L) + tiny /\ Rabs (z3 r - val c / L) <= 5.1 * U * Rabs (val c / L) + tiny).
  { intros a b c Fa Fb Fc H. pose proof (fin_l3 a b c Fa Fb Fc) as F. rewrite <- inner3 in H. destruct H as [H1 H2].
    destruct (lanes_near (V3 a b c) F H2 H1) as [F3 E]. split; [exact F3|]. split; [exact (unit_near (V3 a b c) F H2 H1)|].
    exists (norm (l3 (V3 a b c))). split; [exact (L_in (V3 a b c) H2 H1)|]. exact E. }
  assert (NN : forall L a b, Rabs (a - - b / L) <= 5.1 * U * Rabs (- b / L) + tiny -> Rabs (- a - b / L) <= 5.1 * U * Rabs (b / L) + tiny).
  { intros L a b H. apply neg_near in H. rewrite Ropp_involutive in H. exact H. }
  assert (E : (f = 0 \/ f = 1 \/ f = 2 \/ f = 3 \/ f = 4 \/ f = 5)%Z) by (unfold isFace in Hf; lia).
  destruct E as [->|[->|[->|[->|[->| ->]]]]]; cbn [stToDir x2 y2]; eexists; (split; [reflexivity|]).
  all: match goal with |- fin3 (normalizep3 (V3 ?a ?b ?c)) /\ _ => destruct (V a b c) as (F3 & UN & L & HL & E1 & E2 & E3); [try assumption|try assumption|try assumption| |] end.
  all: try (rewrite ?Vs', ?Vt', ?V1, ?Vm; lra).
  all: split; [exact F3|]; match goal with |- _ /\ _ /\ ?u => assert (UN' : u) by exact UN end.
  all: match goal with _ : context [normalizep3 ?w] |- _ => set (r := real3 (normalizep3 w)) in * end.
  all: cbv zeta in E1, E2, E3; rewrite ?Vs', ?Vt', ?V1, ?Vm in E1; rewrite ?Vs', ?Vt', ?V1, ?Vm in E2; rewrite ?Vs', ?Vt', ?V1, ?Vm in E3.
  all: unfold throughFace, meetsNear, cubeTable.
  - destruct (W (- z3 r) (- y3 r) (x3 r) L HL) as (? & ?); rewrite ?Ropp_involutive; [assumption..|]. split; [assumption|]. split; assumption.
  - destruct (W (z3 r) (- y3 r) (- x3 r) L HL) as (? & ?); rewrite ?Ropp_involutive; [apply NN; assumption|assumption|apply NN; assumption|]. split; [assumption|]. split; assumption.
  - destruct (W (x3 r) (z3 r) (y3 r) L HL) as (? & ?); [apply NN; assumption|apply NN; assumption|assumption|]. split; [assumption|]. split; assumption.
  - destruct (W (x3 r) (- z3 r) (- y3 r) L HL) as (? & ?); rewrite ?Ropp_involutive; [apply NN; assumption|assumption|apply NN; assumption|]. split; [assumption|]. split; assumption.
  - destruct (W (x3 r) (- y3 r) (z3 r) L HL) as (? & ?); rewrite ?Ropp_involutive; [apply NN; assumption|assumption|assumption|]. split; [assumption|]. split; assumption.
  - destruct (W (- x3 r) (- y3 r) (- z3 r) L HL) as (? & ?); rewrite ?Ropp_involutive; [assumption|assumption|apply NN; assumption|]. split; [assumption|]. split; assumption.
Qed.
Lemma centre_apart : forall n a b, (1 <= n <= 2 ^ 16)%Z -> Rabs (centre n a - centre n b) <= 18 / 16777216 -> a = b.
Proof.
  intros n a b N H. pose proof (nR n N) as B. unfold centre in H. replace ((IZR a + / 2) / IZR n - (IZR b + / 2) / IZR n) with (IZR (a - b) * / IZR n) in H by (rewrite minus_IZR; field; lra).
  rewrite Rabs_mult, (Rabs_right (/ IZR n)) in H by (apply Rle_ge, Rlt_le, Rinv_0_lt_compat; lra). rewrite <- abs_IZR in H.
  destruct (Z.eq_dec a b) as [E|E]; [exact E|exfalso]. assert (G : 1 <= IZR (Z.abs (a - b))) by (apply IZR_le; lia).
  assert (I : / 65536 <= / IZR n) by (apply Rinv_le; lra). assert (1 * / 65536 <= IZR (Z.abs (a - b)) * / IZR n) by (apply Rmult_le_compat; lra). lra.
Qed.
Lemma texel_injective : forall n cx cy f cx' cy' f', texel n cx cy f -> texel n cx' cy' f' ->
  coordsToDir cx cy f (f1 / slit n 0 : f32)%sc = coordsToDir cx' cy' f' (f1 / slit n 0 : f32)%sc -> cx = cx' /\ cy = cy' /\ f = f'.
Proof.
  intros n cx cy f cx' cy' f' T T' E. destruct (texel_direction _ _ _ _ T) as (d & E1 & _ & A & M & _). destruct (texel_direction _ _ _ _ T') as (d' & E2 & _ & A' & M' & _).
  assert (d = d') by congruence. subst d'. destruct T as (X & Y & N & Hf). destruct T' as (X' & Y' & _ & Hf').
  assert (f = f') by (eapply through_unique; eassumption). subst f'. unfold meetsNear in M, M'. destruct (cubeTable f (real3 d)) as [[sc tc] ma].
  destruct M as [P Q], M' as [P' Q']. apply Rabs_le_inv in P. apply Rabs_le_inv in Q. apply Rabs_le_inv in P'. apply Rabs_le_inv in Q'.
  split; [|split; [|reflexivity]]; apply (centre_apart n); try lia; apply Rabs_le; lra.
Qed.
