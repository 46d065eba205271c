(** The spherical-harmonic basis in binary32. *)
From Coq Require Import ZArith Bool List Reals Lra Lia Psatz.
From Flocq Require Import Core.Core IEEE754.BinarySingleNaN IEEE754.Binary IEEE754.Bits.
From Verif.Model Require Import Outcome Scalar Vec Simd Ibl Sh.
From Verif.Spec Require Import ShSpec CubeSpec.
From Verif.Proofs Require Import OrdScalar F32Round F32Err NumericProofs RayErr YxyErr YxyRgb CubeErr DirProofs ShProofs.
Import ListNotations.
Local Open Scope R_scope.

(** ** Absolute errors *)
Definition off (e : R) (x : f32) (X : R) : Prop := fin x /\ Rabs (val x - X) <= e.
Lemma off_exact : forall x r, holds x r -> off 0 x r.
Proof. intros x r [F V]. split; [exact F|]. rewrite V. replace (r - r) with 0 by ring. rewrite Rabs_R0. lra. Qed.
Lemma off_rnd : forall e d M t X, Rabs (t - X) <= d -> Rabs X <= M -> M + d <= 100 -> d + U * (M + d) + tiny <= e -> small t /\ Rabs (rnd t - X) <= e.
Proof.
  intros e d M t X D B L E. assert (T : Rabs t <= M + d).
  { replace t with (X + (t - X)) by ring. eapply Rle_trans; [apply Rabs_triang|]. lra. }
  split; [apply small_le with (M + d); lra|]. pose proof (rerr t) as R. assert (U * Rabs t <= U * (M + d)) by (apply Rmult_le_compat_l; lra).
  replace (rnd t - X) with ((rnd t - t) + (t - X)) by ring. eapply Rle_trans; [apply Rabs_triang|]. lra.
Qed.
Lemma off_mul : forall a b MX MY M e (x y : f32) X Y, off a x X -> off b y Y -> Rabs X <= MX -> Rabs Y <= MY -> Rabs (X * Y) <= M ->
  let d := MX * b + MY * a + a * b in M + d <= 100 -> d + U * (M + d) + tiny <= e -> off e (x * y)%sc (X * Y).
Proof.
  intros a b MX MY M e x y X Y [Fx Ex] [Fy Ey] BX BY BM d L E.
  destruct (off_rnd e d M (val x * val y) (X * Y)) as [S R]; try assumption.
  - replace (val x * val y - X * Y) with (X * (val y - Y) + Y * (val x - X) + (val x - X) * (val y - Y)) by ring.
    eapply Rle_trans; [apply Rabs_triang|]. eapply Rle_trans; [apply Rplus_le_compat_r, Rabs_triang|]. rewrite !Rabs_mult. unfold d.
    apply Rplus_le_compat; [apply Rplus_le_compat|]; apply Rmult_le_compat; try apply Rabs_pos; assumption.
  - destruct (mul_small x y Fx Fy S) as [F V]. split; [exact F|]. rewrite V. exact R.
Qed.
Lemma off_add : forall a b M e (x y : f32) X Y, off a x X -> off b y Y -> Rabs (X + Y) <= M -> M + (a + b) <= 100 -> (a + b) + U * (M + (a + b)) + tiny <= e -> off e (x + y)%sc (X + Y).
Proof.
  intros a b M e x y X Y [Fx Ex] [Fy Ey] BM L E. destruct (off_rnd e (a + b) M (val x + val y) (X + Y)) as [S R]; try assumption.
  - replace (val x + val y - (X + Y)) with ((val x - X) + (val y - Y)) by ring. eapply Rle_trans; [apply Rabs_triang|]. lra.
  - destruct (add_small x y Fx Fy S) as [F V]. split; [exact F|]. rewrite V. exact R.
Qed.
Lemma off_sub : forall a b M e (x y : f32) X Y, off a x X -> off b y Y -> Rabs (X - Y) <= M -> M + (a + b) <= 100 -> (a + b) + U * (M + (a + b)) + tiny <= e -> off e (x - y)%sc (X - Y).
Proof.
  intros a b M e x y X Y [Fx Ex] [Fy Ey] BM L E. destruct (off_rnd e (a + b) M (val x - val y) (X - Y)) as [S R]; try assumption.
  - replace (val x - val y - (X - Y)) with ((val x - X) + - (val y - Y)) by ring. eapply Rle_trans; [apply Rabs_triang|]. rewrite Rabs_Ropp. lra.
  - destruct (sub_small x y Fx Fy S) as [F V]. split; [exact F|]. rewrite V. exact R.
Qed.
Lemma off_half : forall a M e (x c : f32) X, off a x X -> holds c 2 -> Rabs X <= M -> M / 2 + a / 2 <= 100 -> a / 2 + U * (M / 2 + a / 2) + tiny <= e -> off e (x / c)%sc (X / 2).
Proof.
  intros a M e x c X [Fx Ex] [Fc Vc] B L E. destruct (off_rnd e (a / 2) (M / 2) (val x / val c) (X / 2)) as [S R]; try assumption.
  - rewrite Vc. replace (val x / 2 - X / 2) with ((val x - X) * / 2) by field. rewrite Rabs_mult, (Rabs_right (/ 2)) by lra. lra.
  - unfold Rdiv. rewrite Rabs_mult, (Rabs_right (/ 2)) by lra. lra.
  - destruct (div_small x c Fx Fc ltac:(lra) S) as [F V]. split; [exact F|]. rewrite V. exact R.
Qed.

(** ** The nine values *)
Lemma nine : forall (F : Type) (S : Scalar F) (x y z : F), let i := @ofInt F S in
  let p1 := ((i 1%Z * f1 * z - i 0%Z * f0) / i 1%Z)%sc in let q1 := (i (-1)%Z * f1)%sc in let l1 := (i 3%Z * q1 * z)%sc in let q2 := (i (-3)%Z * q1)%sc in
  computeShBasis (V3 x y z) = Ok (map Some [f1; (q1 * y)%sc; p1; (q1 * x)%sc; (q2 * (y * x + x * y))%sc; (l1 * y)%sc;
    ((i 3%Z * p1 * z - i 1%Z * f1) / i 2%Z)%sc; (l1 * x)%sc; (q2 * (x * x - y * y))%sc]).
Proof. intros. reflexivity. Qed.
Lemma int_is : forall n, (Z.abs n < 2 ^ 24)%Z -> holds (ofInt n) (IZR n).
Proof. intros n H. exact (lit_Z n H). Qed.

Section Basis.
  Context (x y z : f32) (Fx : fin x) (Fy : fin y) (Fz : fin z).
  Context (H : val x * val x + val y * val y + val z * val z <= 1.0001).
  Let X := val x. Let Y := val y. Let Z := val z.
  Let p1 : f32 := ((ofInt 1 * f1 * z - ofInt 0 * f0) / ofInt 1)%sc.
  Let q1 : f32 := (ofInt (-1) * f1)%sc.
  Let q2 : f32 := (ofInt (-3) * q1)%sc.
  Lemma rep_int : forall n, (Z.abs n < 2 ^ 24)%Z -> rep (IZR n).
  Proof. intros n B. exists (ofInt n). apply int_is. exact B. Qed.
  Lemma p1_is : holds p1 Z.
  Proof.
    assert (Hz : holds z Z) by (split; [exact Fz|reflexivity]).
    assert (A : holds (ofInt 1 * f1)%sc (1 * 1)) by (apply mul_is; [apply int_is; lia|exact one_is|rewrite Rmult_1_l; exact rep1]).
    assert (B : holds (ofInt 1 * f1 * z)%sc (1 * 1 * Z)) by (apply mul_is; [exact A|exact Hz|rewrite !Rmult_1_l; exact (rep_val z Fz)]).
    assert (C : holds (ofInt 0 * f0)%sc (0 * 0)) by (apply mul_is; [apply int_is; lia|exact zero_is|rewrite Rmult_0_l; exact rep0]).
    assert (RZ : forall t, t = Z -> rep t) by (intros t ->; exact (rep_val z Fz)).
    assert (D : holds (ofInt 1 * f1 * z - ofInt 0 * f0)%sc (1 * 1 * Z - 0 * 0)) by (apply sub_is; [exact B|exact C|apply RZ; ring]).
    apply is_eq with ((1 * 1 * Z - 0 * 0) / 1); [|field]. apply div_is; [exact D|apply int_is; lia|lra|apply RZ; field].
  Qed.
  Lemma q1_is : holds q1 (-1).
  Proof. apply is_eq with (-1 * 1); [|ring]. apply mul_is; [apply int_is; lia|exact one_is|]. apply rep_as with (-1); [apply rep_int; lia|ring]. Qed.
  Lemma q2_is : holds q2 3.
  Proof. apply is_eq with (-3 * -1); [|ring]. apply mul_is; [apply int_is; lia|exact q1_is|]. apply rep_as with 3; [apply rep_int; lia|ring]. Qed.
  Lemma q3_is : holds (ofInt 3 * q1)%sc (-3).
  Proof. apply is_eq with (3 * -1); [|ring]. apply mul_is; [apply int_is; lia|exact q1_is|]. apply rep_as with (-3); [apply rep_int; lia|ring]. Qed.
  Lemma neg_is : forall t : f32, fin t -> holds (q1 * t)%sc (- val t).
  Proof.
    intros t Ft. apply is_eq with (-1 * val t); [|ring]. apply mul_is; [exact q1_is|split; [exact Ft|reflexivity]|]. apply rep_as with (- val t); [|ring]. apply rep_neg. exact (rep_val t Ft).
  Qed.
  Lemma bound1 : Rabs X <= 1.0001 /\ Rabs Y <= 1.0001 /\ Rabs Z <= 1.0001.
  Proof. fold X Y Z in H. repeat split; apply Rabs_le; split; nra. Qed.
  Lemma bound2 : Rabs (X * Y) <= 0.50005 /\ Rabs (Y * Z) <= 0.50005 /\ Rabs (X * Z) <= 0.50005 /\ 0 <= X * X <= 1.0001 /\ 0 <= Y * Y <= 1.0001 /\ 0 <= Z * Z <= 1.0001 /\ Rabs (X * X - Y * Y) <= 1.0001.
  Proof.
    fold X Y Z in H. pose proof (Rle_0_sqr X) as A. pose proof (Rle_0_sqr Y) as B. pose proof (Rle_0_sqr Z) as C. unfold Rsqr in *.
    assert (P : forall a b, a * a + b * b <= 1.0001 -> Rabs (a * b) <= 0.50005).
    { intros a b K. pose proof (Rle_0_sqr (a - b)) as D. pose proof (Rle_0_sqr (a + b)) as E. unfold Rsqr in D, E. apply Rabs_le. lra. }
    repeat split; try lra; try (apply P; lra). apply Rabs_le. lra.
  Qed.
  Let he (t : f32) (F : fin t) : holds t (val t) := conj F eq_refl.
  Lemma cell_xy : off (9.1 * U) (q2 * (y * x + x * y))%sc (6 * (X * Y)).
  Proof.
    destruct bound1 as (BX & BY & BZ). destruct bound2 as (XY & YZ & XZ & X2 & Y2 & Z2 & D).
    assert (YX : Rabs (Y * X) <= 0.50005) by (rewrite Rmult_comm; exact XY).
    assert (A : off (0.5001 * U) (y * x)%sc (Y * X)).
    { apply (off_mul 0 0 1.0001 1.0001 0.50005); try assumption; try (apply off_exact; apply he; assumption); lra. }
    assert (B : off (0.5001 * U) (x * y)%sc (X * Y)).
    { apply (off_mul 0 0 1.0001 1.0001 0.50005); try assumption; try (apply off_exact; apply he; assumption); lra. }
    assert (C : off (2.001 * U) (y * x + x * y)%sc (Y * X + X * Y)).
    { apply (off_add (0.5001 * U) (0.5001 * U) 1.0001); try assumption; try lra. eapply Rle_trans; [apply Rabs_triang|]. lra. }
    replace (6 * (X * Y)) with (3 * (Y * X + X * Y)) by ring.
    assert (S : Rabs (Y * X + X * Y) <= 1.0001) by (eapply Rle_trans; [apply Rabs_triang|]; lra).
    apply (off_mul 0 (2.001 * U) 3 1.0001 3.0003); try assumption; try lra.
    - apply off_exact. exact q2_is.
    - rewrite Rabs_right; lra.
    - rewrite Rabs_mult, (Rabs_right 3) by lra. lra.
  Qed.
  Lemma cell_dd : off (9.1 * U) (q2 * (x * x - y * y))%sc (3 * (X * X - Y * Y)).
  Proof.
    destruct bound1 as (BX & BY & BZ). destruct bound2 as (XY & YZ & XZ & X2 & Y2 & Z2 & D).
    destruct (mul_small x x Fx Fx ltac:(apply small10; fold X; lra)) as [Fa Va]. destruct (mul_small y y Fy Fy ltac:(apply small10; fold Y; lra)) as [Fb Vb]. fold X in Va. fold Y in Vb.
    pose proof (rerr (X * X)) as Ra. pose proof (rerr (Y * Y)) as Rb. rewrite <- Va, (Rabs_right (X * X)) in Ra by lra. rewrite <- Vb, (Rabs_right (Y * Y)) in Rb by lra.
    assert (S2 : X * X + Y * Y <= 1.0001) by (fold X Y Z in H; lra).
    assert (C : off (2.001 * U) (x * x - y * y)%sc (X * X - Y * Y)).
    { destruct (off_rnd (2.001 * U) (1.0001 * U + 2 * tiny) 1.0001 (val (x * x)%sc - val (y * y)%sc) (X * X - Y * Y)) as [S R]; try assumption; try lra.
      - apply Rabs_le_inv in Ra. apply Rabs_le_inv in Rb. apply Rabs_le. lra.
      - destruct (sub_small (x * x)%sc (y * y)%sc Fa Fb S) as [F V]. split; [exact F|]. rewrite V. exact R. }
    apply (off_mul 0 (2.001 * U) 3 1.0001 3.0003); try assumption; try lra.
    - apply off_exact. exact q2_is.
    - rewrite Rabs_right; lra.
    - rewrite Rabs_mult, (Rabs_right 3) by lra. lra.
  Qed.
  Lemma cell_z : forall t : f32, fin t -> Rabs (val t) <= 1.0001 -> Rabs (val t * Z) <= 0.50005 -> off (9.1 * U) (ofInt 3 * q1 * z * t)%sc (-3 * (val t * Z)).
  Proof.
    intros t Ft Bt BT. destruct bound1 as (BX & BY & BZ).
    assert (A : off (3.001 * U) (ofInt 3 * q1 * z)%sc (-3 * Z)).
    { apply (off_mul 0 0 3 1.0001 3.0003); try assumption; try lra; [apply off_exact, q3_is|apply off_exact, he; assumption|rewrite Rabs_left; lra|].
      rewrite Rabs_mult, (Rabs_left (-3)) by lra. lra. }
    replace (-3 * (val t * Z)) with (-3 * Z * val t) by ring.
    apply (off_mul (3.001 * U) 0 3.0003 1.0001 1.50015); try assumption; try lra; [apply off_exact, he; assumption| |].
    - rewrite Rabs_mult, (Rabs_left (-3)) by lra. lra.
    - replace (-3 * Z * val t) with (-3 * (val t * Z)) by ring. rewrite Rabs_mult, (Rabs_left (-3)) by lra. lra.
  Qed.
  Lemma cell_zz : off (9.1 * U) ((ofInt 3 * p1 * z - ofInt 1 * f1) / ofInt 2)%sc ((3 * Z * Z - 1) / 2).
  Proof.
    destruct bound1 as (BX & BY & BZ). destruct bound2 as (XY & YZ & XZ & X2 & Y2 & Z2 & D).
    assert (A : off (3.001 * U) (ofInt 3 * p1)%sc (3 * Z)).
    { apply (off_mul 0 0 3 1.0001 3.0003); try assumption; try lra; [apply off_exact, int_is; lia|apply off_exact, p1_is|rewrite Rabs_right; lra|].
      rewrite Rabs_mult, (Rabs_right 3) by lra. lra. }
    assert (B : off (6.01 * U) (ofInt 3 * p1 * z)%sc (3 * Z * Z)).
    { apply (off_mul (3.001 * U) 0 3.0003 1.0001 3.0003); try assumption; try lra; [apply off_exact, he; assumption| |].
      - rewrite Rabs_mult, (Rabs_right 3) by lra. lra.
      - rewrite Rmult_assoc, Rabs_mult, (Rabs_right 3), (Rabs_right (Z * Z)) by lra. lra. }
    assert (C : holds (ofInt 1 * f1)%sc 1).
    { apply is_eq with (1 * 1); [|ring]. apply mul_is; [apply int_is; lia|exact one_is|rewrite Rmult_1_l; exact rep1]. }
    assert (E : off (8.1 * U) (ofInt 3 * p1 * z - ofInt 1 * f1)%sc (3 * Z * Z - 1)).
    { apply (off_sub (6.01 * U) 0 2.0003); try assumption; try lra; [apply off_exact, C|]. apply Rabs_le. rewrite Rmult_assoc. lra. }
    apply (off_half (8.1 * U) 2.0003); try assumption; try lra; [apply int_is; lia|]. apply Rabs_le. rewrite Rmult_assoc. lra.
  Qed.
  Lemma basis_near : exists vs, computeShBasis (V3 x y z) = Ok (map Some vs) /\ Forall2 (off (9.1 * U)) vs (harmonics (V3 X Y Z)).
  Proof.
    destruct bound1 as (BX & BY & BZ). destruct bound2 as (XY & YZ & XZ & _).
    assert (E : forall t r, holds t r -> off (9.1 * U) t r) by (intros t r K; apply off_exact in K; destruct K as [K1 K2]; split; [exact K1|lra]).
    eexists. split; [apply nine|]. unfold harmonics. cbn [x3 y3 z3]. fold q1 p1 q2. cbv zeta.
    repeat (apply Forall2_cons).
    - apply E, one_is.
    - apply E. exact (neg_is y Fy).
    - apply E, p1_is.
    - apply E. exact (neg_is x Fx).
    - exact cell_xy.
    - apply cell_z; assumption.
    - exact cell_zz.
    - apply cell_z; assumption.
    - exact cell_dd.
    - apply Forall2_nil.
  Qed.
End Basis.
Lemma texel_basis : forall n cx cy f, texel n cx cy f -> exists d vs, coordsToDir cx cy f (f1 / slit n 0 : f32)%sc = Ok d /\
  computeShBasis d = Ok (map Some vs) /\ Forall2 (fun v h => fin v /\ Rabs (val v - h) <= 9.1 / 16777216) vs (harmonics (real3 d)).
Proof.
  intros n cx cy f T. destruct (texel_direction n cx cy f T) as ([x y z] & E & (Fx & Fy & Fz) & _ & _ & N). cbn [x3 y3 z3] in Fx, Fy, Fz.
  unfold nearUnit, real3 in N. cbn [x3 y3 z3] in N. apply Rabs_le_inv in N.
  destruct (basis_near x y z Fx Fy Fz ltac:(lra)) as (vs & B & K). exists (V3 x y z), vs. split; [exact E|]. split; [exact B|exact K].
Qed.
Lemma ex_basis : let h : f32 := fhalf in fin h /\ val h * val h + val h * val h + val h * val h <= 1.0001.
Proof. intros h. destruct half_val as [F V]. split; [exact F|]. change (val h) with (val (fhalf : f32)). rewrite V. lra. Qed.
