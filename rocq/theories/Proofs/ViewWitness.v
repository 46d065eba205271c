(** View matrices in binary32: the point looked at, a sample camera, and a camera that looks along its up vector. *)
From Coq Require Import ZArith Bool List Reals Lra Lia.
From Flocq Require Import Core.Core IEEE754.Binary.
From Verif.Model Require Import Scalar Vec Simd Lanes Matrix Transform.
From Verif.Spec Require Import ViewSpec.
From Verif.Proofs Require Import OrdScalar F32Round F32Err QuatErr QuatRot ViewErr.
Import ListNotations.
Local Open Scope R_scope.

Lemma seen_self : forall from to up, seen from to up from = V4 0 0 0 1.
Proof. intros from to up. unfold seen, dotS, minusS. cbv zeta. cbn [vx vy vz vw]. f_equal; ring. Qed.
Lemma seen_target : forall from to up, 0 < dist3 to from -> seen from to up to = V4 0 0 (dist3 to from) 1.
Proof.
  intros from to up H. unfold seen, above, aside, ahead. cbv zeta. set (D := minusS to from). unfold dist3 in *. fold D in H |- *.
  pose proof (len3_sq D) as S. unfold dotS in S. set (l := len3 D) in *. set (c := crossS up (unit3 D)).
  assert (Z : vx c * vx D + vy c * vy D + vz c * vz D = 0).
  { unfold c, crossS, unit3. fold l. cbn [vx vy vz vw]. unfold Rdiv. ring. }
  f_equal.
  - unfold unit3, dotS. cbn [vx vy vz vw]. unfold Rdiv. replace (_ + _ + _) with ((vx c * vx D + vy c * vy D + vz c * vz D) * / len3 c) by ring. rewrite Z. ring.
  - unfold dotS, crossS, unit3. fold l. cbn [vx vy vz vw]. unfold Rdiv. ring.
  - unfold dotS, unit3. fold l. cbn [vx vy vz vw]. unfold Rdiv. replace (_ + _ + _) with ((vx D * vx D + vy D * vy D + vz D * vz D) * / l) by ring. rewrite <- S. field. lra.
Qed.
Theorem look_ends : forall p k (from to up : vec4 f32), camera k from to up ->
  (let r := mulV p (lookAt p from to up) (withW from f1) in
   seenNear (33.6 * k) (vx r) 0 from from /\ seenNear (44.3 * k) (vy r) 0 from from /\ seenNear 14.4 (vz r) 0 from from) /\
  (let r := mulV p (lookAt p from to up) (withW to f1) in
   seenNear (33.6 * k) (vx r) 0 from to /\ seenNear (44.3 * k) (vy r) 0 from to /\ seenNear 14.4 (vz r) (dist3 (valQ to) (valQ from)) from to).
Proof.
  intros p k from to up H. pose proof H as (Hf & Ht & HD & _). split; cbv zeta.
  - destruct (look_sees p k from to up from H Hf) as (A & B & C & _). rewrite seen_self in A, B, C. exact (conj A (conj B C)).
  - destruct (look_sees p k from to up to H Ht) as (A & B & C & _). 
    rewrite seen_target in A, B, C by (eapply Rlt_le_trans; [apply bpow_gt_0|exact HD]). exact (conj A (conj B C)).
Qed.

(** from (1, 2, 3) to (4, 2, 7) *)
Definition int (n : Z) : f32 := slit n 0.
Definition camFrom : vec4 f32 := V4 (int 1) (int 2) (int 3) (int 0).
Definition camTo : vec4 f32 := V4 (int 4) (int 2) (int 7) (int 0).
Definition camUp : vec4 f32 := V4 (int 0) (int 1) (int 0) (int 0).
Lemma int_val : forall n, (Z.abs n < 100)%Z -> fin (int n) /\ val (int n) = IZR n.
Proof. intros n H. apply lit_Z. lia. Qed.
Ltac ints := repeat match goal with |- context [int ?n] => rewrite (proj2 (int_val n ltac:(lia))) end.
Lemma cam_vals : valQ camFrom = V4 1 2 3 0 /\ valQ camTo = V4 4 2 7 0 /\ valQ camUp = V4 0 1 0 0.
Proof. unfold valQ, camFrom, camTo, camUp. cbn [vx vy vz vw]. ints. repeat split. Qed.
Lemma cam_spot : forall a b c d, (Z.abs a < 100)%Z -> (Z.abs b < 100)%Z -> (Z.abs c < 100)%Z -> spot (V4 (int a) (int b) (int c) d).
Proof.
  intros a b c d A B C. destruct (int_val a A) as [Fa Va]. destruct (int_val b B) as [Fb Vb]. destruct (int_val c C) as [Fc Vc].
  assert (G : forall n, (Z.abs n < 100)%Z -> Rabs (IZR n) <= bpow radix2 40).
  { intros n N. rewrite <- abs_IZR. apply Rle_trans with (IZR 100); [apply IZR_le; lia|]. cbn. lra. }
  split; unfold allFin, boundedBy, l43; cbn [vx vy vz vw]; repeat apply Forall_cons; try apply Forall_nil; try assumption; rewrite ?Va, ?Vb, ?Vc; apply G; assumption.
Qed.
Lemma sqrt_sq : forall x y, 0 <= y -> x = y * y -> sqrt x = y.
Proof. intros x y H ->. apply sqrt_square, H. Qed.
Lemma cam_frame : ahead (valQ camFrom) (valQ camTo) = V4 (3 / 5) 0 (4 / 5) 0 /\ aside (valQ camFrom) (valQ camTo) (valQ camUp) = V4 (4 / 5) 0 (- (3 / 5)) 0 /\
  above (valQ camFrom) (valQ camTo) (valQ camUp) = V4 0 1 0 0.
Proof.
  destruct cam_vals as (-> & -> & ->).
  assert (A : ahead (V4 1 2 3 0) (V4 4 2 7 0) = V4 (3 / 5) 0 (4 / 5) 0).
  { unfold ahead, unit3. assert (L : len3 (minusS (V4 4 2 7 0) (V4 1 2 3 0)) = 5) by (apply sqrt_sq; [lra|]; unfold dotS, minusS; cbn [vx vy vz vw]; ring).
    rewrite L. unfold minusS. cbn [vx vy vz vw]. f_equal; lra. }
  assert (B : aside (V4 1 2 3 0) (V4 4 2 7 0) (V4 0 1 0 0) = V4 (4 / 5) 0 (- (3 / 5)) 0).
  { unfold aside. rewrite A. unfold unit3. assert (L : len3 (crossS (V4 0 1 0 0) (V4 (3 / 5) 0 (4 / 5) 0)) = 1) by (apply sqrt_sq; [lra|]; unfold dotS, crossS; cbn [vx vy vz vw]; field).
    rewrite L. unfold crossS. cbn [vx vy vz vw]. f_equal; lra. }
  split; [exact A|]. split; [exact B|]. unfold above. rewrite A, B. unfold crossS. cbn [vx vy vz vw]. f_equal; field.
Qed.
Lemma cam_ok : camera 1 camFrom camTo camUp.
Proof.
  assert (U1 : len3 (valQ camUp) = 1) by (destruct cam_vals as (_ & _ & ->); apply sqrt_sq; [lra|]; unfold dotS; cbn [vx vy vz vw]; ring).
  split; [apply cam_spot; reflexivity|]. split; [apply cam_spot; reflexivity|]. split; [|split; [exact (proj1 (cam_spot 0 1 0 (int 0) eq_refl eq_refl eq_refl))|]].
  - destruct cam_vals as (-> & -> & _). replace (dist3 _ _) with 5; [cbn; lra|]. symmetry. apply sqrt_sq; [lra|]. unfold dotS, minusS. cbn [vx vy vz vw]. ring.
  - rewrite U1. split; [cbn; lra|]. split; [lra|]. destruct cam_frame as (-> & _). destruct cam_vals as (_ & _ & ->).
    replace (len3 _) with 1; [lra|]. symmetry. apply sqrt_sq; [lra|]. unfold dotS, crossS. cbn [vx vy vz vw]. field.
Qed.
Theorem pole_nan : exists from to up : vec4 f32, spot from /\ spot to /\ dist3 (valQ to) (valQ from) = 4 /\ valQ up = V4 0 1 0 0 /\
  forall p, is_nan 24 128 (vx (c0 (lookAt p from to up))) = true /\ is_nan 24 128 (vx (mulV p (lookAt p from to up) (withW to f1))) = true.
Proof.
  exists (V4 (int 1) (int 2) (int 3) (int 0)), (V4 (int 1) (int 6) (int 3) (int 0)), camUp.
  split; [apply cam_spot; reflexivity|]. split; [apply cam_spot; reflexivity|]. split; [|split; [exact (proj2 (proj2 cam_vals))|]].
  - apply sqrt_sq; [lra|]. unfold dotS, minusS, valQ. cbn [vx vy vz vw]. ints. ring.
  - intros []; vm_compute; split; reflexivity.
Qed.
