(** Projection matrices over the reals. *)
From Coq Require Import ZArith Bool Reals Lra Lia.
From Verif.Model Require Import Scalar Vec Simd Matrix Trig Quaternion Transform.
From Verif.Spec Require Import GeomSpec MatSpec EuclidSpec RotSpec ProjSpec.
From Verif.Proofs Require Import OrdScalar Frustum RealLits Euclid MatrixProofs QuatProofs.
Local Open Scope R_scope.

Lemma tan_half_pos : forall fov, 0 < fov < PI -> 0 < tan (fov * / 2).
Proof. intros fov H. apply tan_gt_0; lra. Qed.
(** one description of the three perspective matrices: depth row (a, b) *)
Definition persp (t aspect a b : R) : mat4 R :=
  rows4 (1 / (aspect * t)) 0 0 0  0 (- 1 / t) 0 0  0 0 a b  0 0 1 0.
Lemma persp_projects : forall t aspect a b v q, 0 < t -> 0 < aspect -> 0 < vz v ->
  (projects (ent4 (persp t aspect a b)) v q <->
   vx q = vx v / (aspect * t * vz v) /\ vy q = - (vy v / (t * vz v)) /\ vz q = a + b / vz v).
Proof.
  intros t aspect a b v q Ht Ha Hz. unfold projects. split.
  - intros (w & Hw & H).
    pose proof (H 0%nat ltac:(lia)) as H0. pose proof (H 1%nat ltac:(lia)) as H1. pose proof (H 2%nat ltac:(lia)) as H2. pose proof (H 3%nat ltac:(lia)) as H3.
    clear H. unfold persp in *. unfold sum, ent4, comp4, rows4 in *. cbn [c0 c1 c2 c3 vx vy vz vw] in *.
    assert (w = vz v) by lra. subst w.
    assert (Z : forall A B, A = vz v * B -> B = A / vz v) by (intros A B ->; field; lra).
    apply Z in H0, H1, H2. split; [|split].
    + rewrite H0. field. split; [|split]; lra.
    + rewrite H1. field. split; lra.
    + rewrite H2. field. lra.
  - intros (E1 & E2 & E3). exists (vz v). split; [exact Hz|]. intros i Hi.
    unfold persp. idx; unfold sum, ent4, comp4, rows4; cbn [c0 c1 c2 c3 vx vy vz vw]; rewrite ?E1, ?E2, ?E3; field; repeat split; lra.
Qed.
Lemma perspProjR : forall fov aspect n f : R, calcPerspProj fov aspect n f = persp (tan (fov * / 2)) aspect (f / (f - n)) (- (f * n) / (f - n)).
Proof. intros. unfold calcPerspProj, persp. cbv zeta. rewrite f0R, f1R, fhalfR. reflexivity. Qed.
Lemma perspProjRevR : forall fov aspect n f : R, calcPerspProjRevZ fov aspect n f = persp (tan (fov * / 2)) aspect (n / (n - f)) (- (n * f) / (n - f)).
Proof. intros. unfold calcPerspProjRevZ, persp. cbv zeta. rewrite f0R, f1R, fhalfR. reflexivity. Qed.
Lemma perspProjInfR : forall fov aspect n : R, calcPerspProjInfRevZ fov aspect n = persp (tan (fov * / 2)) aspect 0 n.
Proof. intros. unfold calcPerspProjInfRevZ, persp. cbv zeta. rewrite f0R, f1R, fhalfR. reflexivity. Qed.

(** every point in front of the viewer has exactly one image *)
Theorem persp_defined : forall fov aspect n f v, 0 < n < f -> 0 < aspect -> 0 < fov < PI -> 0 < vz v ->
  (exists q, projects (ent4 (calcPerspProj fov aspect n f)) v q) /\
  (exists q, projects (ent4 (calcPerspProjRevZ fov aspect n f)) v q) /\
  (exists q, projects (ent4 (calcPerspProjInfRevZ fov aspect n)) v q).
Proof.
  intros fov aspect n f v Hn Ha Hf Hz. pose proof (tan_half_pos fov Hf) as Ht.
  rewrite perspProjR, perspProjRevR, perspProjInfR.
  assert (K : forall a b, exists q, projects (ent4 (persp (tan (fov * / 2)) aspect a b)) v q).
  { intros a b. exists (V4 (vx v / (aspect * tan (fov * / 2) * vz v)) (- (vy v / (tan (fov * / 2) * vz v))) (a + b / vz v) 0).
    apply persp_projects; auto. }
  repeat split; apply K.
Qed.
Lemma div_le1 : forall x d, 0 < d -> (-1 <= x / d <= 1 <-> - d <= x <= d).
Proof.
  intros x d Hd. assert (E : x = x / d * d) by (field; lra). set (r := x / d) in *. clearbody r. subst x. split; intros (A & B); split; nra.
Qed.
Lemma div_le1_neg : forall x d, 0 < d -> (-1 <= - (x / d) <= 1 <-> - d <= x <= d).
Proof. intros x d Hd. rewrite <- (div_le1 x d Hd). split; lra. Qed.
(** the image lies in the clip square exactly for the points inside the field of view; y is flipped *)
Theorem persp_view : forall t aspect a b v q, 0 < t -> 0 < aspect -> 0 < vz v ->
  projects (ent4 (persp t aspect a b)) v q ->
  (-1 <= vx q <= 1 <-> - (aspect * t * vz v) <= vx v <= aspect * t * vz v) /\
  (-1 <= vy q <= 1 <-> - (t * vz v) <= vy v <= t * vz v) /\
  (vx q = 1 <-> vx v = aspect * t * vz v) /\ (vx q = -1 <-> vx v = - (aspect * t * vz v)) /\
  (vy q = -1 <-> vy v = t * vz v) /\ (vy q = 1 <-> vy v = - (t * vz v)).
Proof.
  intros t aspect a b v q Ht Ha Hz H. apply persp_projects in H; [|assumption..]. destruct H as (-> & -> & _).
  assert (D1 : 0 < aspect * t * vz v) by (repeat apply Rmult_lt_0_compat; assumption).
  assert (D2 : 0 < t * vz v) by (apply Rmult_lt_0_compat; assumption).
  set (d1 := aspect * t * vz v) in *. set (d2 := t * vz v) in *. clearbody d1 d2.
  split; [apply div_le1, D1|]. split; [apply div_le1_neg, D2|].
  assert (K : forall x d k, 0 < d -> (x / d = k <-> x = k * d)).
  { intros x d k Hd. split; [intros <-; field; lra | intros ->; field; lra]. }
  rewrite (K _ _ 1 D1), (K _ _ (-1) D1).
  assert (N : forall r k : R, - r = k <-> r = - k) by (intros; split; lra).
  rewrite !N, (K _ _ _ D2), (K _ _ _ D2). repeat split; lra.
Qed.
Theorem persp_view3 : forall fov aspect n f v q, 0 < n < f -> 0 < aspect -> 0 < fov < PI -> 0 < vz v ->
  projects (ent4 (calcPerspProj fov aspect n f)) v q \/ projects (ent4 (calcPerspProjRevZ fov aspect n f)) v q \/
  projects (ent4 (calcPerspProjInfRevZ fov aspect n)) v q ->
  let t := tan (fov / 2) in
  (-1 <= vx q <= 1 <-> - (aspect * t * vz v) <= vx v <= aspect * t * vz v) /\
  (-1 <= vy q <= 1 <-> - (t * vz v) <= vy v <= t * vz v) /\
  (vx q = 1 <-> vx v = aspect * t * vz v) /\ (vx q = -1 <-> vx v = - (aspect * t * vz v)) /\
  (vy q = -1 <-> vy v = t * vz v) /\ (vy q = 1 <-> vy v = - (t * vz v)).
Proof.
  intros fov aspect n f v q Hn Ha Hf Hz H t. rewrite perspProjR, perspProjRevR, perspProjInfR in H.
  pose proof (tan_half_pos fov Hf) as Ht. destruct H as [H|[H|H]]; eapply persp_view; eassumption.
Qed.
Lemma depth_normal : forall n f z, 0 < n < f -> 0 < z -> f / (f - n) + - (f * n) / (f - n) / z = f / (f - n) * (1 - n / z).
Proof. intros. field. lra. Qed.
Theorem persp_depth : forall fov aspect n f v q, 0 < n < f -> 0 < aspect -> 0 < fov < PI -> 0 < vz v ->
  projects (ent4 (calcPerspProj fov aspect n f)) v q ->
  (vz v = n <-> vz q = 0) /\ (vz v = f <-> vz q = 1) /\ (n <= vz v <= f <-> 0 <= vz q <= 1) /\
  forall v' q', 0 < vz v' -> projects (ent4 (calcPerspProj fov aspect n f)) v' q' -> (vz v < vz v' <-> vz q < vz q').
Proof.
  intros fov aspect n f v q Hn Ha Hf Hz H. pose proof (tan_half_pos fov Hf) as Ht. rewrite perspProjR in *.
  apply persp_projects in H; [|assumption..]. destruct H as (_ & _ & E).
  assert (M : forall z z', 0 < z -> 0 < z' -> (z < z' <-> f / (f - n) + - (f * n) / (f - n) / z < f / (f - n) + - (f * n) / (f - n) / z')).
  { intros z z' P P'. assert (K : (f / (f - n) + - (f * n) / (f - n) / z') - (f / (f - n) + - (f * n) / (f - n) / z) = f * n / ((f - n) * z * z') * (z' - z)) by (field; lra).
    assert (C : 0 < f * n / ((f - n) * z * z')) by (apply Rdiv_lt_0_compat; repeat apply Rmult_lt_0_compat; lra).
    set (k := f * n / ((f - n) * z * z')) in *. set (A := f / (f - n) + - (f * n) / (f - n) / z) in *. set (B := f / (f - n) + - (f * n) / (f - n) / z') in *.
    clearbody k A B. split; intro; nra. }
  assert (Vn : f / (f - n) + - (f * n) / (f - n) / n = 0) by (field; lra).
  assert (Vf : f / (f - n) + - (f * n) / (f - n) / f = 1) by (field; lra).
  set (D := fun z => f / (f - n) + - (f * n) / (f - n) / z) in *. change (D n = 0) in Vn. change (D f = 1) in Vf. change (vz q = D (vz v)) in E.
  assert (M' : forall z z', 0 < z -> 0 < z' -> (z < z' <-> D z < D z')) by exact M. clear M.
  pose proof (M' n (vz v) ltac:(lra) Hz) as A1. pose proof (M' (vz v) n Hz ltac:(lra)) as A2.
  pose proof (M' f (vz v) ltac:(lra) Hz) as A3. pose proof (M' (vz v) f Hz ltac:(lra)) as A4. rewrite Vn, Vf in *. rewrite E.
  set (d := D (vz v)) in *. set (z := vz v) in *.
  split; [|split; [|split]].
  - split; intro K; [unfold d; rewrite K; exact Vn|]. destruct (Rtotal_order z n) as [L|[L|L]]; [apply A2 in L; lra|exact L|apply A1 in L; lra].
  - split; intro K; [unfold d; rewrite K; exact Vf|]. destruct (Rtotal_order z f) as [L|[L|L]]; [apply A4 in L; lra|exact L|apply A3 in L; lra].
  - split; intros (B1 & B2); split.
    + destruct (Rle_dec 0 d) as [|N]; [assumption|]. exfalso. assert (z < n) by (apply A2; lra). lra.
    + destruct (Rle_dec d 1) as [|N]; [assumption|]. exfalso. assert (f < z) by (apply A3; lra). lra.
    + destruct (Rle_dec n z) as [|N]; [assumption|]. exfalso. assert (d < 0) by (apply A2; lra). lra.
    + destruct (Rle_dec z f) as [|N]; [assumption|]. exfalso. assert (1 < d) by (apply A3; lra). lra.
  - intros v' q' Hz' H'. apply persp_projects in H'; [|assumption..]. destruct H' as (_ & _ & E'). change (vz q' = D (vz v')) in E'. rewrite E'. apply M'; assumption.
Qed.
(** reversed depth is one minus the ordinary depth *)
Lemma rev_depth : forall n f z, 0 < n < f -> 0 < z ->
  n / (n - f) + - (n * f) / (n - f) / z = 1 - (f / (f - n) + - (f * n) / (f - n) / z).
Proof. intros. field. repeat split; lra. Qed.
Theorem persp_depth_rev : forall fov aspect n f v q, 0 < n < f -> 0 < aspect -> 0 < fov < PI -> 0 < vz v ->
  projects (ent4 (calcPerspProjRevZ fov aspect n f)) v q ->
  (vz v = n <-> vz q = 1) /\ (vz v = f <-> vz q = 0) /\ (n <= vz v <= f <-> 0 <= vz q <= 1) /\
  forall v' q', 0 < vz v' -> projects (ent4 (calcPerspProjRevZ fov aspect n f)) v' q' -> (vz v < vz v' <-> vz q' < vz q).
Proof.
  intros fov aspect n f v q Hn Ha Hf Hz H. pose proof (tan_half_pos fov Hf) as Ht.
  destruct (persp_defined fov aspect n f v Hn Ha Hf Hz) as ((r & Hr) & _).
  destruct (persp_depth fov aspect n f v r Hn Ha Hf Hz Hr) as (A & B & C & D).
  rewrite perspProjRevR in H. rewrite perspProjR in Hr. apply persp_projects in H; [|assumption..]. apply persp_projects in Hr; [|assumption..].
  destruct H as (_ & _ & H), Hr as (_ & _ & Hr). rewrite rev_depth in H by assumption. rewrite <- Hr in H. rewrite H.
  split; [rewrite A; split; lra|]. split; [rewrite B; split; lra|]. split; [rewrite C; split; lra|].
  intros v' q' Hz' H'. destruct (persp_defined fov aspect n f v' Hn Ha Hf Hz') as ((r' & Hr') & _).
  rewrite (D v' r' Hz' Hr'). rewrite perspProjRevR in H'. rewrite perspProjR in Hr'. apply persp_projects in H'; [|assumption..]. apply persp_projects in Hr'; [|assumption..].
  destruct H' as (_ & _ & H'), Hr' as (_ & _ & Hr'). rewrite rev_depth in H' by assumption. rewrite <- Hr' in H'. rewrite H'. split; lra.
Qed.
Theorem persp_depth_inf : forall fov aspect n v q, 0 < n -> 0 < aspect -> 0 < fov < PI -> 0 < vz v ->
  projects (ent4 (calcPerspProjInfRevZ fov aspect n)) v q ->
  vz q = n / vz v /\ 0 < vz q /\ (vz v = n <-> vz q = 1) /\ (n <= vz v <-> vz q <= 1) /\
  (forall v' q', 0 < vz v' -> projects (ent4 (calcPerspProjInfRevZ fov aspect n)) v' q' -> (vz v < vz v' <-> vz q' < vz q)) /\
  (forall eps, 0 < eps -> n / eps < vz v -> vz q < eps).
Proof.
  intros fov aspect n v q Hn Ha Hf Hz H. pose proof (tan_half_pos fov Hf) as Ht. rewrite perspProjInfR in *.
  apply persp_projects in H; [|assumption..]. destruct H as (_ & _ & E). rewrite Rplus_0_l in E.
  assert (P : 0 < n / vz v) by (apply Rdiv_lt_0_compat; assumption).
  assert (F : n = n / vz v * vz v) by (field; lra). rewrite E. set (d := n / vz v) in *.
  split; [reflexivity|]. split; [exact P|]. split; [split; intro; nra|]. split; [split; intro; nra|]. split.
  - intros v' q' Hz' H'. apply persp_projects in H'; [|assumption..]. destruct H' as (_ & _ & E'). rewrite Rplus_0_l in E'. rewrite E'.
    assert (P' : 0 < n / vz v') by (apply Rdiv_lt_0_compat; assumption).
    assert (F' : n = n / vz v' * vz v') by (field; lra). set (d' := n / vz v') in *. clearbody d d'.
    assert (X : d * vz v = d' * vz v') by lra. clear - X P P' Hz Hz'. split; intro; nra.
  - intros eps He L. assert (G : n = n / eps * eps) by (field; lra). set (k := n / eps) in *. clearbody d k.
    clear - L G F He P Hz. assert (k * eps = d * vz v) by lra. nra.
Qed.

(** *** C52 *)
Lemma orthoR : forall (w h d : vec2 R), calcOrthoProj w h d =
  rows4 (2 / (y2 w - x2 w)) 0 0 (- (y2 w + x2 w) / (y2 w - x2 w)) 0 (- 2 / (y2 h - x2 h)) 0 ((y2 h + x2 h) / (y2 h - x2 h))
    0 0 (1 / (y2 d - x2 d)) (- x2 d / (y2 d - x2 d)) 0 0 0 1.
Proof. intros. unfold calcOrthoProj. rewrite f0R, f1R, f2R. reflexivity. Qed.
Lemma orthoRevR : forall (w h d : vec2 R), calcOrthoProjRevZ w h d =
  rows4 (2 / (y2 w - x2 w)) 0 0 (- (y2 w + x2 w) / (y2 w - x2 w)) 0 (- 2 / (y2 h - x2 h)) 0 ((y2 h + x2 h) / (y2 h - x2 h))
    0 0 (1 / (x2 d - y2 d)) (- y2 d / (x2 d - y2 d)) 0 0 0 1.
Proof. intros. unfold calcOrthoProjRevZ. rewrite f0R, f1R, f2R. reflexivity. Qed.
(** the map from [lo, hi] to [0, 1] *)
Definition frac (lo hi x : R) : R := (x - lo) / (hi - lo).
Lemma ortho_projects : forall (w h d : vec2 R) v q, x2 w <> y2 w -> x2 h <> y2 h -> x2 d <> y2 d ->
  (projects (ent4 (calcOrthoProj w h d)) v q <->
   vx q = 2 * frac (x2 w) (y2 w) (vx v) - 1 /\ vy q = 1 - 2 * frac (x2 h) (y2 h) (vy v) /\ vz q = frac (x2 d) (y2 d) (vz v)) /\
  (projects (ent4 (calcOrthoProjRevZ w h d)) v q <->
   vx q = 2 * frac (x2 w) (y2 w) (vx v) - 1 /\ vy q = 1 - 2 * frac (x2 h) (y2 h) (vy v) /\ vz q = 1 - frac (x2 d) (y2 d) (vz v)).
Proof.
  intros w h d v q Hw Hh Hd. rewrite orthoR, orthoRevR. unfold projects, frac. split; split.
  - intros (k & Hk & H).
    pose proof (H 0%nat ltac:(lia)) as H0. pose proof (H 1%nat ltac:(lia)) as H1. pose proof (H 2%nat ltac:(lia)) as H2. pose proof (H 3%nat ltac:(lia)) as H3.
    clear H. unfold sum, ent4, comp4, rows4 in *. cbn [c0 c1 c2 c3 vx vy vz vw] in *. assert (k = 1) by lra. subst k. rewrite Rmult_1_l in *.
    rewrite <- H0, <- H1, <- H2. repeat split; field; lra.
  - intros (E1 & E2 & E3). exists 1. split; [lra|]. intros i Hi. idx; unfold sum, ent4, comp4, rows4; cbn [c0 c1 c2 c3 vx vy vz vw]; rewrite ?E1, ?E2, ?E3; field; lra.
  - intros (k & Hk & H).
    pose proof (H 0%nat ltac:(lia)) as H0. pose proof (H 1%nat ltac:(lia)) as H1. pose proof (H 2%nat ltac:(lia)) as H2. pose proof (H 3%nat ltac:(lia)) as H3.
    clear H. unfold sum, ent4, comp4, rows4 in *. cbn [c0 c1 c2 c3 vx vy vz vw] in *. assert (k = 1) by lra. subst k. rewrite Rmult_1_l in *.
    rewrite <- H0, <- H1, <- H2. repeat split; field; repeat split; lra.
  - intros (E1 & E2 & E3). exists 1. split; [lra|]. intros i Hi. idx; unfold sum, ent4, comp4, rows4; cbn [c0 c1 c2 c3 vx vy vz vw]; rewrite ?E1, ?E2, ?E3; field; repeat split; lra.
Qed.
Lemma frac_bounds : forall lo hi x, lo < hi -> (0 <= frac lo hi x <= 1 <-> lo <= x <= hi).
Proof.
  intros lo hi x H. unfold frac. assert (E : x - lo = (x - lo) / (hi - lo) * (hi - lo)) by (field; lra). set (r := (x - lo) / (hi - lo)) in *. clearbody r.
  split; intros (A & B); split; nra.
Qed.
Lemma frac_ends : forall lo hi, lo < hi -> frac lo hi lo = 0 /\ frac lo hi hi = 1.
Proof. intros. unfold frac. split; field; lra. Qed.
Lemma unit2 : forall r, (-1 <= 2 * r - 1 <= 1 <-> 0 <= r <= 1) /\ (-1 <= 1 - 2 * r <= 1 <-> 0 <= r <= 1) /\ (0 <= 1 - r <= 1 <-> 0 <= r <= 1).
Proof. intro r. repeat split; lra. Qed.
Theorem ortho_box : forall (w h d : vec2 R) v, x2 w < y2 w -> x2 h < y2 h -> x2 d < y2 d ->
  (exists q, projects (ent4 (calcOrthoProj w h d)) v q) /\ (exists q, projects (ent4 (calcOrthoProjRevZ w h d)) v q) /\
  (forall q, projects (ent4 (calcOrthoProj w h d)) v q -> (inView w h d v <-> inClip q)) /\
  (forall q, projects (ent4 (calcOrthoProjRevZ w h d)) v q -> (inView w h d v <-> inClip q)).
Proof.
  intros w h d v Hw Hh Hd.
  assert (P : forall q, _) by (intro q; exact (ortho_projects w h d v q ltac:(lra) ltac:(lra) ltac:(lra))).
  split; [|split; [|split]].
  - exists (V4 (2 * frac (x2 w) (y2 w) (vx v) - 1) (1 - 2 * frac (x2 h) (y2 h) (vy v)) (frac (x2 d) (y2 d) (vz v)) 0). apply P. auto.
  - exists (V4 (2 * frac (x2 w) (y2 w) (vx v) - 1) (1 - 2 * frac (x2 h) (y2 h) (vy v)) (1 - frac (x2 d) (y2 d) (vz v)) 0). apply P. auto.
  - intros q H. apply P in H. destruct H as (E1 & E2 & E3). unfold inView, inClip. rewrite E1, E2, E3.
    destruct (unit2 (frac (x2 w) (y2 w) (vx v))) as (A & _). destruct (unit2 (frac (x2 h) (y2 h) (vy v))) as (_ & B & _). rewrite A, B, !frac_bounds by assumption. reflexivity.
  - intros q H. apply P in H. destruct H as (E1 & E2 & E3). unfold inView, inClip. rewrite E1, E2, E3.
    destruct (unit2 (frac (x2 w) (y2 w) (vx v))) as (A & _). destruct (unit2 (frac (x2 h) (y2 h) (vy v))) as (_ & B & _).
    destruct (unit2 (frac (x2 d) (y2 d) (vz v))) as (_ & _ & C). rewrite A, B, C, !frac_bounds by assumption. reflexivity.
Qed.
(** corners: left is -1, the low y edge is +1 (y flipped), near is 0 (1 in reversed depth) *)
Theorem ortho_corners : forall (w h d : vec2 R) q, x2 w < y2 w -> x2 h < y2 h -> x2 d < y2 d ->
  (projects (ent4 (calcOrthoProj w h d)) (V4 (x2 w) (x2 h) (x2 d) 0) q -> eq3 q (V4 (-1) 1 0 0)) /\
  (projects (ent4 (calcOrthoProj w h d)) (V4 (y2 w) (y2 h) (y2 d) 0) q -> eq3 q (V4 1 (-1) 1 0)) /\
  (projects (ent4 (calcOrthoProjRevZ w h d)) (V4 (x2 w) (x2 h) (x2 d) 0) q -> eq3 q (V4 (-1) 1 1 0)) /\
  (projects (ent4 (calcOrthoProjRevZ w h d)) (V4 (y2 w) (y2 h) (y2 d) 0) q -> eq3 q (V4 1 (-1) 0 0)).
Proof.
  intros w h d q Hw Hh Hd.
  destruct (frac_ends _ _ Hw) as (W0 & W1), (frac_ends _ _ Hh) as (H0 & H1), (frac_ends _ _ Hd) as (D0 & D1).
  split; [|split; [|split]]; intro H; apply (ortho_projects w h d) in H; try lra; destruct H as (E1 & E2 & E3); unfold eq3; cbn [vx vy vz] in *;
    rewrite E1, E2, E3, ?W0, ?W1, ?H0, ?H1, ?D0, ?D1; repeat split; ring.
Qed.
