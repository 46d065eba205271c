(** Cube map directions. *)
From Coq Require Import ZArith Reals Bool List Lia Lra Psatz.
From Verif.Model Require Import Outcome Scalar Vec Simd Trig Numeric Ibl.
From Verif.Spec Require Import IblSpec.
From Verif.Proofs Require Import RealLits Frustum.
Local Open Scope R_scope.

Lemma litR : forall m, slit m 0 = IZR m.
Proof. intros m. cbn [slit ScalarR]. unfold Rlit. cbn [powerRZ]. ring. Qed.
Lemma stR : forall c n, (0 < n)%Z -> stOf c (1 / IZR n) = 1 - 2 * centre n c.
Proof.
  intros c n Hn. unfold stOf, centre. rewrite !litR, f1R, f2R, fhalfR. cbn [sfma sadd ssub smul ScalarR].
  assert (0 < IZR n) by (apply IZR_lt; lia). field. lra.
Qed.
Lemma centre_bounds : forall n c, (0 <= c < n)%Z -> 0 < centre n c < 1.
Proof.
  intros n c H. unfold centre. assert (0 <= IZR c) by (apply IZR_le; lia). assert (IZR c + 1 <= IZR n).
  { rewrite <- plus_IZR. apply IZR_le. lia. }
  split.
  - apply Rdiv_lt_0_compat; lra.
  - apply Rmult_lt_reg_r with (IZR n); [lra|]. unfold Rdiv. rewrite Rmult_assoc, Rinv_l; lra.
Qed.
Lemma centre_inj : forall n c c', (0 < n)%Z -> centre n c = centre n c' -> c = c'.
Proof.
  intros n c c' Hn H. unfold centre in H. assert (0 < IZR n) by (apply IZR_lt; lia).
  apply (f_equal (fun x => x * IZR n)) in H. unfold Rdiv in H. rewrite !Rmult_assoc, !Rinv_l in H by lra.
  apply eq_IZR. lra.
Qed.

Lemma norm_pos : forall x y z, (x <> 0 \/ y <> 0 \/ z <> 0) -> 0 < sqrt (x * x + y * y + z * z).
Proof. intros x y z H. apply sqrt_lt_R0. destruct H as [H|[H|H]]; nra. Qed.
Lemma normalize_scaled : forall d : vec3 R, (x3 d <> 0 \/ y3 d <> 0 \/ z3 d <> 0) ->
  exists k, 0 < k /\ normalizep3 d = V3 (k * x3 d) (k * y3 d) (k * z3 d) /\ unit3 (normalizep3 d).
Proof.
  intros [x y z] H. cbn [x3 y3 z3] in H. pose proof (norm_pos x y z H) as N.
  exists (/ sqrt (x * x + y * y + z * z)). split; [apply Rinv_0_lt_compat, N|].
  unfold normalizep3, scale3, lengthp3, dotp3, map_3, unit3. cbn [x3 y3 z3 sadd smul sdiv ssqrt ScalarR]. rewrite f1R.
  split; [f_equal; field; lra|].
  set (L := sqrt (x * x + y * y + z * z)) in *.
  assert (E : L * L = x * x + y * y + z * z) by (apply sqrt_sqrt; nra).
  transitivity ((x * x + y * y + z * z) / (L * L)); [field; lra|]. rewrite <- E. field. lra.
Qed.

Definition face_direction_stmt cx cy f n :=
  exists d, coordsToDir cx cy f (1 / IZR n) = Ok d /\ unit3 d /\ throughFace f d /\
            meetsAt f d (centre n cx) (centre n cy).
Lemma face_direction : forall cx cy f n, (0 <= cx < n)%Z -> (0 <= cy < n)%Z -> isFace f ->
  exists d, coordsToDir cx cy f (1 / IZR n) = Ok d /\ unit3 d /\ throughFace f d /\
            meetsAt f d (centre n cx) (centre n cy).
Proof.
  intros cx cy f n Hx Hy Hf. unfold coordsToDir, coordsToST. rewrite !stR by lia.
  pose proof (centre_bounds n cx Hx) as Bx. pose proof (centre_bounds n cy Hy) as By.
  set (s := centre n cx) in *. set (t := centre n cy) in *.
  assert (E : (f = 0 \/ f = 1 \/ f = 2 \/ f = 3 \/ f = 4 \/ f = 5)%Z) by (unfold isFace in Hf; lia).
  assert (M1 : (slit (-1) 0 : R) = -1) by (rewrite litR; reflexivity).
  assert (Fin : forall d : vec3 R, (x3 d <> 0 \/ y3 d <> 0 \/ z3 d <> 0) ->
     (forall k, 0 < k -> let e := V3 (k * x3 d) (k * y3 d) (k * z3 d) in throughFace f e /\ meetsAt f e s t) ->
     exists d', Ok (normalizep3 d) = Ok d' /\ unit3 d' /\ throughFace f d' /\ meetsAt f d' s t).
  { intros d Hd K. destruct (normalize_scaled d Hd) as (k & Hk & Ek & U). exists (normalizep3 d).
    split; [reflexivity|]. split; [exact U|]. rewrite Ek. apply (K k Hk). }
  destruct E as [->|[->|[->|[->|[->| ->]]]]]; cbn [stToDir x2 y2]; rewrite ?M1, ?f1R; cbn [sneg ScalarR]; apply Fin; cbn [x3 y3 z3];
    try (left; lra); try (right; left; lra); try (right; right; lra);
    intros k Hk; cbv zeta; unfold throughFace, meetsAt, cubeTable; cbn [x3 y3 z3];
    (split; [split; apply Rabs_def1; nra|split; field; lra]).
Qed.
Lemma abort_faces : forall cx cy f (inv : R), coordsToDir cx cy f inv = Abort <-> ~ isFace f.
Proof.
  intros cx cy f inv. unfold coordsToDir, isFace. split.
  - intros H K. assert (E : (f = 0 \/ f = 1 \/ f = 2 \/ f = 3 \/ f = 4 \/ f = 5)%Z) by lia.
    destruct E as [->|[->|[->|[->|[->| ->]]]]]; discriminate.
  - intros H. destruct f as [|q|q]; try reflexivity; [exfalso; lia|].
    destruct q as [[[]|[]|]|[[]|[]|]|]; try reflexivity; exfalso; lia.
Qed.
Lemma through_unique : forall f g d, isFace f -> isFace g -> throughFace f d -> throughFace g d -> f = g.
Proof.
  intros f g [x y z] Hf Hg. unfold isFace in *.
  assert (E : (f = 0 \/ f = 1 \/ f = 2 \/ f = 3 \/ f = 4 \/ f = 5)%Z) by lia.
  assert (E' : (g = 0 \/ g = 1 \/ g = 2 \/ g = 3 \/ g = 4 \/ g = 5)%Z) by lia.
  destruct E as [->|[->|[->|[->|[->| ->]]]]], E' as [->|[->|[->|[->|[->| ->]]]]]; unfold throughFace, cubeTable; cbn [x3 y3 z3];
    intros [A B] [C D]; try reflexivity; exfalso; apply Rabs_def2 in A; apply Rabs_def2 in B; apply Rabs_def2 in C; apply Rabs_def2 in D; lra.
Qed.
Lemma texels_distinct : forall cx cy f cx' cy' f' n, (0 <= cx < n)%Z -> (0 <= cy < n)%Z -> (0 <= cx' < n)%Z -> (0 <= cy' < n)%Z ->
  isFace f -> isFace f' -> coordsToDir cx cy f (1 / IZR n) = coordsToDir cx' cy' f' (1 / IZR n) ->
  cx = cx' /\ cy = cy' /\ f = f'.
Proof.
  intros cx cy f cx' cy' f' n X Y X' Y' Hf Hf' E.
  destruct (face_direction cx cy f n X Y Hf) as (d & E1 & _ & T & M).
  destruct (face_direction cx' cy' f' n X' Y' Hf') as (d' & E2 & _ & T' & M').
  assert (d = d') by congruence. subst d'. assert (f = f') by (eapply through_unique; eassumption). subst f'.
  unfold meetsAt in M, M'. destruct (cubeTable f d) as [[sc tc] ma]. destruct M as [A B], M' as [A' B'].
  split; [|split; [|reflexivity]]; apply (centre_inj n); try lia; congruence.
Qed.

(** ** GGX importance sampling *)
Lemma cos2R : forall u a, cosTheta2 u a = (1 - u) / (1 + (a * a - 1) * u).
Proof.
  intros u a. unfold cosTheta2. rewrite f1R. cbn [sadd ssub smul sdiv ScalarR]. f_equal. ring.
Qed.
Lemma cos2_bounds : forall u a, 0 <= u < 1 -> 0 < a -> 0 < 1 + (a * a - 1) * u /\ 0 < cosTheta2 u a <= 1.
Proof.
  intros u a Hu Ha. assert (D : 0 < 1 + (a * a - 1) * u) by nra. rewrite cos2R. split; [exact D|]. split.
  - apply Rdiv_lt_0_compat; lra.
  - apply Rmult_le_reg_r with (1 + (a * a - 1) * u); [exact D|]. unfold Rdiv. rewrite Rmult_assoc, Rinv_l by lra. nra.
Qed.
Lemma ggx_sample : forall (u : vec2 R) a, 0 <= y2 u < 1 -> 0 < a ->
  let h := importanceSamplingNdfDggx u a in
  unit3 (xyz h) /\ 0 < vz h <= 1 /\ vw h = vz h.
Proof.
  intros [ux uy] a Hu Ha. cbn [y2] in Hu. cbv zeta. unfold importanceSamplingNdfDggx. cbn [x2 y2].
  destruct (cos2_bounds uy a Hu Ha) as [_ B]. set (c2 := cosTheta2 uy a) in *. rewrite f1R.
  unfold of3, xyz, unit3. cbn [vx vy vz vw x3 y3 z3 ssqrt ssub smul ScalarR tcos tsin TrigR].
  set (phi := f2 * _ * ux).
  pose proof (sin2_cos2 phi) as T. unfold Rsqr in T.
  assert (A : sqrt c2 * sqrt c2 = c2) by (apply sqrt_sqrt; lra).
  assert (A' : sqrt (1 - c2) * sqrt (1 - c2) = 1 - c2) by (apply sqrt_sqrt; lra).
  split; [|split; [split|reflexivity]].
  - transitivity (sqrt (1 - c2) * sqrt (1 - c2) * (sin phi * sin phi + cos phi * cos phi) + sqrt c2 * sqrt c2); [ring|].
    rewrite T, A, A'. ring.
  - apply sqrt_lt_R0. lra.
  - rewrite <- sqrt_1. apply sqrt_le_1; lra.
Qed.
(** the fraction of samples whose cosine exceeds c *)
Lemma sample_tail : forall u a, 0 <= u < 1 -> 0 < a -> tailFraction a (sqrt (cosTheta2 u a)) = u.
Proof.
  intros u a Hu Ha. destruct (cos2_bounds u a Hu Ha) as [D B]. unfold tailFraction. rewrite sqrt_sqrt by lra.
  rewrite cos2R in *. assert (0 < a * a) by nra.
  assert (E : 1 + (a * a - 1) * ((1 - u) / (1 + (a * a - 1) * u)) = a * a / (1 + (a * a - 1) * u)) by (field; lra).
  rewrite E. field. split; lra.
Qed.
Lemma sample_density : forall a c, 0 < a -> 0 <= c <= 1 ->
  derivable_pt_lim (tailFraction a) c (- (2 * piF * ggx c a * c)).
Proof.
  intros a c Ha Hc. assert (D : 0 < 1 + (a * a - 1) * (c * c)) by nra.
  assert (P : piF <> 0 :> R). { unfold piF. cbn [slit ScalarR]. unfold Rlit. apply Rmult_integral_contrapositive_currified; [lra|apply powerRZ_NOR; lra]. }
  replace (- (2 * piF * ggx c a * c)) with
    (((0 - (1 * c + c * 1)) * (1 + (a * a - 1) * (c * c)) - (0 + (a * a - 1) * (1 * c + c * 1)) * (1 - c * c)) / Rsqr (1 + (a * a - 1) * (c * c))).
  - unfold tailFraction.
    apply (derivable_pt_lim_div (fun c => 1 - c * c) (fun c => 1 + (a * a - 1) * (c * c))); [| |lra].
    + apply (derivable_pt_lim_minus (fct_cte 1) (fun c => c * c)); [apply derivable_pt_lim_const|].
      apply (derivable_pt_lim_mult id id); apply derivable_pt_lim_id.
    + apply (derivable_pt_lim_plus (fct_cte 1) (fun c => (a * a - 1) * (c * c))); [apply derivable_pt_lim_const|].
      apply (derivable_pt_lim_scal (fun c => c * c)).
      apply (derivable_pt_lim_mult id id); apply derivable_pt_lim_id.
  - unfold ggx. rewrite f1R. cbn [sadd ssub smul sdiv ScalarR]. unfold Rsqr.
    replace ((a - 1) * ((a + 1) * (c * c)) + 1) with (1 + (a * a - 1) * (c * c)) by ring.
    field. split; [lra|exact P].
Qed.
