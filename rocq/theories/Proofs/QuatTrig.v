(** Matrix to quaternion, slerp, axis angle and Euler angles over the reals. *)
From Coq Require Import ZArith Bool Reals Lra Lia Ratan.
From Flocq Require Import Core.Core.
From Verif.Model Require Import Scalar Vec Simd Matrix Trig Quaternion Transform.
From Verif.Spec Require Import GeomSpec MatSpec EuclidSpec RotSpec.
From Verif.Proofs Require Import OrdScalar Frustum RealLits RayProofs Euclid MatrixProofs QuatProofs GeometryProofs.
Local Open Scope R_scope.

(** *** C44 *)
Lemma quarterR : (slit 1 (-2) : R) = / 4.
Proof. cbn [slit ScalarR]. unfold Rlit, powerRZ. change (Pos.to_nat 2) with 2%nat. lra. Qed.
(** the four candidates are 4 c^2 - 1 for the components c *)
Lemma biggest_spec : forall q : vec4 R, unitQ q -> forall m, m = rotate q ->
  exists c, snd (biggest m) + 1 = 4 * (c * c) /\ 1 / 4 <= c * c /\
  (fst (biggest m) = 0%Z /\ c = vw q \/ fst (biggest m) = 1%Z /\ c = vx q \/
   fst (biggest m) = 2%Z /\ c = vy q \/ fst (biggest m) = 3%Z /\ c = vz q).
Proof.
  intros q H m ->. unfold unitQ in H. destruct q as [x y z w]. unfold norm2 in H. cbn [vx vy vz vw] in *.
  set (X := x * x) in *. set (Y := y * y) in *. set (Z := z * z) in *. set (W := w * w) in *.
  unfold biggest. cbv zeta.
  assert (EX : (vx (c0 (rotate (V4 x y z w))) - vy (c1 (rotate (V4 x y z w))) - vz (c2 (rotate (V4 x y z w))))%sc = 4 * X - 1).
  { unfold rotate. cbn [vx vy vz vw c0 c1 c2]. rewrite f1R, f2R. cbn [sadd ssub smul ScalarR]. fold X Y Z. lra. }
  assert (EY : (vy (c1 (rotate (V4 x y z w))) - vx (c0 (rotate (V4 x y z w))) - vz (c2 (rotate (V4 x y z w))))%sc = 4 * Y - 1).
  { unfold rotate. cbn [vx vy vz vw c0 c1 c2]. rewrite f1R, f2R. cbn [sadd ssub smul ScalarR]. fold X Y Z. lra. }
  assert (EZ : (vz (c2 (rotate (V4 x y z w))) - vx (c0 (rotate (V4 x y z w))) - vy (c1 (rotate (V4 x y z w))))%sc = 4 * Z - 1).
  { unfold rotate. cbn [vx vy vz vw c0 c1 c2]. rewrite f1R, f2R. cbn [sadd ssub smul ScalarR]. fold X Y Z. lra. }
  assert (EW : (vx (c0 (rotate (V4 x y z w))) + vy (c1 (rotate (V4 x y z w))) + vz (c2 (rotate (V4 x y z w))))%sc = 4 * W - 1).
  { unfold rotate. cbn [vx vy vz vw c0 c1 c2]. rewrite f1R, f2R. cbn [sadd ssub smul ScalarR]. fold X Y Z. lra. }
  rewrite EX, EY, EZ, EW. cbn [snd]. unfold sgt.
  destruct (slt (4 * W - 1) (4 * X - 1)) eqn:A; [apply sltR in A | apply sltR_false in A]; cbn [snd fst].
  - destruct (slt (4 * X - 1) (4 * Y - 1)) eqn:B; [apply sltR in B | apply sltR_false in B]; cbn [snd fst].
    + destruct (slt (4 * Y - 1) (4 * Z - 1)) eqn:C; [apply sltR in C | apply sltR_false in C]; cbn [snd fst].
      * exists z. fold Z. split; [lra|]. split; [lra|]. tauto.
      * exists y. fold Y. split; [lra|]. split; [lra|]. tauto.
    + destruct (slt (4 * X - 1) (4 * Z - 1)) eqn:C; [apply sltR in C | apply sltR_false in C]; cbn [snd fst].
      * exists z. fold Z. split; [lra|]. split; [lra|]. tauto.
      * exists x. fold X. split; [lra|]. split; [lra|]. tauto.
  - destruct (slt (4 * W - 1) (4 * Y - 1)) eqn:B; [apply sltR in B | apply sltR_false in B]; cbn [snd fst].
    + destruct (slt (4 * Y - 1) (4 * Z - 1)) eqn:C; [apply sltR in C | apply sltR_false in C]; cbn [snd fst].
      * exists z. fold Z. split; [lra|]. split; [lra|]. tauto.
      * exists y. fold Y. split; [lra|]. split; [lra|]. tauto.
    + destruct (slt (4 * W - 1) (4 * Z - 1)) eqn:C; [apply sltR in C | apply sltR_false in C]; cbn [snd fst].
      * exists z. fold Z. split; [lra|]. split; [lra|]. tauto.
      * exists w. fold W. split; [lra|]. split; [lra|]. tauto.
Qed.
Lemma sqrt_four : forall c, sqrt (4 * (c * c)) * / 2 = Rabs c.
Proof.
  intro c. replace (4 * (c * c)) with ((2 * c)²) by (unfold Rsqr; ring). rewrite sqrt_Rsqr_abs, Rabs_mult, (Rabs_right 2) by lra. lra.
Qed.
Theorem extractQuat_rotate : forall q : vec4 R, unitQ q ->
  (extractQuat (rotate q) = q \/ extractQuat (rotate q) = negQ q) /\
  1 / 2 <= ssqrt (snd (biggest (rotate q)) + f1)%sc * fhalf.
Proof.
  intros q H. destruct (biggest_spec q H _ eq_refl) as (c & E1 & E2 & E3).
  assert (V : (ssqrt (snd (biggest (rotate q)) + f1)%sc * fhalf) = Rabs c).
  { rewrite f1R, fhalfR. cbn [sadd ssqrt ScalarR]. rewrite E1. apply sqrt_four. }
  assert (Hc : 1 / 2 <= Rabs c) by (unfold Rabs; destruct Rcase_abs; nra).
  split; [|rewrite V; exact Hc].
  unfold extractQuat. cbv zeta. rewrite quarterR.
  change ((ssqrt (snd (biggest (rotate q)) + f1) * fhalf)%sc) with (ssqrt (snd (biggest (rotate q)) + f1)%sc * fhalf).
  rewrite V. change (/ 4 / Rabs c)%sc with (/ 4 / Rabs c).
  assert (K : / 4 / Rabs c = / (4 * c) /\ Rabs c = c /\ 0 < c \/ / 4 / Rabs c = - / (4 * c) /\ Rabs c = - c /\ c < 0).
  { unfold Rabs in *. destruct Rcase_abs; [right|left]; (split; [field; lra|]); split; lra. }
  destruct K as [(-> & -> & S) | (-> & -> & S)]; [left|right];
  (destruct E3 as [(-> & Ec) | [(-> & Ec) | [(-> & Ec) | (-> & Ec)]]]; cbn [Z.eqb Pos.eqb];
   subst c; unfold rotate, negQ; destruct q as [x y z w]; cbn [vx vy vz vw c0 c1 c2] in *; rewrite ?f1R, ?f2R;
   cbn [sadd ssub smul ScalarR]; f_equal; try reflexivity; field; lra).
Qed.

(** *** C45 *)
Lemma fltEpsR : (fltEps : R) = / 8388608.
Proof. unfold fltEps. cbn [slit ScalarR]. unfold Rlit, powerRZ. change (Pos.to_nat 23) with 23%nat. rewrite pow_IZR. change (2 ^ Z.of_nat 23)%Z with 8388608%Z. lra. Qed.
Lemma cauchy4 : forall a b, unitQ a -> unitQ b -> -1 <= inner4 a b <= 1.
Proof.
  intros a b Ha Hb. unfold unitQ, norm2, inner4 in *. destruct a as [a1 a2 a3 a4], b as [b1 b2 b3 b4]. cbn [vx vy vz vw] in *.
  pose proof (sq_pos (a1 - b1)). pose proof (sq_pos (a2 - b2)). pose proof (sq_pos (a3 - b3)). pose proof (sq_pos (a4 - b4)).
  pose proof (sq_pos (a1 + b1)). pose proof (sq_pos (a2 + b2)). pose proof (sq_pos (a3 + b3)). pose proof (sq_pos (a4 + b4)). lra.
Qed.
Definition plusQ (a b : vec4 R) : vec4 R := V4 (vx a + vx b) (vy a + vy b) (vz a + vz b) (vw a + vw b).
Definition nearer (a b : vec4 R) : vec4 R := if Rlt_dec (inner4 a b) 0 then negQ b else b.
Lemma nearer_cases : forall a b, nearer a b = b \/ nearer a b = negQ b.
Proof. intros a b. unfold nearer. destruct Rlt_dec; auto. Qed.
Lemma nearer_inner : forall a b, inner4 a (nearer a b) = Rabs (inner4 a b).
Proof.
  intros a b. unfold nearer. destruct Rlt_dec as [H|H].
  - rewrite Rabs_left by exact H. unfold inner4, negQ. cbn [vx vy vz vw]. ring.
  - rewrite Rabs_right by lra. reflexivity.
Qed.
Lemma nearer_unit : forall a b, unitQ b -> unitQ (nearer a b).
Proof. intros a b H. destruct (nearer_cases a b) as [-> | ->]; [exact H|]. unfold unitQ in *. rewrite <- H. unfold norm2, negQ. cbn [vx vy vz vw]. ring. Qed.
Lemma slerpR : forall p (a b : vec4 R) t, let d := Rabs (inner4 a b) in let c := nearer a b in
  slerp p a b t = if Rlt_dec (1 - / 8388608) d then plusQ (scaleQ (1 - t) a) (scaleQ t c)
    else scaleQ (/ sin (acos d)) (plusQ (scaleQ (sin ((1 - t) * acos d)) a) (scaleQ (sin (t * acos d)) c)).
Proof.
  intros p a b t d c. unfold slerp. cbv zeta. rewrite !dot4R. unfold sgt. rewrite f0R, f1R, fltEpsR.
  assert (E : (if slt (inner4 a b) 0 then (- inner4 a b)%sc else inner4 a b) = d /\ (if slt (inner4 a b) 0 then vneg b else b) = c).
  { unfold d, c, nearer. destruct (slt (inner4 a b) 0) eqn:A; [apply sltR in A | apply sltR_false in A]; destruct Rlt_dec; try lra.
    - rewrite Rabs_left by lra. split; reflexivity.
    - rewrite Rabs_right by lra. split; reflexivity. }
  destruct E as (-> & ->). change ((1 - / 8388608)%sc) with (1 - / 8388608).
  destruct Rlt_dec as [H|H].
  - apply sltR in H. rewrite H. unfold vlerp. rewrite f1R. unfold vadd, vscale, vmul, map2_4, plusQ, scaleQ, dup4. cbn [vx vy vz vw sadd ssub smul ScalarR]. f_equal; ring.
  - assert (H' : slt (1 - / 8388608) d = false) by (apply sltR_false; lra). rewrite H'.
    unfold vdivn, vdiv, vadd, vscale, vmul, map2_4, plusQ, scaleQ, dup4. cbn [vx vy vz vw sadd ssub smul sdiv tsin tacos TrigR ScalarR]. unfold Rdiv. f_equal; ring.
Qed.
Lemma theta_range : forall d, 0 <= d -> ~ (1 - / 8388608 < d) -> 0 < sin (acos d) /\ cos (acos d) = d.
Proof.
  intros d H1 H2. assert (H3 : d < 1) by lra. split; [|apply cos_acos; lra].
  destruct (acos_bound d) as (A & B). apply sin_gt_0.
  - destruct A as [A|A]; [exact A|]. exfalso. pose proof (cos_acos d ltac:(lra)) as C. rewrite <- A, cos_0 in C. lra.
  - destruct B as [B|B]; [exact B|]. exfalso. pose proof (cos_acos d ltac:(lra)) as C. rewrite B, cos_PI in C. lra.
Qed.
Theorem slerp_endpoints : forall p (a b : vec4 R),
  slerp p a b 0 = a /\ (slerp p a b 1 = b \/ slerp p a b 1 = negQ b).
Proof.
  intros p a b. pose proof (Rabs_pos (inner4 a b)) as Hp.
  assert (A : slerp p a b 0 = a /\ slerp p a b 1 = nearer a b).
  { rewrite !slerpR. destruct Rlt_dec as [H|H].
    - split; [destruct a|destruct (nearer a b)]; unfold plusQ, scaleQ; cbv [Vec.vx Vec.vy Vec.vz Vec.vw]; f_equal; ring.
    - destruct (theta_range _ Hp H) as (T & _).
      replace ((1 - 0) * acos (Rabs (inner4 a b))) with (acos (Rabs (inner4 a b))) by ring.
      replace ((1 - 1) * acos (Rabs (inner4 a b))) with 0 by ring. replace (0 * acos (Rabs (inner4 a b))) with 0 by ring.
      replace (1 * acos (Rabs (inner4 a b))) with (acos (Rabs (inner4 a b))) by ring. rewrite sin_0.
      split; [destruct a|destruct (nearer a b)]; unfold plusQ, scaleQ; cbv [Vec.vx Vec.vy Vec.vz Vec.vw]; f_equal; field; lra. }
  destruct A as (A & B). split; [exact A|]. rewrite B. apply nearer_cases.
Qed.
Lemma norm2_comb : forall k x a y c, norm2 (scaleQ k (plusQ (scaleQ x a) (scaleQ y c))) =
  k * k * (x * x * norm2 a + y * y * norm2 c + 2 * x * y * inner4 a c).
Proof. intros. unfold norm2, scaleQ, plusQ, inner4. cbn [vx vy vz vw]. ring. Qed.
Lemma sine_rule : forall A B, sin A * sin A + sin B * sin B + 2 * sin A * sin B * cos (A + B) = sin (A + B) * sin (A + B).
Proof.
  intros A B. rewrite sin_plus, cos_plus. pose proof (sin2_cos2 A) as HA. pose proof (sin2_cos2 B) as HB. unfold Rsqr in *.
  assert (EA : cos A * cos A = 1 - sin A * sin A) by lra. assert (EB : cos B * cos B = 1 - sin B * sin B) by lra.
  transitivity (sin A * sin A * (cos B * cos B) + 2 * (sin A * cos B * cos A * sin B) + cos A * cos A * (sin B * sin B)); [|ring].
  rewrite EA, EB. ring.
Qed.
Theorem slerp_unit : forall p (a b : vec4 R) t, unitQ a -> unitQ b -> Rabs (inner4 a b) <= 1 - / 8388608 -> unitQ (slerp p a b t).
Proof.
  intros p a b t Ha Hb H. rewrite slerpR. destruct Rlt_dec as [H1|H1]; [lra|].
  destruct (theta_range _ (Rabs_pos _) H1) as (T & C). unfold unitQ. rewrite norm2_comb. pose proof (nearer_unit a b Hb) as Hc.
  unfold unitQ in *. rewrite Ha, Hc, nearer_inner. set (th := acos (Rabs (inner4 a b))) in *. rewrite <- C.
  replace (cos th) with (cos ((1 - t) * th + t * th)) by (f_equal; ring).
  pose proof (sine_rule ((1 - t) * th) (t * th)) as S. replace (sin ((1 - t) * th + t * th)) with (sin th) in S by (f_equal; ring).
  set (X := sin ((1 - t) * th)) in *. set (Y := sin (t * th)) in *. set (D := cos ((1 - t) * th + t * th)) in *.
  replace (X * X * 1 + Y * Y * 1 + 2 * X * Y * D) with (sin th * sin th) by lra. field. lra.
Qed.
Theorem slerp_near_unit : forall p (a b : vec4 R) t, unitQ a -> unitQ b -> 0 <= t <= 1 ->
  1 - / 16777216 <= norm2 (slerp p a b t) <= 1.
Proof.
  intros p a b t Ha Hb Ht.
  destruct (Rle_dec (Rabs (inner4 a b)) (1 - / 8388608)) as [L|L].
  { pose proof (slerp_unit p a b t Ha Hb L) as U. unfold unitQ in U. rewrite U. lra. }
  rewrite slerpR. destruct Rlt_dec as [H1|H1]; [|lra].
  replace (plusQ (scaleQ (1 - t) a) (scaleQ t (nearer a b))) with (scaleQ 1 (plusQ (scaleQ (1 - t) a) (scaleQ t (nearer a b))))
    by (unfold scaleQ, plusQ; cbn [vx vy vz vw]; f_equal; ring).
  rewrite norm2_comb. pose proof (nearer_unit a b Hb) as Hc. pose proof (cauchy4 a _ Ha Hc) as Ca.
  rewrite nearer_inner in *. unfold unitQ in *. rewrite Ha, Hc. set (d := Rabs (inner4 a b)) in *. clearbody d.
  clear Ha Hb Hc L.
  assert (E : 1 * 1 * ((1 - t) * (1 - t) * 1 + t * t * 1 + 2 * (1 - t) * t * d) = 1 - 2 * (t * (1 - t)) * (1 - d)) by ring.
  rewrite E. assert (0 <= t * (1 - t) <= / 4) by (split; [apply Rmult_le_pos; lra|]; pose proof (sq_pos (t - / 2)); lra). set (m := t * (1 - t)) in *. clearbody m.
  assert (0 <= m * (1 - d)) by (apply Rmult_le_pos; lra).
  assert (m * (1 - d) <= / 4 * / 8388608) by (apply Rmult_le_compat; lra). lra.
Qed.
Theorem slerp_angle : forall p (a b : vec4 R) t, unitQ a -> unitQ b -> Rabs (inner4 a b) <= 1 - / 8388608 ->
  inner4 a (slerp p a b t) = cos (t * acos (Rabs (inner4 a b))).
Proof.
  intros p a b t Ha Hb H. rewrite slerpR. destruct Rlt_dec as [H1|H1]; [lra|].
  destruct (theta_range _ (Rabs_pos _) H1) as (T & C).
  assert (E : forall k x y c, inner4 a (scaleQ k (plusQ (scaleQ x a) (scaleQ y c))) = k * (x * norm2 a + y * inner4 a c))
    by (intros; unfold norm2, scaleQ, plusQ, inner4; cbn [vx vy vz vw]; ring).
  rewrite E, nearer_inner. unfold unitQ in Ha. rewrite Ha. set (th := acos (Rabs (inner4 a b))) in *. rewrite <- C.
  replace ((1 - t) * th) with (th - t * th) by ring. rewrite sin_minus.
  set (B := t * th). field_simplify; [|lra]. field. lra.
Qed.
Lemma inner4_sym : forall a b, inner4 a b = inner4 b a.
Proof. intros. unfold inner4. ring. Qed.
Theorem slerp_symmetric : forall p (a b : vec4 R) t,
  slerp p b a (1 - t) = slerp p a b t \/ slerp p b a (1 - t) = negQ (slerp p a b t).
Proof.
  intros p a b t. rewrite !slerpR, (inner4_sym b a). unfold nearer. rewrite (inner4_sym b a).
  replace (1 - (1 - t)) with t by ring.
  destruct (Rlt_dec (inner4 a b) 0); [right|left]; destruct Rlt_dec; unfold plusQ, scaleQ, negQ; cbn [vx vy vz vw]; f_equal; ring.
Qed.

(** *** C87: angle and axis *)
Theorem quatOfAxis_unit : forall angle (u : vec4 R), dotS u u = 1 -> unitQ (quatOfAxis angle u).
Proof.
  intros angle u H. unfold unitQ, norm2, quatOfAxis, dotS in *. cbn [vx vy vz vw smul tsin tcos ScalarR TrigR]. rewrite fhalfR.
  pose proof (sin2_cos2 (angle * / 2)) as S. unfold Rsqr in S. set (s := sin (angle * / 2)) in *. set (c := cos (angle * / 2)) in *.
  replace (vx u * s * (vx u * s) + vy u * s * (vy u * s) + vz u * s * (vz u * s) + c * c)
    with ((vx u * vx u + vy u * vy u + vz u * vz u) * (s * s) + c * c) by ring. rewrite H. lra.
Qed.
Lemma half_angle : forall x, cos x = 1 - 2 * (sin (x * / 2) * sin (x * / 2)) /\ sin x = 2 * (sin (x * / 2) * cos (x * / 2)) /\
  cos (x * / 2) * cos (x * / 2) = 1 - sin (x * / 2) * sin (x * / 2).
Proof.
  intro x. pose proof (cos_2a_sin (x * / 2)) as A. pose proof (sin_2a (x * / 2)) as B. pose proof (sin2_cos2 (x * / 2)) as C. unfold Rsqr in C.
  replace (2 * (x * / 2)) with x in A, B by field. split; [lra|]. split; lra.
Qed.
Theorem quatOfAxis_rotates : forall p angle (u v : vec4 R), dotS u u = 1 ->
  eq3 (qrot p (quatOfAxis angle u) v) (rodrigues u angle v).
Proof.
  intros p angle u v H. eapply eq3_trans; [apply qrotR|].
  unfold rotP, quatOfAxis, rodrigues, eq3. cbv zeta. unfold dotS, crossS in *. cbn [vx vy vz vw smul tsin tcos ScalarR TrigR]. rewrite !fhalfR.
  destruct (half_angle angle) as (-> & -> & C). set (s := sin (angle * / 2)) in *. set (c := cos (angle * / 2)) in *.
  destruct u as [x y z w], v as [v1 v2 v3 v4]. cbn [vx vy vz vw] in *.
  assert (E : z * z = 1 - x * x - y * y) by lra.
  assert (E1 : y * y + z * z = 1 - x * x) by lra. assert (E2 : x * x + z * z = 1 - y * y) by lra. assert (E3 : x * x + y * y = 1 - z * z) by lra.
  split; [|split].
  - transitivity (v1 - 2 * (s * s) * (y * y + z * z) * v1 + 2 * (s * s) * (x * (y * v2 + z * v3)) + 2 * s * c * (y * v3 - z * v2)); [ring|]. rewrite E1. ring.
  - transitivity (v2 - 2 * (s * s) * (x * x + z * z) * v2 + 2 * (s * s) * (y * (x * v1 + z * v3)) + 2 * s * c * (z * v1 - x * v3)); [ring|]. rewrite E2. ring.
  - transitivity (v3 - 2 * (s * s) * (x * x + y * y) * v3 + 2 * (s * s) * (z * (x * v1 + y * v2)) + 2 * s * c * (x * v2 - y * v1)); [ring|]. rewrite E3. ring.
Qed.

(** *** C46 *)
Theorem euler_product : forall a : vec4 R, fromEulerAngles a =
  qmul (qmul (quatOfAxis (vz a) axisZ) (quatOfAxis (vy a) axisY)) (quatOfAxis (vx a) axisX).
Proof.
  intros a. unfold fromEulerAngles, qmul, quatOfAxis, axisX, axisY, axisZ. cbv zeta. cbn [vx vy vz vw sadd ssub smul ScalarR]. f_equal; ring.
Qed.
Lemma axis_unit : dotS axisX axisX = 1 /\ dotS axisY axisY = 1 /\ dotS axisZ axisZ = 1.
Proof. unfold dotS, axisX, axisY, axisZ. cbn [vx vy vz]. lra. Qed.
Theorem euler_unit : forall a : vec4 R, unitQ (fromEulerAngles a).
Proof. intro a. rewrite euler_product. destruct axis_unit as (X & Y & Z). repeat apply qmul_unit; apply quatOfAxis_unit; assumption. Qed.
Lemma rodrigues_eq3 : forall u t v v', eq3 v v' -> rodrigues u t v = rodrigues u t v'.
Proof. intros u t v v' (A & B & C). unfold rodrigues, dotS, crossS. cbn [vx vy vz]. rewrite A, B, C. reflexivity. Qed.
Theorem euler_rotates : forall p (a v : vec4 R),
  eq3 (qrot p (fromEulerAngles a) v) (rodrigues axisZ (vz a) (rodrigues axisY (vy a) (rodrigues axisX (vx a) v))).
Proof.
  intros p a v. rewrite euler_product. destruct axis_unit as (X & Y & Z).
  eapply eq3_trans; [apply qmul_compose; [apply qmul_unit|]; apply quatOfAxis_unit; assumption|].
  eapply eq3_trans; [apply qmul_compose; apply quatOfAxis_unit; assumption|].
  eapply eq3_trans; [apply quatOfAxis_rotates; assumption|].
  rewrite (rodrigues_eq3 _ _ _ _ (quatOfAxis_rotates p _ _ _ Y)), (rodrigues_eq3 axisY _ _ _ (quatOfAxis_rotates p _ _ _ X)). apply eq3_refl.
Qed.
Lemma atan2_polar : forall r t, 0 < r -> - PI < t <= PI -> Ratan2 (r * sin t) (r * cos t) = t.
Proof.
  intros r t Hr Ht. unfold Ratan2. pose proof PI_RGT_0 as HPI.
  destruct (Rlt_dec 0 (r * cos t)) as [H|H].
  { assert (C : 0 < cos t) by nra.
    assert (- (PI / 2) < t < PI / 2).
    { split.
      - destruct (Rlt_dec (- (PI / 2)) t) as [|N]; [assumption|]. exfalso.
        assert (cos (- t) <= 0) by (apply cos_le_0; lra). rewrite cos_neg in *. lra.
      - destruct (Rlt_dec t (PI / 2)) as [|N]; [assumption|]. exfalso.
        assert (cos t <= 0) by (apply cos_le_0; lra). lra. }
    replace (r * sin t / (r * cos t)) with (tan t) by (unfold tan; field; lra). apply atan_tan. lra. }
  destruct (Rlt_dec (r * cos t) 0) as [H1|H1].
  { assert (C : cos t < 0) by nra.
    assert (E : r * sin t / (r * cos t) = tan t) by (unfold tan; field; lra). rewrite E.
    destruct (Rle_dec 0 (r * sin t)) as [S|S].
    - assert (S' : 0 <= sin t) by nra.
      assert (PI / 2 < t).
      { destruct (Rlt_dec (PI / 2) t) as [|N]; [assumption|]. exfalso.
        destruct (Rle_dec 0 t) as [P|P]; [assert (0 <= cos t) by (apply cos_ge_0; lra); lra|].
        assert (0 < sin (- t)) by (apply sin_gt_0; lra). rewrite sin_neg in *. lra. }
      replace (tan t) with (tan (t - PI)). 2:{ unfold tan. rewrite sin_minus, cos_minus, sin_PI, cos_PI. field. lra. }
      rewrite atan_tan by lra. lra.
    - assert (S' : sin t < 0) by nra.
      assert (t < - (PI / 2)).
      { destruct (Rlt_dec t (- (PI / 2))) as [|N]; [assumption|]. exfalso.
        destruct (Rle_dec t 0) as [P|P]; [assert (0 <= cos t) by (apply cos_ge_0; lra); lra|].
        assert (0 <= sin t) by (apply sin_ge_0; lra). lra. }
      replace (tan t) with (tan (t + PI)). 2:{ unfold tan. rewrite sin_plus, cos_plus, sin_PI, cos_PI. field. lra. }
      rewrite atan_tan by lra. lra. }
  assert (C : cos t = 0) by nra.
  pose proof (sin2_cos2 t) as S. unfold Rsqr in S. rewrite C in S.
  destruct (Rlt_dec 0 (r * sin t)) as [P|P].
  { assert (S' : 0 < sin t) by nra. assert (0 < t).
    { destruct (Rlt_dec 0 t); [assumption|]. exfalso. assert (0 <= sin (- t)) by (apply sin_ge_0; lra). rewrite sin_neg in *. lra. }
    destruct (Rtotal_order t (PI / 2)) as [L|[L|L]]; [|lra|]; exfalso.
    - assert (0 < cos t) by (apply cos_gt_0; lra). lra.
    - assert (cos t < 0) by (apply cos_lt_0; lra). lra. }
  destruct (Rlt_dec (r * sin t) 0) as [P1|P1].
  { assert (S' : sin t < 0) by nra. assert (t < 0).
    { destruct (Rlt_dec t 0); [assumption|]. exfalso. assert (0 <= sin t) by (apply sin_ge_0; lra). lra. }
    destruct (Rtotal_order t (- (PI / 2))) as [L|[L|L]]; [|lra|]; exfalso.
    - assert (cos (- t) < 0) by (apply cos_lt_0; lra). rewrite cos_neg in *. lra.
    - assert (0 < cos t) by (apply cos_gt_0; lra). lra. }
  exfalso. assert (sin t = 0) by nra. rewrite H0 in S. lra.
Qed.
(** the combinations of components used by the extraction *)
Lemma euler_entries : forall a : vec4 R, let q := fromEulerAngles a in
  2 * (vy q * vz q + vw q * vx q) = sin (vx a) * cos (vy a) /\
  vw q * vw q - vx q * vx q - vy q * vy q + vz q * vz q = cos (vx a) * cos (vy a) /\
  -2 * (vx q * vz q - vw q * vy q) = sin (vy a) /\
  2 * (vx q * vy q + vw q * vz q) = sin (vz a) * cos (vy a) /\
  vw q * vw q + vx q * vx q - vy q * vy q - vz q * vz q = cos (vz a) * cos (vy a).
Proof.
  intros a q. unfold q, fromEulerAngles. cbv zeta. cbn [vx vy vz vw sadd ssub smul tsin tcos ScalarR TrigR]. rewrite !fhalfR.
  destruct (half_angle (vx a)) as (-> & -> & CX). destruct (half_angle (vy a)) as (-> & -> & CY). destruct (half_angle (vz a)) as (-> & -> & CZ).
  set (sX := sin (vx a * / 2)) in *. set (cX := cos (vx a * / 2)) in *. set (sY := sin (vy a * / 2)) in *.
  set (cY := cos (vy a * / 2)) in *. set (sZ := sin (vz a * / 2)) in *. set (cZ := cos (vz a * / 2)) in *.
  clearbody sX cX sY cY sZ cZ.
  assert (PX : cX ^ 2 = 1 - sX * sX) by (rewrite <- CX; ring).
  assert (PY : cY ^ 2 = 1 - sY * sY) by (rewrite <- CY; ring). assert (PZ : cZ ^ 2 = 1 - sZ * sZ) by (rewrite <- CZ; ring).
  repeat split; ring_simplify; rewrite ?PX, ?PY, ?PZ; ring.
Qed.
Lemma yawR : forall q : vec4 R, extractYaw q = asin (Rmax (-1) (Rmin (-2 * (vx q * vz q - vw q * vy q)) 1)).
Proof.
  intro q. unfold extractYaw. rewrite stdclampR by (rewrite f1R; cbn [sneg ScalarR]; lra). rewrite f1R, f2R.
  cbn [sneg smul ssub ScalarR tasin TrigR]. reflexivity.
Qed.

(** the conditions say: away from gimbal lock, and the code's singularity test does not fire *)
Theorem euler_extract : forall a : vec4 R, - PI < vx a <= PI -> - (PI / 2) < vy a < PI / 2 -> - PI < vz a <= PI ->
  extractYaw (fromEulerAngles a) = vy a /\ extractRoll (fromEulerAngles a) = vz a /\ (/ 8388608 < Rabs (sin (vx a) * cos (vy a)) -> / 8388608 < Rabs (cos (vx a) * cos (vy a)) ->
   extractPitch (fromEulerAngles a) = vx a).
Proof.
  intros a HX HY HZ. destruct (euler_entries a) as (E1 & E2 & E3 & E4 & E5).
  assert (C : 0 < cos (vy a)) by (apply cos_gt_0; lra).
  split; [|split].
  - rewrite yawR, E3. pose proof (SIN_bound (vy a)) as B. rewrite Rmin_left, Rmax_right by lra. apply asin_sin. lra.
  - unfold extractRoll. cbv zeta. rewrite f2R. cbn [sadd ssub smul ScalarR tatan2 TrigR]. rewrite E4, E5.
    rewrite (Rmult_comm (sin _)), (Rmult_comm (cos (vz a))). apply atan2_polar; assumption.
  - intros G1 G2. unfold extractPitch. cbv zeta. rewrite f2R, fltEpsR. cbn [sadd ssub smul sabs ScalarR tatan2 TrigR]. rewrite E1, E2.
    assert (N : forall x, / 8388608 < Rabs x -> sle (Rabs x) (/ 8388608) = false) by (intros x Hx; apply sleR_false; exact Hx).
    rewrite (N _ G1), (N _ G2). cbn [orb]. rewrite (Rmult_comm (sin _)), (Rmult_comm (cos (vx a))). apply atan2_polar; assumption.
Qed.
(** with no pitch at all, the test fires and twice atan2(x, w) is returned *)
Theorem euler_pitch_wrong : forall a : vec4 R, vx a = 0 ->
  extractPitch (fromEulerAngles a) = 2 * Ratan2 (- (sin (vy a / 2) * sin (vz a / 2))) (cos (vy a / 2) * cos (vz a / 2)).
Proof.
  intros a H. destruct (euler_entries a) as (E1 & _). unfold extractPitch. cbv zeta. rewrite f2R, fltEpsR.
  cbn [sadd ssub smul sabs ScalarR tatan2 TrigR]. rewrite E1, H, sin_0, Rmult_0_l, Rabs_R0.
  assert (Z : sle (0 : R) (/ 8388608) = true) by (apply sleR; lra). rewrite Z, orb_true_r.
  f_equal. unfold fromEulerAngles. cbv zeta. cbn [vx vw sadd ssub smul tsin tcos ScalarR TrigR]. rewrite !fhalfR, H, Rmult_0_l, sin_0, cos_0.
  unfold Rdiv. f_equal; ring.
Qed.
Theorem euler_extract_refuted : exists a : vec4 R, - (PI / 2) < vx a < PI / 2 /\ - (PI / 2) < vy a < PI / 2 /\ - (PI / 2) < vz a < PI / 2 /\
  vx a = 0 /\ extractPitch (fromEulerAngles a) = -2 * atan (1 / 3) /\ extractPitch (fromEulerAngles a) <> vx a.
Proof.
  exists (V4 0 (PI / 3) (PI / 3) 0). cbn [vx vy vz]. pose proof PI_RGT_0.
  assert (E : extractPitch (fromEulerAngles (V4 0 (PI / 3) (PI / 3) 0)) = -2 * atan (1 / 3)).
  { rewrite euler_pitch_wrong by reflexivity. cbn [vy vz]. replace (PI / 3 / 2) with (PI / 6) by field.
    rewrite sin_PI6, cos_PI6. assert (S : sqrt 3 * sqrt 3 = 3) by (apply sqrt_def; lra).
    replace (sqrt 3 / 2 * (sqrt 3 / 2)) with (3 / 4) by lra. unfold Ratan2. destruct Rlt_dec; [|lra].
    replace (- (1 / 2 * (1 / 2)) / (3 / 4)) with (- (1 / 3)) by field. rewrite atan_opp. ring. }
  rewrite E. assert (0 < atan (1 / 3)) by (rewrite <- atan_0; apply atan_increasing; lra).
  repeat split; try lra.
Qed.
