(** C39 - C52, C87: transforms, quaternions, view and projection matrices, in exact arithmetic with
    the real trigonometric functions; [f32] examples are IEEE binary32. *)
From Coq Require Import ZArith Bool List Reals Lra.
From Verif.Model Require Import Scalar Vec Simd Matrix Trig Quaternion Transform.
From Verif.Spec Require Import GeomSpec MatSpec EuclidSpec RotSpec ProjSpec.
From Verif.Proofs Require Import OrdScalar MatrixProofs QuatProofs QuatTrig TransformProofs CameraProofs ProjProofs AabbWitness TransformWitness MoreFacts.
Local Open Scope R_scope.

(** ** C39 *)
Theorem C39_calcModel : forall p (pos q s v : vec4 R), q <> V4 0 0 0 0 ->
  mulV p (calcModel p pos q s) (withW v f1) = placed pos (scaleQ (/ sqrt (norm2 q)) q) s v.
Proof. exact calcModel_point. Qed.
Print Assumptions C39_calcModel.
Theorem C39_fast_path : forall p pos (q s : vec4 R),
  calcModel p pos q s = mulM p (mulM p (translate pos) (rotate (qnormalize p q))) (scale s).
Proof. exact calcModel_slow. Qed.
Print Assumptions C39_fast_path.
(** a half turn about z (quaternion of length 2), scale (2,3,4), position (1,1,1), in binary32 *)
Example C39_ex : forall p,
  eqv (mulV p (calcModel p (v4 1 1 1) (v4 0 0 2) (v4 2 3 4)) (withW (v4 1 1 1) (fi 1))) (withW (v4 (-1) (-2) 5) (fi 1)) = true /\
  eqv (mulV p (calcModel p (v4 1 1 1) (v4 0 0 2) (withW (v4 1 1 1) (fi 1))) (withW (v4 1 1 1) (fi 1))) (withW (v4 0 0 2) (fi 1)) = true.
Proof. intros []; vm_compute; auto. Qed.

(** ** C40 *)
Theorem C40_translate_right : forall p (m : mat4 R) t,
  translateBy p m t = mulM p m (translate t) <-> vw (c0 m) * vx t + vw (c1 m) * vy t + vw (c2 m) * vz t = 0.
Proof. exact translateBy_iff. Qed.
Print Assumptions C40_translate_right.
Theorem C40_translate_left : forall p (m : mat4 R) t,
  translateOf t m = mulM p (translate t) m <->
  vx t = 0 /\ vy t = 0 /\ vz t = 0 \/ vw (c0 m) = 0 /\ vw (c1 m) = 0 /\ vw (c2 m) = 0 /\ vw (c3 m) = 1.
Proof. exact translateOf_iff. Qed.
Print Assumptions C40_translate_left.
Theorem C40_scale_right : forall p (m : mat4 R) s, scaleBy m s = mulM p m (scale s).
Proof. exact scaleBy_correct. Qed.
Print Assumptions C40_scale_right.
Theorem C40_scale_left : forall p (m : mat4 R) s, scaleOf p s m = mulM p (scale s) m.
Proof. exact scaleOf_correct. Qed.
Print Assumptions C40_scale_left.
(** an affine matrix for which both sides agree, and a projective one for which they do not *)
Example C40_ex : let t := v4 1 2 3 in
  eqm (translateBy SSE41 affine t) (mulM SSE41 affine (translate t)) = true /\
  eqm (translateOf t affine) (mulM SSE41 (translate t) affine) = true /\
  eqm (translateOf t projective) (mulM SSE41 (translate t) projective) = false /\
  eqm (translateBy SSE41 projective t) (mulM SSE41 projective (translate t)) = false.
Proof. vm_compute; auto. Qed.

(** ** C41 *)
Theorem C41_orthogonal : forall q : vec4 R, unitQ q -> isOrthogonal 4 (ent4 (rotate q)).
Proof. exact rotate_orthogonal. Qed.
Print Assumptions C41_orthogonal.
Theorem C41_determinant : forall q : vec4 R, unitQ q -> det 4 (ent4 (rotate q)) = 1.
Proof. exact rotate_det. Qed.
Print Assumptions C41_determinant.
Theorem C41_matrix_vector : forall p (q v : vec4 R), eq3 (qrot p q v) (mulV p (rotate q) v).
Proof. exact rotate_qrot. Qed.
Print Assumptions C41_matrix_vector.
Theorem C41_hamilton : forall p (q v : vec4 R), unitQ q -> eq3 (qrot p q v) (turned q v).
Proof. exact qrot_turned. Qed.
Print Assumptions C41_hamilton.
Theorem C41_dot : forall p (q a b : vec4 R), unitQ q -> dotS (qrot p q a) (qrot p q b) = dotS a b.
Proof. exact qrot_dot. Qed.
Print Assumptions C41_dot.
Theorem C41_cross : forall p (q a b : vec4 R), unitQ q -> eq3 (crossS (qrot p q a) (qrot p q b)) (qrot p q (crossS a b)).
Proof. exact qrot_cross. Qed.
Print Assumptions C41_cross.
Theorem C41_length : forall p (q v : vec4 R), unitQ q -> length3 p (qrot p q v) = length3 p v.
Proof. exact qrot_length. Qed.
Print Assumptions C41_length.
(** (1/2, 1/2, 1/2, 1/2) turns x to y to z to x *)
Example C41_ex : unitQ (V4 (1 / 2) (1 / 2) (1 / 2) (1 / 2)) /\ forall p,
  eqv (withW (qrot p (dup4 fhalf) (v4 1 0 0)) (fi 0)) (v4 0 1 0) = true /\ eqv (mulV p (rotate (dup4 fhalf)) (v4 1 2 3)) (v4 3 1 2) = true.
Proof. split; [unfold unitQ, norm2; cbn [vx vy vz vw]; lra|]. intros []; vm_compute; auto. Qed.

(** ** C42 *)
Theorem C42_associative : forall a b c : vec4 R, qmul (qmul a b) c = qmul a (qmul b c).
Proof. exact qmul_assoc. Qed.
Print Assumptions C42_associative.
Theorem C42_identity : forall a : vec4 R, qmul qidentity a = a /\ qmul a qidentity = a.
Proof. exact qmul_identity. Qed.
Print Assumptions C42_identity.
Theorem C42_norm : forall a b : vec4 R, norm2 (qmul a b) = norm2 a * norm2 b.
Proof. exact qmul_norm. Qed.
Print Assumptions C42_norm.
Theorem C42_hamilton : forall a b : vec4 R, qmul a b = ham a b.
Proof. exact qmul_ham. Qed.
Print Assumptions C42_hamilton.
Theorem C42_composes : forall p (a b v : vec4 R), unitQ a -> unitQ b ->
  eq3 (qrot p (qmul a b) v) (qrot p a (qrot p b v)).
Proof. exact qmul_compose. Qed.
Print Assumptions C42_composes.
Theorem C42_matrix : forall p (a b : vec4 R), unitQ a -> unitQ b ->
  rotate (qmul a b) = mulM p (rotate a) (rotate b).
Proof. exact rotate_compose. Qed.
Print Assumptions C42_matrix.
(** i j = k and j i = -k *)
Example C42_ex : eqv (qmul (v4 1 0 0) (v4 0 1 0)) (v4 0 0 1) = true /\ eqv (qmul (v4 0 1 0) (v4 1 0 0)) (v4 0 0 (-1)) = true /\
  unitQ (V4 1 0 0 0) /\ unitQ (V4 (3 / 5) 0 (4 / 5) 0).
Proof. split; [|split]; [vm_compute; auto..|]. unfold unitQ, norm2; cbn [vx vy vz vw]; lra. Qed.

(** ** C43 *)
Theorem C43_inverse : forall p (q : vec4 R), q <> V4 0 0 0 0 ->
  qmul (qinverse p q) q = idQ /\ qmul q (qinverse p q) = idQ.
Proof. exact qinverse_correct. Qed.
Print Assumptions C43_inverse.
Theorem C43_conjugate : forall p (q : vec4 R), unitQ q -> qinverse p q = qconj q.
Proof. exact qinverse_unit. Qed.
Print Assumptions C43_conjugate.
Theorem C43_undo : forall p (q v : vec4 R), unitQ q ->
  eq3 (vqrot p (qrot p q v) q) v /\ eq3 (qrot p q (vqrot p v q)) v.
Proof. exact qinverse_undo. Qed.
Print Assumptions C43_undo.
Example C43_ex : forall p, eqv (qmul (qinverse p (withW (v4 1 1 1) (fi 1))) (withW (v4 1 1 1) (fi 1))) (withW (v4 0 0 0) (fi 1)) = true /\
  eqv (withW (vqrot p (v4 0 1 0) (dup4 fhalf)) (fi 0)) (v4 1 0 0) = true.
Proof. intros []; vm_compute; auto. Qed.

(** ** C44 *)
Theorem C44_round_trip : forall q : vec4 R, unitQ q ->
  (extractQuat (rotate q) = q \/ extractQuat (rotate q) = negQ q) /\
  1 / 2 <= ssqrt (snd (biggest (rotate q)) + f1)%sc * fhalf.
Proof. exact extractQuat_rotate. Qed.
Print Assumptions C44_round_trip.
(** each of the four branches is taken *)
Example C44_ex : fst (biggest (rotate (withW (v4 0 0 0) (fi 1)))) = 0%Z /\ fst (biggest (rotate (v4 1 0 0))) = 1%Z /\
  fst (biggest (rotate (v4 0 1 0))) = 2%Z /\ fst (biggest (rotate (v4 0 0 1))) = 3%Z /\
  eqv (extractQuat (rotate (v4 0 (-1) 0))) (v4 0 1 0) = true /\ eqv (extractQuat (rotate (dup4 fhalf))) (dup4 fhalf) = true.
Proof. vm_compute; repeat split. Qed.

(** ** C45 *)
Theorem C45_endpoints : forall p (a b : vec4 R),
  slerp p a b 0 = a /\ (slerp p a b 1 = b \/ slerp p a b 1 = negQ b).
Proof. exact slerp_endpoints. Qed.
Print Assumptions C45_endpoints.
(** 1/8388608 = 2^-23 is FLT_EPSILON: the trigonometric branch *)
Theorem C45_unit : forall p (a b : vec4 R) t, unitQ a -> unitQ b -> Rabs (inner4 a b) <= 1 - / 8388608 -> unitQ (slerp p a b t).
Proof. exact slerp_unit. Qed.
Print Assumptions C45_unit.
Theorem C45_constant_speed : forall p (a b : vec4 R) t, unitQ a -> unitQ b -> Rabs (inner4 a b) <= 1 - / 8388608 ->
  inner4 a (slerp p a b t) = cos (t * acos (Rabs (inner4 a b))).
Proof. exact slerp_angle. Qed.
Print Assumptions C45_constant_speed.
Theorem C45_near_unit : forall p (a b : vec4 R) t, unitQ a -> unitQ b -> 0 <= t <= 1 ->
  1 - / 16777216 <= norm2 (slerp p a b t) <= 1.
Proof. exact slerp_near_unit. Qed.
Print Assumptions C45_near_unit.
Theorem C45_symmetric : forall p (a b : vec4 R) t,
  slerp p b a (1 - t) = slerp p a b t \/ slerp p b a (1 - t) = negQ (slerp p a b t).
Proof. exact slerp_symmetric. Qed.
Print Assumptions C45_symmetric.
Example C45_ex : unitQ (V4 1 0 0 0) /\ unitQ (V4 0 1 0 0) /\ Rabs (inner4 (V4 1 0 0 0) (V4 0 1 0 0)) <= 1 - / 8388608.
Proof.
  unfold unitQ, norm2, inner4; cbn [vx vy vz vw]. repeat split; try lra.
  replace (1 * 0 + 0 * 1 + 0 * 0 + 0 * 0) with 0 by ring. rewrite Rabs_R0. lra.
Qed.

(** ** C46 *)
Theorem C46_product : forall a : vec4 R, fromEulerAngles a =
  qmul (qmul (quatOfAxis (vz a) axisZ) (quatOfAxis (vy a) axisY)) (quatOfAxis (vx a) axisX).
Proof. exact euler_product. Qed.
Print Assumptions C46_product.
Theorem C46_unit : forall a : vec4 R, unitQ (fromEulerAngles a).
Proof. exact euler_unit. Qed.
Print Assumptions C46_unit.
Theorem C46_rotates : forall p (a v : vec4 R),
  eq3 (qrot p (fromEulerAngles a) v) (rodrigues axisZ (vz a) (rodrigues axisY (vy a) (rodrigues axisX (vx a) v))).
Proof. exact euler_rotates. Qed.
Print Assumptions C46_rotates.
Theorem C46_extract_actual : forall a : vec4 R, - PI < vx a <= PI -> - (PI / 2) < vy a < PI / 2 -> - PI < vz a <= PI ->
  extractYaw (fromEulerAngles a) = vy a /\ extractRoll (fromEulerAngles a) = vz a /\
  (/ 8388608 < Rabs (sin (vx a) * cos (vy a)) -> / 8388608 < Rabs (cos (vx a) * cos (vy a)) ->
   extractPitch (fromEulerAngles a) = vx a).
Proof. exact euler_extract. Qed.
Print Assumptions C46_extract_actual.
(** zero pitch, yaw and roll of 60 degrees: far from gimbal lock, yet the pitch comes back as -37 degrees *)
Theorem C46_extract_refuted : exists a : vec4 R, - (PI / 2) < vx a < PI / 2 /\ - (PI / 2) < vy a < PI / 2 /\ - (PI / 2) < vz a < PI / 2 /\
  vx a = 0 /\ extractPitch (fromEulerAngles a) = -2 * atan (1 / 3) /\ extractPitch (fromEulerAngles a) <> vx a.
Proof. exact euler_extract_refuted. Qed.
Print Assumptions C46_extract_refuted.
Theorem C46_pitch_actual : forall a : vec4 R, vx a = 0 ->
  extractPitch (fromEulerAngles a) = 2 * Ratan2 (- (sin (vy a / 2) * sin (vz a / 2))) (cos (vy a / 2) * cos (vz a / 2)).
Proof. exact euler_pitch_wrong. Qed.
Print Assumptions C46_pitch_actual.
Example C46_ex : - PI < PI / 4 <= PI /\ - (PI / 2) < 0 < PI / 2 /\ / 8388608 < Rabs (sin (PI / 4) * cos 0) /\ / 8388608 < Rabs (cos (PI / 4) * cos 0).
Proof. exact euler_ex. Qed.

(** ** C47 *)
Theorem C47_lookAt : forall p (from to up : vec4 R), general from to up -> let m := lookAt p from to up in
  mulV p m (withW from f1) = V4 0 0 0 1 /\
  mulV p m (withW to f1) = V4 0 0 (distS to from) 1 /\
  isOrthogonal 3 (ent4 m) /\ det 3 (ent4 m) = 1 /\ vw (c0 m) = 0 /\ vw (c1 m) = 0 /\ vw (c2 m) = 0 /\ vw (c3 m) = 1 /\
  vx (mulV p m (withW up f0)) = 0 /\ 0 < vy (mulV p m (withW up f0)).
Proof. exact lookAt_correct. Qed.
Print Assumptions C47_lookAt.
Theorem C47_rotateFront : forall p (front up : vec4 R), dotS front front = 1 -> nonzeroS (crossS up front) ->
  let m := rotateFront p front up in isOrthogonal 3 (ent4 m) /\ det 3 (ent4 m) = 1 /\
  eq3 (mulV p m (V4 0 0 1 0)) front /\ dotS (mulV p m (V4 1 0 0 0)) up = 0 /\ 0 < dotS (mulV p m (V4 0 1 0 0)) up.
Proof. exact rotateFront_correct. Qed.
Print Assumptions C47_rotateFront.
Theorem C47_rotateLook : forall p (from to up : vec4 R), general from to up ->
  let m := rotateLook p from to up in isOrthogonal 3 (ent4 m) /\ det 3 (ent4 m) = 1 /\
  eq3 (scaleQ (distS to from) (mulV p m (V4 0 0 1 0))) (minusS to from) /\
  dotS (mulV p m (V4 1 0 0 0)) up = 0 /\ 0 < dotS (mulV p m (V4 0 1 0 0)) up.
Proof. exact rotateLook_correct. Qed.
Print Assumptions C47_rotateLook.
Theorem C47_rotate_affine : forall F (S : Scalar F) p a b up m, m = rotateFront p a up \/ m = rotateLook p a b up ->
  c3 m = V4 f0 f0 f0 f1 /\ vw (c0 m) = f0 /\ vw (c1 m) = f0 /\ vw (c2 m) = f0.
Proof. exact rotate_affine. Qed.
Print Assumptions C47_rotate_affine.

Example C47_ex : general (V4 1 2 3 0) (V4 4 2 7 0) (V4 0 1 0 0) /\ forall p,
  eqv (mulV p (lookAt p (v4 1 2 3) (v4 1 2 8) (v4 0 1 0)) (withW (v4 1 2 8) (fi 1))) (withW (v4 0 0 5) (fi 1)) = true.
Proof. split; [unfold general, nonzeroS, crossS, minusS; cbn [vx vy vz]; lra|]. intros []; vm_compute; reflexivity. Qed.

(** ** C48 *)
Theorem C48_lookAtQuat_refuted : forall p, exists d up : vec4 R, dotS d d = 1 /\ nonzeroS (crossS up d) /\
  eq3 (lookAtQuat p d up) (V4 0 0 0 0) /\ vw (lookAtQuat p d up) = sqrt 3 / 2 /\ ~ unitQ (lookAtQuat p d up).
Proof. exact lookAtQuat_refuted. Qed.
Print Assumptions C48_lookAtQuat_refuted.
Theorem C48_lookAtQuat_actual : forall p (d up : vec4 R), exists r w, lookAtQuat p d up = extractQuat (M4 r (V4 0 0 0 w) d d).
Proof. exact lookAtQuat_actual. Qed.
Print Assumptions C48_lookAtQuat_actual.
(** in binary32: looking along x, the quaternion turns z to a vector with a z component *)
Example C48_ex : forall p, slt (vw (lookAtQuat p (v4 0 0 1) (v4 0 1 0))) (fi 1) = true /\
  seq (vz (qrot p (lookAtQuat p (v4 1 0 0) (v4 0 1 0)) (v4 0 0 1))) (fi 0) = false.
Proof. intros []; vm_compute; auto. Qed.

(** ** C49 *)
Theorem C49_inverseTransRot_refuted : forall p, exists m, rigid m /\ mulM p (inverseTransRot p m) m <> identity4.
Proof. exact inverseTransRot_refuted. Qed.
Print Assumptions C49_inverseTransRot_refuted.
Theorem C49_inverseTransRot_iff : forall p (m : mat4 R), rigid m ->
  (mulM p (inverseTransRot p m) m = identity4 <-> vx (c3 m) = 0 /\ vy (c3 m) = 0 /\ vz (c3 m) = 0).
Proof. exact inverseTransRot_iff. Qed.
Print Assumptions C49_inverseTransRot_iff.
Theorem C49_inverseTransRot_actual : forall p (m : mat4 R), rigid m -> let r := inverseTransRot p m in
  mulM p (M4 (withW (c0 r) 0) (withW (c1 r) 0) (withW (c2 r) 0) (c3 r)) m = identity4 /\
  vw (c0 r) = vx (c3 m) /\ vw (c1 r) = vy (c3 m) /\ vw (c2 r) = vz (c3 m) /\ vw (c3 r) = 1.
Proof. exact inverseTransRot_actual. Qed.
Print Assumptions C49_inverseTransRot_actual.
(** every rotation and translation is covered; in binary32 the point (1,0,0) of a body moved by (5,0,0) comes back with w = 31 *)
Example C49_ex : (forall pos q, unitQ q -> rigid (translateOf (withW pos f0) (rotate q))) /\ forall p,
  eqv (mulV p (inverseTransRot p (translate (v4 5 0 0))) (withW (v4 6 0 0) (fi 1))) (withW (v4 1 0 0) (fi 31)) = true.
Proof. split; [intros pos q H; exact (proj1 (rigid_model GEN pos q H))|]. intros []; vm_compute; reflexivity. Qed.

(** ** C50 *)
Theorem C50_extractScale_refuted : forall p, exists pos q s : vec4 R, unitQ q /\ 0 < vx s /\ 0 < vy s /\ 0 < vz s /\
  ~ eq3 (extractScale p (calcModel p pos q s)) s.
Proof. exact extractScale_refuted. Qed.
Print Assumptions C50_extractScale_refuted.
Theorem C50_extractScale_actual : forall p pos (q s : vec4 R), q <> V4 0 0 0 0 ->
  extractScale p (calcModel p pos q s) = V4 (vx s * vx s) (vy s * vy s) (vz s * vz s) (vz s * vz s) /\
  extractScale2 p (calcModel p pos q s) = V2 (vx s * vx s) (Rabs (vy s)).
Proof. exact extractScale_actual. Qed.
Print Assumptions C50_extractScale_actual.
Theorem C50_extractRotation_actual : forall p pos (q s : vec4 R), q <> V4 0 0 0 0 -> vx s <> 0 -> vy s <> 0 -> vz s <> 0 ->
  let n := scaleQ (/ sqrt (norm2 q)) q in let r := extractRotation p (calcModel p pos q s) in
  eq3 (c0 r) (scaleQ (/ vx s) (c0 (rotate n))) /\ eq3 (c1 r) (scaleQ (/ vy s) (c1 (rotate n))) /\ eq3 (c2 r) (scaleQ (/ vz s) (c2 (rotate n))).
Proof. exact extractRotation_actual. Qed.
Print Assumptions C50_extractRotation_actual.
(** without scaling, position and rotation are recovered *)
Theorem C50_extractTransform2 : forall p pos (q : vec4 R), unitQ q ->
  let r := extractTransform2 (calcModel p pos q (dup4 f1)) in eq3 (fst r) pos /\ (snd r = q \/ snd r = negQ q).
Proof. exact extractTransform2_rigid. Qed.
Print Assumptions C50_extractTransform2.
Example C50_ex : forall p, eqv (extractScale p (calcModel p (v4 1 2 3) (withW (v4 0 0 0) (fi 1)) (v4 2 3 4))) (withW (v4 4 9 16) (fi 16)) = true.
Proof. intros []; vm_compute; reflexivity. Qed.

(** ** C51 *)
Theorem C51_defined : forall fov aspect n f v, 0 < n < f -> 0 < aspect -> 0 < fov < PI -> 0 < vz v ->
  (exists q, projects (ent4 (calcPerspProj fov aspect n f)) v q) /\
  (exists q, projects (ent4 (calcPerspProjRevZ fov aspect n f)) v q) /\
  (exists q, projects (ent4 (calcPerspProjInfRevZ fov aspect n)) v q).
Proof. exact persp_defined. Qed.
Print Assumptions C51_defined.
Theorem C51_depth : forall fov aspect n f v q, 0 < n < f -> 0 < aspect -> 0 < fov < PI -> 0 < vz v ->
  projects (ent4 (calcPerspProj fov aspect n f)) v q ->
  (vz v = n <-> vz q = 0) /\ (vz v = f <-> vz q = 1) /\ (n <= vz v <= f <-> 0 <= vz q <= 1) /\
  forall v' q', 0 < vz v' -> projects (ent4 (calcPerspProj fov aspect n f)) v' q' -> (vz v < vz v' <-> vz q < vz q').
Proof. exact persp_depth. Qed.
Print Assumptions C51_depth.
Theorem C51_depth_reversed : forall fov aspect n f v q, 0 < n < f -> 0 < aspect -> 0 < fov < PI -> 0 < vz v ->
  projects (ent4 (calcPerspProjRevZ fov aspect n f)) v q ->
  (vz v = n <-> vz q = 1) /\ (vz v = f <-> vz q = 0) /\ (n <= vz v <= f <-> 0 <= vz q <= 1) /\
  forall v' q', 0 < vz v' -> projects (ent4 (calcPerspProjRevZ fov aspect n f)) v' q' -> (vz v < vz v' <-> vz q' < vz q).
Proof. exact persp_depth_rev. Qed.
Print Assumptions C51_depth_reversed.
Theorem C51_depth_infinite : forall fov aspect n v q, 0 < n -> 0 < aspect -> 0 < fov < PI -> 0 < vz v ->
  projects (ent4 (calcPerspProjInfRevZ fov aspect n)) v q ->
  vz q = n / vz v /\ 0 < vz q /\ (vz v = n <-> vz q = 1) /\ (n <= vz v <-> vz q <= 1) /\
  (forall v' q', 0 < vz v' -> projects (ent4 (calcPerspProjInfRevZ fov aspect n)) v' q' -> (vz v < vz v' <-> vz q' < vz q)) /\
  (forall eps, 0 < eps -> n / eps < vz v -> vz q < eps).
Proof. exact persp_depth_inf. Qed.
Print Assumptions C51_depth_infinite.
Theorem C51_field_of_view : forall fov aspect n f v q, 0 < n < f -> 0 < aspect -> 0 < fov < PI -> 0 < vz v ->
  projects (ent4 (calcPerspProj fov aspect n f)) v q \/ projects (ent4 (calcPerspProjRevZ fov aspect n f)) v q \/
  projects (ent4 (calcPerspProjInfRevZ fov aspect n)) v q ->
  let t := tan (fov / 2) in
  (-1 <= vx q <= 1 <-> - (aspect * t * vz v) <= vx v <= aspect * t * vz v) /\
  (-1 <= vy q <= 1 <-> - (t * vz v) <= vy v <= t * vz v) /\
  (vx q = 1 <-> vx v = aspect * t * vz v) /\ (vx q = -1 <-> vx v = - (aspect * t * vz v)) /\
  (vy q = -1 <-> vy v = t * vz v) /\ (vy q = 1 <-> vy v = - (t * vz v)).
Proof. exact persp_view3. Qed.
Print Assumptions C51_field_of_view.
(** a right angle field of view: tan (pi/4) = 1 *)
Example C51_ex : 0 < PI / 2 < PI /\ projects (ent4 (calcPerspProj (PI / 2) 2 1 3)) (V4 2 1 2 0) (V4 (1 / 2) (- 1 / 2) (3 / 4) 0).
Proof. exact persp_ex. Qed.

(** ** C52 *)
Theorem C52_box : forall (w h d : vec2 R) v, x2 w < y2 w -> x2 h < y2 h -> x2 d < y2 d ->
  (exists q, projects (ent4 (calcOrthoProj w h d)) v q) /\ (exists q, projects (ent4 (calcOrthoProjRevZ w h d)) v q) /\
  (forall q, projects (ent4 (calcOrthoProj w h d)) v q -> (inView w h d v <-> inClip q)) /\
  (forall q, projects (ent4 (calcOrthoProjRevZ w h d)) v q -> (inView w h d v <-> inClip q)).
Proof. exact ortho_box. Qed.
Print Assumptions C52_box.
Theorem C52_corners : forall (w h d : vec2 R) q, x2 w < y2 w -> x2 h < y2 h -> x2 d < y2 d ->
  (projects (ent4 (calcOrthoProj w h d)) (V4 (x2 w) (x2 h) (x2 d) 0) q -> eq3 q (V4 (-1) 1 0 0)) /\
  (projects (ent4 (calcOrthoProj w h d)) (V4 (y2 w) (y2 h) (y2 d) 0) q -> eq3 q (V4 1 (-1) 1 0)) /\
  (projects (ent4 (calcOrthoProjRevZ w h d)) (V4 (x2 w) (x2 h) (x2 d) 0) q -> eq3 q (V4 (-1) 1 1 0)) /\
  (projects (ent4 (calcOrthoProjRevZ w h d)) (V4 (y2 w) (y2 h) (y2 d) 0) q -> eq3 q (V4 1 (-1) 0 0)).
Proof. exact ortho_corners. Qed.
Print Assumptions C52_corners.
Example C52_ex : forall p, eqv (mulV p (calcOrthoProj (V2 (fi 0) (fi 8)) (V2 (fi 0) (fi 4)) (V2 (fi 1) (fi 3))) (withW (v4 6 1 2) (fi 1)))
  (V4 fhalf fhalf fhalf (fi 1)) = true.
Proof. intros []; vm_compute; reflexivity. Qed.

(** ** C87 *)
Theorem C87_unit : forall angle (u : vec4 R), dotS u u = 1 -> unitQ (quatOfAxis angle u).
Proof. exact quatOfAxis_unit. Qed.
Print Assumptions C87_unit.
Theorem C87_rodrigues : forall p angle (u v : vec4 R), dotS u u = 1 ->
  eq3 (qrot p (quatOfAxis angle u) v) (rodrigues u angle v).
Proof. exact quatOfAxis_rotates. Qed.
Print Assumptions C87_rodrigues.
(** a quarter turn about z sends x to y *)
Example C87_ex : dotS axisZ axisZ = 1 /\ eq3 (rodrigues axisZ (PI / 2) axisX) axisY.
Proof.
  unfold dotS, eq3, rodrigues, crossS, axisX, axisY, axisZ. cbn [vx vy vz vw]. rewrite cos_PI2, sin_PI2.
  repeat split; unfold dotS; cbn [vx vy vz vw]; ring.
Qed.
