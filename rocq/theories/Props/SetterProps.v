(** Spheres, planes and rays hold what was last written to them. *)
From Coq Require Import ZArith Bool List.
From Verif.Model Require Import Scalar Vec Simd Aabb Geometry Shapes Setters.
From Verif.Proofs Require Import SetterProofs.
Import ListNotations.

(** * C149 *)
Theorem C149_sphere : forall F (S : Scalar F) p h (s : vec4 F) r v h1 h2 h3 h4,
  h = h1 ++ SetRadius r :: h2 -> (forall r', ~ In (SetRadius r') h2) ->
  h = h3 ++ SetPosition v :: h4 -> (forall v', ~ In (SetPosition v') h4) ->
  fold_left callSphere h s = newSphere r v /\
  forall point, isInsideSphere p (fold_left callSphere h s) point = isInsideSphere p (newSphere r v) point.
Proof. exact (@sphere_new). Qed.
Print Assumptions C149_sphere.
Theorem C149_sphere_parts : forall F (h1 h2 : list (sphereCall F)) (s : vec4 F),
  (forall r, (forall r', ~ In (SetRadius r') h2) -> vw (fold_left callSphere (h1 ++ SetRadius r :: h2) s) = r) /\
  (forall v, (forall v', ~ In (SetPosition v') h2) ->
    let w := fold_left callSphere (h1 ++ SetPosition v :: h2) s in vx w = vx v /\ vy w = vy v /\ vz w = vz v).
Proof. exact sphere_parts. Qed.
Print Assumptions C149_sphere_parts.
Theorem C149_plane : forall F (S : Scalar F) p h (s : vec4 F) d v n h1 h2 h3 h4,
  h = h1 ++ SetDistance d :: h2 -> (forall d', ~ In (SetDistance d') h2) ->
  h = h3 ++ SetNormal v n :: h4 -> (forall v' n', ~ In (SetNormal v' n') h4) ->
  fold_left (callPlane p) h s = newPlane p v d n.
Proof. exact (@plane_new). Qed.
Print Assumptions C149_plane.
Theorem C149_ray : forall F (S : Scalar F) p h1 h2 (s : ray F),
  (forall v n, (forall v' n', ~ In (SetDirection v' n') h2) ->
    let w := fold_left (callRay p) (h1 ++ SetDirection v n :: h2) s in
    rdir w = (if n then normalize3 p v else v) /\ rparallel w = vle (vabs v) (dup4 (slit 1547425 (-87)))) /\
  (forall v, (forall v', ~ In (SetOrigin v') h2) -> rorigin (fold_left (callRay p) (h1 ++ SetOrigin v :: h2) s) = v).
Proof. exact ray_parts. Qed.
Print Assumptions C149_ray.
Theorem C149_kept : forall F (S : Scalar F) p,
  (forall h (s : vec4 F), (forall r, ~ In (SetRadius r) h) -> vw (fold_left callSphere h s) = vw s) /\
  (forall h (s : vec4 F), (forall d, ~ In (SetDistance d) h) -> vw (fold_left (callPlane p) h s) = vw s) /\
  (forall h (s : ray F), (forall v n, ~ In (SetDirection v n) h) ->
    rdir (fold_left (callRay p) h s) = rdir s /\ rparallel (fold_left (callRay p) h s) = rparallel s).
Proof. exact (@kept). Qed.
Print Assumptions C149_kept.
(** radius 2, position (1, 2, 3) with 9 in the fourth lane, radius 5: (4, 5, 3) is inside, (4, 7, 3) is not *)
Example C149_ex : fold_left callSphere exCalls (dup4 f0) = newSphere (slit 5 0) (V4 (slit 1 0) (slit 2 0) (slit 3 0) f0) /\
  isInsideSphere SSE41 (fold_left callSphere exCalls (dup4 f0)) (V4 (slit 4 0) (slit 5 0) (slit 3 0) f0) = true /\
  isInsideSphere SSE41 (fold_left callSphere exCalls (dup4 f0)) (V4 (slit 4 0) (slit 7 0) (slit 3 0) f0) = false.
Proof. exact ex_sphere. Qed.
