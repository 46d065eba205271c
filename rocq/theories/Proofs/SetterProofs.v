(** The last write to each part of an object is the one it holds. *)
From Coq Require Import ZArith List Bool.
From Verif.Model Require Import Scalar Vec Simd Aabb Geometry Shapes Setters.
Import ListNotations.

(** a part that no call of the list touches stays as it is *)
Lemma untouched : forall (O C B : Type) (step : O -> C -> O) (part : O -> B) (touches : C -> Prop),
  (forall o c, ~ touches c -> part (step o c) = part o) ->
  forall h o, (forall c, In c h -> ~ touches c) -> part (fold_left step h o) = part o.
Proof.
  intros O C B step part touches K. induction h as [|c h IH]; intros o N; [reflexivity|]. cbn [fold_left].
  rewrite IH by (intros d D; apply N; right; exact D). apply K. apply N. left. reflexivity.
Qed.

Section Setters.
  Context {F : Type} {S : Scalar F}.
  Let xyzOf (v : vec4 F) := (vx v, vy v, vz v).
  Lemma sphere_radius : forall h1 r h2 (s : vec4 F), (forall r', ~ In (SetRadius r') h2) ->
    vw (fold_left callSphere (h1 ++ SetRadius r :: h2) s) = r.
  Proof.
    intros h1 r h2 s N. rewrite fold_left_app. cbn [fold_left].
    rewrite (untouched _ _ _ callSphere vw (fun c => exists r', c = SetRadius r')); [reflexivity| |].
    - intros o [q|v] T; [elim T; exists q; reflexivity|reflexivity].
    - intros c I [q ->]. exact (N q I).
  Qed.
  Lemma sphere_position : forall h1 v h2 (s : vec4 F), (forall v', ~ In (SetPosition v') h2) ->
    let w := fold_left callSphere (h1 ++ SetPosition v :: h2) s in vx w = vx v /\ vy w = vy v /\ vz w = vz v.
  Proof.
    intros h1 v h2 s N w. assert (E : xyzOf w = xyzOf v); [|inversion E; auto].
    unfold w. rewrite fold_left_app. cbn [fold_left].
    rewrite (untouched _ _ _ callSphere xyzOf (fun c => exists v', c = SetPosition v')); [reflexivity| |].
    - intros o [q|u] T; [reflexivity|elim T; exists u; reflexivity].
    - intros c I [q ->]. exact (N q I).
  Qed.
  (** a sphere that was given a radius and a position, in whatever order, is the new sphere of both *)
  Lemma sphere_new : forall p h (s : vec4 F) r v h1 h2 h3 h4,
    h = h1 ++ SetRadius r :: h2 -> (forall r', ~ In (SetRadius r') h2) ->
    h = h3 ++ SetPosition v :: h4 -> (forall v', ~ In (SetPosition v') h4) ->
    fold_left callSphere h s = newSphere r v /\
    forall point, isInsideSphere p (fold_left callSphere h s) point = isInsideSphere p (newSphere r v) point.
  Proof.
    intros p h s r v h1 h2 h3 h4 A NA B NB.
    assert (E : fold_left callSphere h s = newSphere r v).
    { pose proof (sphere_radius h1 r h2 s NA) as R. rewrite <- A in R.
      destruct (sphere_position h3 v h4 s NB) as (X & Y & Z). rewrite <- B in X, Y, Z.
      destruct (fold_left callSphere h s) as [a b c d]. cbn [vx vy vz vw] in *. subst. reflexivity. }
    split; [exact E|]. intros point. rewrite E. reflexivity.
  Qed.
  Lemma plane_distance : forall p h1 d h2 (s : vec4 F), (forall d', ~ In (SetDistance d') h2) ->
    vw (fold_left (callPlane p) (h1 ++ SetDistance d :: h2) s) = d.
  Proof.
    intros p h1 r h2 s N. rewrite fold_left_app. cbn [fold_left].
    rewrite (untouched _ _ _ (callPlane p) vw (fun c => exists r', c = SetDistance r')); [reflexivity| |].
    - intros o [q|v n] T; [elim T; exists q; reflexivity|reflexivity].
    - intros c I [q ->]. exact (N q I).
  Qed.
  Lemma plane_normal : forall p h1 v n h2 (s : vec4 F), (forall v' n', ~ In (SetNormal v' n') h2) ->
    let w := fold_left (callPlane p) (h1 ++ SetNormal v n :: h2) s in let u := if n then normalize3 p v else v in
    vx w = vx u /\ vy w = vy u /\ vz w = vz u.
  Proof.
    intros p h1 v n h2 s N w u. assert (E : xyzOf w = xyzOf u); [|inversion E; auto].
    unfold w. rewrite fold_left_app. cbn [fold_left].
    rewrite (untouched _ _ _ (callPlane p) xyzOf (fun c => exists v' n', c = SetNormal v' n')); [reflexivity| |].
    - intros o [q|x m] T; [reflexivity|elim T; exists x, m; reflexivity].
    - intros c I (q & m & ->). exact (N q m I).
  Qed.
  Lemma plane_new : forall p h (s : vec4 F) d v n h1 h2 h3 h4,
    h = h1 ++ SetDistance d :: h2 -> (forall d', ~ In (SetDistance d') h2) ->
    h = h3 ++ SetNormal v n :: h4 -> (forall v' n', ~ In (SetNormal v' n') h4) ->
    fold_left (callPlane p) h s = newPlane p v d n.
  Proof.
    intros p h s d v n h1 h2 h3 h4 A NA B NB.
    pose proof (plane_distance p h1 d h2 s NA) as R. rewrite <- A in R.
    destruct (plane_normal p h3 v n h4 s NB) as (X & Y & Z). rewrite <- B in X, Y, Z.
    destruct (fold_left (callPlane p) h s) as [a b c e]. cbn [vx vy vz vw] in *. subst. reflexivity.
  Qed.
  Lemma ray_direction : forall p h1 v n h2 (s : ray F), (forall v' n', ~ In (SetDirection v' n') h2) ->
    let w := fold_left (callRay p) (h1 ++ SetDirection v n :: h2) s in
    rdir w = (if n then normalize3 p v else v) /\ rparallel w = vle (vabs v) (dup4 (slit 1547425 (-87))).
  Proof.
    intros p h1 v n h2 s N w.
    assert (E : (rdir w, rparallel w) = (if n then normalize3 p v else v, vle (vabs v) (dup4 (slit 1547425 (-87))))); [|inversion E; auto].
    unfold w. rewrite fold_left_app. cbn [fold_left].
    rewrite (untouched _ _ _ (callRay p) (fun r => (rdir r, rparallel r)) (fun c => exists v' n', c = SetDirection v' n')); [reflexivity| |].
    - intros o [x|x m] T; [reflexivity|elim T; exists x, m; reflexivity].
    - intros c I (q & m & ->). exact (N q m I).
  Qed.
  Lemma ray_origin : forall p h1 v h2 (s : ray F), (forall v', ~ In (SetOrigin v') h2) ->
    rorigin (fold_left (callRay p) (h1 ++ SetOrigin v :: h2) s) = v.
  Proof.
    intros p h1 v h2 s N. rewrite fold_left_app. cbn [fold_left].
    rewrite (untouched _ _ _ (callRay p) rorigin (fun c => exists v', c = SetOrigin v')); [reflexivity| |].
    - intros o [x|x m] T; [elim T; exists x; reflexivity|reflexivity].
    - intros c I [q ->]. exact (N q I).
  Qed.
  (** without calls of one kind that part is the one of the start *)
  Lemma kept : forall p,
    (forall h (s : vec4 F), (forall r, ~ In (SetRadius r) h) -> vw (fold_left callSphere h s) = vw s) /\
    (forall h (s : vec4 F), (forall d, ~ In (SetDistance d) h) -> vw (fold_left (callPlane p) h s) = vw s) /\
    (forall h (s : ray F), (forall v n, ~ In (SetDirection v n) h) ->
      rdir (fold_left (callRay p) h s) = rdir s /\ rparallel (fold_left (callRay p) h s) = rparallel s).
  Proof.
    intros p. split; [|split].
    - intros h s N. apply (untouched _ _ _ callSphere vw (fun c => exists r', c = SetRadius r')).
      + intros o [q|v] T; [elim T; exists q; reflexivity|reflexivity].
      + intros c I [q ->]. exact (N q I).
    - intros h s N. apply (untouched _ _ _ (callPlane p) vw (fun c => exists r', c = SetDistance r')).
      + intros o [q|v n] T; [elim T; exists q; reflexivity|reflexivity].
      + intros c I [q ->]. exact (N q I).
    - intros h s N.
      assert (E : (rdir (fold_left (callRay p) h s), rparallel (fold_left (callRay p) h s)) = (rdir s, rparallel s)); [|inversion E; auto].
      apply (untouched _ _ _ (callRay p) (fun r => (rdir r, rparallel r)) (fun c => exists v' n', c = SetDirection v' n')).
      + intros o [x|x m] T; [reflexivity|elim T; exists x, m; reflexivity].
      + intros c I (q & m & ->). exact (N q m I).
  Qed.
End Setters.

Local Open Scope Z_scope.
(** radius 2, position (1, 2, 3) with 9 in the fourth lane, radius 5 *)
Definition exCalls : list (sphereCall f32) :=
  [SetRadius (slit 2 0); SetPosition (V4 (slit 1 0) (slit 2 0) (slit 3 0) (slit 9 0)); SetRadius (slit 5 0)].
Lemma ex_sphere : fold_left callSphere exCalls (dup4 f0) = newSphere (slit 5 0) (V4 (slit 1 0) (slit 2 0) (slit 3 0) f0) /\
  isInsideSphere SSE41 (fold_left callSphere exCalls (dup4 f0)) (V4 (slit 4 0) (slit 5 0) (slit 3 0) f0) = true /\
  isInsideSphere SSE41 (fold_left callSphere exCalls (dup4 f0)) (V4 (slit 4 0) (slit 7 0) (slit 3 0) f0) = false.
Proof. split; [reflexivity|]. split; vm_compute; reflexivity. Qed.
Lemma sphere_parts : forall F (h1 h2 : list (sphereCall F)) (s : vec4 F),
  (forall r, (forall r', ~ In (SetRadius r') h2) -> vw (fold_left callSphere (h1 ++ SetRadius r :: h2) s) = r) /\
  (forall v, (forall v', ~ In (SetPosition v') h2) ->
    let w := fold_left callSphere (h1 ++ SetPosition v :: h2) s in vx w = vx v /\ vy w = vy v /\ vz w = vz v).
Proof. intros F h1 h2 s. split; [intros r; apply sphere_radius|intros v; apply sphere_position]. Qed.
Lemma ray_parts : forall F (S : Scalar F) p h1 h2 (s : ray F),
  (forall v n, (forall v' n', ~ In (SetDirection v' n') h2) ->
    let w := fold_left (callRay p) (h1 ++ SetDirection v n :: h2) s in
    rdir w = (if n then normalize3 p v else v) /\ rparallel w = vle (vabs v) (dup4 (slit 1547425 (-87)))) /\
  (forall v, (forall v', ~ In (SetOrigin v') h2) -> rorigin (fold_left (callRay p) (h1 ++ SetOrigin v :: h2) s) = v).
Proof. intros F S p h1 h2 s. split; [intros v n; apply ray_direction|intros v; apply ray_origin]. Qed.
