(** C134: depth values in binary32.  [depth32], [depthStd], [depthRev] and [medium] are in Spec/DepthSpec.v.  The theorems hold
    for any values of the tangent function: the trigonometric library is a parameter. *)
From Coq Require Import ZArith Bool List Reals Lra.
From Flocq Require Import Core.Core.
From Verif.Model Require Import Outcome Scalar Vec Simd Matrix Trig Transform.
From Verif.Spec Require Import DepthSpec.
From Verif.Proofs Require Import F32Round DepthProofs.
Local Open Scope R_scope.

(** ** the reversed projection without far plane *)
Theorem C134_infinite : forall (T : Trig f32) p (fov aspect n x y z : f32), fin n -> fin x -> fin y -> fin z -> 0 < val n <= val z -> val z <= bpow radix2 127 ->
  let d := depth32 (mulV p (calcPerspProjInfRevZ fov aspect n) (V4 x y z f1)) in
  fin d /\ val d = rnd (val n / val z) /\ 0 <= val d <= 1 /\ (val z = val n -> val d = 1).
Proof. exact (@depth_inf). Qed.
Print Assumptions C134_infinite.
Theorem C134_infinite_order : forall (T : Trig f32) p (fov aspect n x y z x' y' z' : f32), fin n -> fin x -> fin y -> fin z -> fin x' -> fin y' -> fin z' ->
  0 < val n <= val z -> val z <= val z' <= bpow radix2 127 ->
  let d := depth32 (mulV p (calcPerspProjInfRevZ fov aspect n) (V4 x y z f1)) in let d' := depth32 (mulV p (calcPerspProjInfRevZ fov aspect n) (V4 x' y' z' f1)) in
  val d' <= val d /\ (val z * (1 + 4 / 16777216) <= val z' -> bpow radix2 (-126) <= val n / val z' -> val d' < val d).
Proof. exact (@depth_inf_order). Qed.
Print Assumptions C134_infinite_order.

(** ** with a far plane *)
Theorem C134_reversed : forall (T : Trig f32) p (fov aspect n f x y z : f32), medium n -> medium f -> medium z -> fin x -> fin y -> bpow radix2 (-30) <= val f - val n ->
  let d := depth32 (mulV p (calcPerspProjRevZ fov aspect n f) (V4 x y z f1)) in
  fin d /\ Rabs (val d - depthRev (val n) (val f) (val z)) <= 5.4 / 16777216 * (val n * (val z + val f) / (val z * (val f - val n))).
Proof. exact (@rev_near). Qed.
Print Assumptions C134_reversed.
Theorem C134_reversed_order : forall (T : Trig f32) p (fov aspect n f x y z : f32), medium n -> medium f -> medium z -> fin x -> fin y -> bpow radix2 (-30) <= val f - val n ->
  forall x' y' z' : f32, fin x' -> fin y' -> medium z' -> val z <= val z' ->
  let c := mulV p (calcPerspProjRevZ fov aspect n f) (V4 x y z f1) in let c' := mulV p (calcPerspProjRevZ fov aspect n f) (V4 x' y' z' f1) in
  val (vz c') <= val (vz c) /\ (0 <= val (vz c') -> val (depth32 c') <= val (depth32 c)).
Proof. exact (@rev_order). Qed.
Print Assumptions C134_reversed_order.
Theorem C134_standard_actual : forall (T : Trig f32) p (fov aspect n f x y z : f32), medium n -> medium f -> medium z -> fin x -> fin y -> bpow radix2 (-30) <= val f - val n ->
  let d := depth32 (mulV p (calcPerspProj fov aspect n f) (V4 x y z f1)) in
  fin d /\ Rabs (val d - depthStd (val n) (val f) (val z)) <= 5.4 / 16777216 * (val f * (val z + val n) / (val z * (val f - val n))).
Proof. exact (@std_near). Qed.
Print Assumptions C134_standard_actual.

(** ** what does not hold *)
(** the standard projection puts the farther of two points in front *)
Theorem C134_standard_order_refuted : forall (T : Trig f32) p fov aspect, exists n f z z' : f32, medium n /\ medium f /\ medium z /\ medium z' /\
  val n = 1 /\ val f = 3 /\ 1 < val z < val z' /\ val z' < 3 /\
  let d := depth32 (mulV p (calcPerspProj fov aspect n f) (V4 f0 f0 z f1)) in let d' := depth32 (mulV p (calcPerspProj fov aspect n f) (V4 f0 f0 z' f1)) in
  fin d /\ fin d' /\ val d' < val d.
Proof. exact std_disorder. Qed.
Print Assumptions C134_standard_order_refuted.
(** points exactly on the near plane 0.1f and on the far plane 10 are clipped *)
Theorem C134_range_refuted : forall (T : Trig f32) p fov aspect, exists n f : f32, medium n /\ medium f /\ val f = 10 /\ val n = 13421773 * bpow radix2 (-27) /\
  let d := depth32 (mulV p (calcPerspProjRevZ fov aspect n f) (V4 f0 f0 n f1)) in let d' := depth32 (mulV p (calcPerspProjRevZ fov aspect n f) (V4 f0 f0 f f1)) in
  fin d /\ fin d' /\ 1 < val d /\ val d' < 0.
Proof. exact rev_range. Qed.
Print Assumptions C134_range_refuted.

(** the hypotheses hold of near plane 1/8, far plane 100 and points at the distances 2 and 3; the depths there *)
Example C134_ex : medium (slit 1 (-3)) /\ medium (slit 100 0) /\ medium (slit 2 0) /\ medium (slit 3 0) /\
  bpow radix2 (-30) <= val (slit 100 0 : f32) - val (slit 1 (-3) : f32) /\ val (slit 2 0 : f32) <= val (slit 3 0 : f32).
Proof.
  destruct (medium_lit 1 (-3)) as [A A']; [reflexivity|split; discriminate|change (bpow radix2 (-3)) with (/ 8); change (bpow radix2 (-30)) with (/ 1073741824); change (bpow radix2 30) with 1073741824; lra|].
  destruct (medium_lit 100 0) as [B B']; [reflexivity|split; discriminate|change (bpow radix2 0) with 1; change (bpow radix2 (-30)) with (/ 1073741824); change (bpow radix2 30) with 1073741824; lra|].
  destruct (medium_lit 2 0) as [C C']; [reflexivity|split; discriminate|change (bpow radix2 0) with 1; change (bpow radix2 (-30)) with (/ 1073741824); change (bpow radix2 30) with 1073741824; lra|].
  destruct (medium_lit 3 0) as [D D']; [reflexivity|split; discriminate|change (bpow radix2 0) with 1; change (bpow radix2 (-30)) with (/ 1073741824); change (bpow radix2 30) with 1073741824; lra|].
  change (bpow radix2 (-3)) with (/ 8) in A'. change (bpow radix2 0) with 1 in B', C', D'.
  split; [exact A|]. split; [exact B|]. split; [exact C|]. split; [exact D|]. rewrite A', B', C', D'.
  change (bpow radix2 (-30)) with (/ 1073741824). split; lra.
Qed.
Example C134_ex_values : forall (T : Trig f32) p fov aspect,
  seq (depth32 (mulV p (calcPerspProjInfRevZ fov aspect (slit 1 (-3))) (V4 f0 f0 (slit 2 0) f1))) (slit 1 (-4)) = true /\
  slt (slit 6 (-7)) (depth32 (mulV p (calcPerspProjRevZ fov aspect (slit 1 (-3)) (slit 100 0)) (V4 f0 f0 (slit 2 0) f1))) = true /\
  slt (slit 15 (-4)) (depth32 (mulV p (calcPerspProj fov aspect (slit 1 (-3)) (slit 100 0)) (V4 f0 f0 (slit 2 0) f1))) = true.
Proof.
  intros T p fov aspect. unfold depth32. destruct (clip_inf p fov aspect (slit 1 (-3)) f0 f0 (slit 2 0)) as [-> ->].
  destruct (clip_rev p fov aspect (slit 1 (-3)) (slit 100 0) f0 f0 (slit 2 0)) as [-> ->].
  destruct (clip_std p fov aspect (slit 1 (-3)) (slit 100 0) f0 f0 (slit 2 0)) as [-> ->]. destruct p; vm_compute; auto.
Qed.
