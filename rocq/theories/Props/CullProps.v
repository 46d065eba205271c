(** C127: frustum culling in binary32 against the exact plane equations. *)
From Coq Require Import ZArith Reals Bool List Lia Lra.
From Flocq Require Import Core.Core IEEE754.BinarySingleNaN IEEE754.Binary IEEE754.Bits.
From Verif.Model Require Import Scalar Vec Simd Aabb Matrix Geometry.
From Verif.Spec Require Import CullSpec.
From Verif.Proofs Require Import OrdScalar F32Round CullProofs CullWitness.
Import ListNotations.
Local Open Scope R_scope.

(** ** C127 *)
Theorem C127_plane_distance : forall p (pl v : vec4 f32), mild (l4 pl) -> mild (l43 v) ->
  fin (planeDistance p pl v) /\
  Rabs (val (planeDistance p pl v) - planeSide (realV pl) (realV v)) <=
    slack 4.1 12 (reach (realV pl) (V4 (Rabs (val (vx v))) (Rabs (val (vy v))) (Rabs (val (vz v))) 1)).
Proof. exact plane_distance. Qed.
Print Assumptions C127_plane_distance.
(** a culled box is outside one plane up to the rounding slack, and a box outside by the slack is culled *)
Theorem C127_boxes : forall p (planes : list (vec4 f32)) b, mildBox b -> Forall (fun pl => mild (l4 pl)) planes ->
  (isBehindFrustum p planes b = true ->
   exists pl, In pl planes /\ beyond (realBox b) (realV pl) (slack 4.1 12 (reach (realV pl) (far (realBox b))))) /\
  ((exists pl, In pl planes /\ forall q, inBox (realBox b) q -> planeSide (realV pl) q <= - slack 4.1 12 (reach (realV pl) (far (realBox b)))) ->
   isBehindFrustum p planes b = true).
Proof. exact cull_near. Qed.
Print Assumptions C127_boxes.
(** the planes of a projection matrix, judged by the exact clip coordinates *)
Theorem C127_matrix : forall p p' (m : mat4 f32) b, mildBox b -> mildM (rowsOf4 m) ->
  (isBehindFrustum p (extractFrustumPlanes p' m) b = true ->
   exists P, In P (clipPlanes (realM m)) /\ beyond (realBox b) P (slack 5.1 12 (reach P (far (realBox b))))) /\
  ((exists P, In P (clipPlanes (realM m)) /\ forall q, inBox (realBox b) q -> planeSide P q <= - slack 5.1 12 (reach P (far (realBox b)))) ->
   isBehindFrustum p (extractFrustumPlanes p' m) b = true).
Proof. exact cull_matrix. Qed.
Print Assumptions C127_matrix.
Theorem C127_clip_planes : forall m q, map (fun P => planeSide P q) (clipPlanes m) = clipSlacks m q.
Proof. exact clip_planes_mean. Qed.
Print Assumptions C127_clip_planes.
Theorem C127_visible : forall p p' (m : mat4 f32) b q, mildBox b -> mildM (rowsOf4 m) -> inBox (realBox b) q ->
  Forall2 (fun s P => slack 5.1 12 (reach P (far (realBox b))) <= s) (clipSlacks (realM m) q) (clipPlanes (realM m)) ->
  isBehindFrustum p (extractFrustumPlanes p' m) b = false.
Proof. exact visible_kept. Qed.
Print Assumptions C127_visible.
Theorem C127_normalized : forall p p' (planes : list (vec4 f32)) b, mildBox b ->
  Forall (fun pl => mild (l4 pl) /\ fairNormal (realV pl)) planes ->
  let s pl := slack 5.1 (14 * (normalLen (realV pl) * girth (far (realBox b)))) (reach (realV pl) (far (realBox b))) in
  (isBehindFrustum p (normalizePlanes p' planes) b = true -> exists pl, In pl planes /\ beyond (realBox b) (realV pl) (s pl)) /\
  ((exists pl, In pl planes /\ forall q, inBox (realBox b) q -> planeSide (realV pl) q <= - s pl) ->
   isBehindFrustum p (normalizePlanes p' planes) b = true).
Proof. exact cull_normalized. Qed.
Print Assumptions C127_normalized.
Theorem C127_pipeline : forall p p' p'' (m : mat4 f32) b, mildBox b -> mildM (rowsOf4 m) -> Forall fairNormal (clipPlanes (realM m)) ->
  let s P := slack 6.1 (14 * (normalLen P * girth (far (realBox b)))) (reach P (far (realBox b))) in
  (isBehindFrustum p (normalizePlanes p' (extractFrustumPlanes p'' m)) b = true ->
   exists P, In P (clipPlanes (realM m)) /\ beyond (realBox b) P (s P)) /\
  ((exists P, In P (clipPlanes (realM m)) /\ forall q, inBox (realBox b) q -> planeSide P q <= - s P) ->
   isBehindFrustum p (normalizePlanes p' (extractFrustumPlanes p'' m)) b = true).
Proof. exact cull_pipeline. Qed.
Print Assumptions C127_pipeline.
Theorem C127_model : forall p (planes : list (vec4 f32)) b (m : mat4 f32), modestBox b -> modestM m -> Forall (fun pl => modest (l4 pl)) planes ->
  let W := throughFar (realM m) (far (realBox b)) in
  let s pl := slack 8.2 (12 + 11 * (Rabs (vx (realV pl)) + Rabs (vy (realV pl)) + Rabs (vz (realV pl)))) (reach (realV pl) W) in
  (isBehindFrustumModel p planes b m = true -> exists pl, In pl planes /\ beyondThrough (realM m) (realBox b) (realV pl) (s pl)) /\
  ((exists pl, In pl planes /\ forall q, inBox (realBox b) q -> planeSide (realV pl) (through (realM m) q) <= - s pl) ->
   isBehindFrustumModel p planes b m = true).
Proof. exact cull_model. Qed.
Print Assumptions C127_model.
Example C127_ex : mildBox (exBox 1 (-1) 4 2 1 5) /\ modestBox (exBox 1 (-1) 4 2 1 5) /\ mildM (rowsOf4 exMatrix) /\ modestM exMatrix /\
  Forall fairNormal (clipPlanes (realM exMatrix)) /\
  forall p,
  isBehindFrustum p (extractFrustumPlanes p exMatrix) (exBox 1 (-1) 4 2 1 5) = false /\
  isBehindFrustum p (extractFrustumPlanes p exMatrix) (exBox 6 (-1) 4 7 1 5) = true /\
  isBehindFrustum p (normalizePlanes p (extractFrustumPlanes p exMatrix)) (exBox 1 (-1) 4 2 1 5) = false /\
  isBehindFrustum p (normalizePlanes p (extractFrustumPlanes p exMatrix)) (exBox 6 (-1) 4 7 1 5) = true /\
  isBehindFrustumModel p [V4 f1 f0 f0 (fz (-3))] (exBox 1 (-1) 4 2 1 5) exMatrix = true.
Proof.
  exact (conj (mild_of_modest _ exBox_modest) (conj exBox_modest (conj exMatrix_mild (conj exMatrix_modest (conj exMatrix_fair ex_culls))))).
Qed.
