(** View matrices in binary32. *)
From Coq Require Import ZArith Bool List Reals Lra.
From Flocq Require Import Core.Core IEEE754.Binary.
From Verif.Model Require Import Scalar Vec Simd Lanes Matrix Transform.
From Verif.Spec Require Import ViewSpec.
From Verif.Proofs Require Import OrdScalar F32Round ViewErr ViewWitness.
Import ListNotations.
Local Open Scope R_scope.

(** * C146 *)
Theorem C146_pole_refuted : exists from to up : vec4 f32, spot from /\ spot to /\ dist3 (valQ to) (valQ from) = 4 /\ valQ up = V4 0 1 0 0 /\
  forall p, is_nan 24 128 (vx (c0 (lookAt p from to up))) = true /\ is_nan 24 128 (vx (mulV p (lookAt p from to up) (withW to f1))) = true.
Proof. exact pole_nan. Qed.
Print Assumptions C146_pole_refuted.
Theorem C146_frame : forall p k (from to up : vec4 f32), camera k from to up ->
  let F := ahead (valQ from) (valQ to) in let S := aside (valQ from) (valQ to) (valQ up) in let U := above (valQ from) (valQ to) (valQ up) in
  (exists (s u f : list f32) (ts tu tf : f32), rowsOf4 (lookAt p from to up) = [s ++ [ts]; u ++ [tu]; f ++ [tf]; [f0; f0; f0; f1]] /\
    axisNear (26.4 * k) s S /\ axisNear (37.1 * k) u U /\ axisNear 7.12 f F) /\
  (let m := rotateLook p from to up in axisNear (26.4 * k) (l43 (c0 m)) S /\ axisNear (37.1 * k) (l43 (c1 m)) U /\ axisNear 7.12 (l43 (c2 m)) F).
Proof. exact look_frame. Qed.
Print Assumptions C146_frame.
Theorem C146_sees : forall p k (from to up v : vec4 f32), camera k from to up -> spot v ->
  let r := mulV p (lookAt p from to up) (withW v f1) in let e := seen (valQ from) (valQ to) (valQ up) (valQ v) in
  seenNear (33.6 * k) (vx r) (vx e) from v /\ seenNear (44.3 * k) (vy r) (vy e) from v /\ seenNear 14.4 (vz r) (vz e) from v /\
  fin (vw r) /\ val (vw r) = 1.
Proof. exact look_sees. Qed.
Print Assumptions C146_sees.
Theorem C146_ends : forall p k (from to up : vec4 f32), camera k from to up ->
  (let r := mulV p (lookAt p from to up) (withW from f1) in
   seenNear (33.6 * k) (vx r) 0 from from /\ seenNear (44.3 * k) (vy r) 0 from from /\ seenNear 14.4 (vz r) 0 from from) /\
  (let r := mulV p (lookAt p from to up) (withW to f1) in
   seenNear (33.6 * k) (vx r) 0 from to /\ seenNear (44.3 * k) (vy r) 0 from to /\ seenNear 14.4 (vz r) (dist3 (valQ to) (valQ from)) from to).
Proof. exact look_ends. Qed.
Print Assumptions C146_ends.
(** a camera at (1, 2, 3) that looks at (4, 2, 7) meets the hypotheses; its exact axes *)
Example C146_ex : camera 1 camFrom camTo camUp /\ spot camTo /\
  ahead (valQ camFrom) (valQ camTo) = V4 (3 / 5) 0 (4 / 5) 0 /\ aside (valQ camFrom) (valQ camTo) (valQ camUp) = V4 (4 / 5) 0 (- (3 / 5)) 0 /\
  above (valQ camFrom) (valQ camTo) (valQ camUp) = V4 0 1 0 0.
Proof. exact (conj cam_ok (conj (cam_spot 4 2 7 (int 0) eq_refl eq_refl eq_refl) cam_frame)). Qed.
