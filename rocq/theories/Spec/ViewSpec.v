(** View matrices in binary32: the exact camera frame and the coordinates seen in it. *)
From Coq Require Import ZArith Reals List.
From Flocq Require Import Core.Core.
From Verif.Model Require Import Scalar Vec Matrix.
From Verif.Spec Require Export QuatErrSpec MatErrSpec.
From Verif.Proofs Require Import OrdScalar F32Round.
Import ListNotations.
Local Open Scope R_scope.

(** a vector scaled to unit length *)
Definition unit3 (v : vec4 R) : vec4 R := V4 (vx v / len3 v) (vy v / len3 v) (vz v / len3 v) 0.
(** the axes of a camera at [from] that looks at [to]: ahead, to the side, and upwards *)
Definition ahead (from to : vec4 R) : vec4 R := unit3 (minusS to from).
Definition aside (from to up : vec4 R) : vec4 R := unit3 (crossS up (ahead from to)).
Definition above (from to up : vec4 R) : vec4 R := crossS (ahead from to) (aside from to up).
(** the coordinates of the point [v] along these axes *)
Definition seen (from to up v : vec4 R) : vec4 R :=
  let d := minusS v from in V4 (dotS (aside from to up) d) (dotS (above from to up) d) (dotS (ahead from to) d) 1.
(** finite coordinates of magnitude at most 2^40 *)
Definition spot (v : vec4 f32) : Prop := allFin (l43 v) /\ boundedBy (bpow radix2 40) (l43 v).
(** a camera: two places at least 2^-40 apart, an up vector of a usual length that makes an angle with
    the line of sight whose sine is at least 1 / k *)
Definition camera (k : R) (from to up : vec4 f32) : Prop :=
  spot from /\ spot to /\ bpow radix2 (-40) <= dist3 (valQ to) (valQ from) /\
  allFin (l43 up) /\ bpow radix2 (-20) <= len3 (valQ up) <= bpow radix2 20 /\
  1 <= k <= 1024 /\ len3 (valQ up) <= k * len3 (crossS (valQ up) (ahead (valQ from) (valQ to))).
(** finite lanes, at a distance of at most [e] rounding units from [a] *)
Definition axisNear (e : R) (l : list f32) (a : vec4 R) : Prop :=
  match l with
  | [x; y; z] => allFin l /\ dist3 (V4 (val x) (val y) (val z) 0) a <= e / 16777216
  | _ => False
  end.
(** a finite lane within [e] units of the distances involved *)
Definition seenNear (e : R) (r : f32) (exact : R) (from v : vec4 f32) : Prop :=
  fin r /\ Rabs (val r - exact) <= e / 16777216 * (len3 (valQ from) + len3 (valQ v)) + bpow radix2 (-145).
