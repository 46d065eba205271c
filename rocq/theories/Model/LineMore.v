(** The overload of closestPoint that also reports a parameter, /repo/include/math/line.hpp:87-99. *)
From Verif.Model Require Import Scalar Vec Simd Geometry.

Section LineMore.
  Context {F : Type} {SF : Scalar F}.
  Variable p : path.
  (** line.hpp:94-99: the returned point and the value stored through the reference t *)
  Definition closestPointSegmentT (start stop point : vec4 F) : vec4 F * F :=
    let d := vsub stop start in
    let t := (dot3 p (vsub point start) d / dot3 p d d)%sc in
    (vfma p d (dup4 (stdclamp t f0 f1)) start, t).
End LineMore.
