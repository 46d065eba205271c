(** Points and boxes in terms of the real values of their coordinates.  [ext] is the real
    value of a scalar (infinities are +-2^128) and [num] says it is not NaN. *)
From Coq Require Import Reals List.
From Verif.Model Require Import Scalar Vec Aabb.
From Verif.Proofs Require Import OrdScalar.
Local Open Scope R_scope.

Section Geom.
  Context {F : Type} {S : Scalar F} {O : OrdScalar F}.

  Definition num3 (v : vec4 F) : Prop := num (vx v) /\ num (vy v) /\ num (vz v).
  Definition num4 (v : vec4 F) : Prop := num (vx v) /\ num (vy v) /\ num (vz v) /\ num (vw v).

  (** [p] is in the box with corners [mn] and [mx]: three axes, and all four lanes *)
  Definition in3 (mn mx p : vec4 F) : Prop :=
    ext (vx mn) <= ext (vx p) <= ext (vx mx) /\ ext (vy mn) <= ext (vy p) <= ext (vy mx) /\
    ext (vz mn) <= ext (vz p) <= ext (vz mx).
  Definition in4 (mn mx p : vec4 F) : Prop :=
    in3 mn mx p /\ ext (vw mn) <= ext (vw p) <= ext (vw mx).
  Definition inBox (b : aabb F) (p : vec4 F) : Prop := in3 (bmin b) (bmax b) p.
  Definition inBox4 (b : aabb F) (p : vec4 F) : Prop := in4 (bmin b) (bmax b) p.
  Definition numBox (b : aabb F) : Prop := num4 (bmin b) /\ num4 (bmax b).
  Definition numBox3 (b : aabb F) : Prop := num3 (bmin b) /\ num3 (bmax b).
  Definition validBox (b : aabb F) : Prop := in3 (bmin b) (bmax b) (bmin b) .
  (** every point of [b] is in [a] *)
  Definition contains (a b : aabb F) : Prop := forall p, num4 p -> inBox b p -> inBox a p.
  (** the corners of [b] lie inside those of [a] *)
  Definition cornersInside (a b : aabb F) : Prop :=
    (ext (vx (bmin a)) <= ext (vx (bmin b)) /\ ext (vx (bmax b)) <= ext (vx (bmax a))) /\
    (ext (vy (bmin a)) <= ext (vy (bmin b)) /\ ext (vy (bmax b)) <= ext (vy (bmax a))) /\
    (ext (vz (bmin a)) <= ext (vz (bmin b)) /\ ext (vz (bmax b)) <= ext (vz (bmax a))).
  (** same real coordinates (bitwise equal up to the sign of zeros) *)
  Definition sameValue (v w : vec4 F) : Prop :=
    ext (vx v) = ext (vx w) /\ ext (vy v) = ext (vy w) /\ ext (vz v) = ext (vz w) /\ ext (vw v) = ext (vw w).
  Definition sameBox (a b : aabb F) : Prop := sameValue (bmin a) (bmin b) /\ sameValue (bmax a) (bmax b).
  (** squared Euclidean distance of the real coordinates *)
  Definition dist2 (v w : vec4 F) : R :=
    (ext (vx v) - ext (vx w))² + (ext (vy v) - ext (vy w))² + (ext (vz v) - ext (vz w))².

  (** extending a box by the boxes of a list, one after the other *)
  Definition extendAll (p : path) (a : aabb F) (l : list (aabb F)) : aabb F := fold_left (extendBox p) l a.
End Geom.

(** ** Exact arithmetic *)
Definition nonEmpty (b : aabb R) : Prop :=
  vx (bmin b) <= vx (bmax b) /\ vy (bmin b) <= vy (bmax b) /\ vz (bmin b) <= vz (bmax b).
(** equal in the three used lanes *)
Definition eq3 (a b : vec4 R) : Prop := vx a = vx b /\ vy a = vy b /\ vz a = vz b.
