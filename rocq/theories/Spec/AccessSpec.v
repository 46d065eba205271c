(** Specifications for lane access: a vector is four cells numbered 0 to 3. *)
From Coq Require Import ZArith List.
From Verif.Model Require Import Outcome Vec LaneAccess.
From Verif.Spec Require Import IntSpec.
Import ListNotations.
Local Open Scope Z_scope.

(** The number of a named lane. *)
Definition laneNo (l : lane) : Z := match l with LX => 0 | LY => 1 | LZ => 2 | LW => 3 end.

(** Four independent cells, and what a write does to them. *)
Definition cells (A : Type) := Z -> A.
Definition put {A} (c : cells A) (i : Z) (a : A) : cells A := fun j => if Z.eq_dec j i then a else c j.
Definition effect {A} (c : cells A) (w : write A) : cells A :=
  match w with
  | WLane l a => put c (laneNo l) a
  | WIndex i a => put c i a
  | WAll a => fun _ => a
  | WFixW => put c 3 (c 2)
  end.
Definition inBounds {A} (w : write A) : Prop :=
  match w with WIndex i _ => 0 <= i <= 3 | _ => True end.
(** The index is a psize: never negative. *)
Definition unsignedIndex {A} (w : write A) : Prop :=
  match w with WIndex i _ => 0 <= i | _ => True end.
(** The cells hold the lanes of the vector. *)
Definition holds {A} (c : cells A) (v : vec4 A) : Prop :=
  c 0 = vx v /\ c 1 = vy v /\ c 2 = vz v /\ c 3 = vw v.
(** The outcome of an index into [n] lanes. *)
Definition indexed {A} (debug : bool) (l : list A) (i : Z) (o : outcome A) : Prop :=
  (i < Z.of_nat (length l) /\ exists a, o = Ok a /\ nth_error l (Z.to_nat i) = Some a) \/
  (Z.of_nat (length l) <= i /\ o = if debug then Abort else UB).

(** A lane-wise operation on [a] and [b]: defined exactly when no lane is undefined, and then every
    lane has its result. *)
Definition opMeets (res : Z -> Z -> Z -> Prop) (und : Z -> Z -> Prop) (a b : list Z)
  (o : outcome (list Z)) : Prop :=
  match o with
  | Ok r => Forall3 res a b r /\ Forall2 (fun x y => ~ und x y) a b
  | UB => Exists2 und a b
  | _ => False
  end.
