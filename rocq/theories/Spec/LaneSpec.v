(** What min, max, clamp, sign and rounding mean, on values rather than on the code's operations. *)
From Coq Require Import Reals List ZArith.
From Flocq Require Import IEEE754.Binary.
From Verif.Model Require Import Scalar Vec.
From Verif.Proofs Require Import OrdScalar.
Import ListNotations.
Local Open Scope R_scope.

Section Order.
  Context {F : Type} {S : Scalar F} {O : OrdScalar F}.
  (** [r] is one of [xs] (the very same value, not just an equal number) and none is smaller. *)
  Definition isLeast (xs : list F) (r : F) : Prop := In r xs /\ Forall (fun x => ext r <= ext x) xs.
  Definition isGreatest (xs : list F) (r : F) : Prop := In r xs /\ Forall (fun x => ext x <= ext r) xs.
  Definition nums (xs : list F) : Prop := Forall num xs.
  (** lane by lane *)
  Inductive lanewise (P : F -> F -> F -> Prop) : list F -> list F -> list F -> Prop :=
  | lanewise_nil : lanewise P [] [] []
  | lanewise_cons : forall a b c x y z, P a b c -> lanewise P x y z -> lanewise P (a :: x) (b :: y) (c :: z).
  (** [r] is [v] brought into [lo, hi]: the bound passed, or [v] itself *)
  Definition clamped (v lo hi r : F) : Prop :=
    In r [v; lo; hi] /\ ext lo <= ext r <= ext hi /\
    (ext v < ext lo -> ext r = ext lo) /\ (ext hi < ext v -> ext r = ext hi) /\
    (ext lo <= ext v <= ext hi -> ext r = ext v).
  Inductive lanewise4 (P : F -> F -> F -> F -> Prop) : list F -> list F -> list F -> list F -> Prop :=
  | lanewise4_nil : lanewise4 P [] [] [] []
  | lanewise4_cons : forall a b c d x y z w, P a b c d -> lanewise4 P x y z w ->
      lanewise4 P (a :: x) (b :: y) (c :: z) (d :: w).
End Order.
(** the bounds are ordered in every lane *)
Definition ordered {F} `{OrdScalar F} (lo hi : list F) : Prop := Forall2 (fun l h => ext l <= ext h) lo hi.

(** [n] is an integer nearest to [x] *)
Definition nearestInt (x : R) (n : Z) : Prop := Rabs (x - IZR n) <= / 2.

(** bit i of [n] is the i-th of [xs], and there are no other bits *)
Definition packedBits (xs : list bool) (n : Z) : Prop :=
  (0 <= n < 2 ^ Z.of_nat (length xs))%Z /\ forall i, (i < length xs)%nat -> Z.testbit n (Z.of_nat i) = nth i xs false.

(** -1 or 1 by the sign bit, whatever else the value is *)
Definition signOf (x : f32) : f32 := if Bsign 24 128 x then slit (-1) 0 else f1.
