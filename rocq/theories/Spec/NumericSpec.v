(** Specifications for the numeric helpers. *)
From Coq Require Import ZArith Reals.
From Verif.Model Require Import Vec.
Local Open Scope R_scope.

(** [r] is the 32-bit reversal of [n] *)
Definition reversal32 (n r : Z) : Prop :=
  (0 <= r < 2 ^ 32)%Z /\ forall i, (0 <= i < 32)%Z -> Z.testbit r i = Z.testbit n (31 - i).
(** two reals differing by an integer *)
Definition integerApart (x y : R) : Prop := exists n : Z, x - y = IZR n.
Definition between (a b x : R) : Prop := a <= x <= b \/ b <= x <= a.
Definition unit (x : R) : Prop := 0 <= x <= 1.
(** the linear part ends at the binary32 number nearest 0.0031308 *)
Definition awayFromSeam (x : R) : Prop := x <= 3361671 / 1073741824 \/ 3131 / 1000000 <= x.
Definition near3 (t : R) (a b : vec4 R) : Prop :=
  Rabs (vx a - vx b) <= t /\ Rabs (vy a - vy b) <= t /\ Rabs (vz a - vz b) <= t.
Definition abs1 (a : vec4 R) : R := Rabs (vx a) + Rabs (vy a) + Rabs (vz a).
