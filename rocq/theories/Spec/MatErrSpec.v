(** Products of binary32 matrices against the exact products of the same entries. *)
From Coq Require Import ZArith Reals List.
From Flocq Require Import Core.Core.
From Verif.Model Require Import Scalar Vec Matrix.
From Verif.Spec Require Export NormSpec IntSpec.
From Verif.Proofs Require Import OrdScalar F32Round.
Import ListNotations.
Local Open Scope R_scope.

(** the rows and the columns of a matrix *)
Definition rowsOf2 {A} (m : mat2 A) : list (list A) := [[x2 (a0 m); x2 (a1 m)]; [y2 (a0 m); y2 (a1 m)]].
Definition rowsOf3 {A} (m : mat3 A) : list (list A) :=
  [[x3 (b0 m); x3 (b1 m); x3 (b2 m)]; [y3 (b0 m); y3 (b1 m); y3 (b2 m)]; [z3 (b0 m); z3 (b1 m); z3 (b2 m)]].
Definition rowsOf4 {A} (m : mat4 A) : list (list A) :=
  [[vx (c0 m); vx (c1 m); vx (c2 m); vx (c3 m)]; [vy (c0 m); vy (c1 m); vy (c2 m); vy (c3 m)];
   [vz (c0 m); vz (c1 m); vz (c2 m); vz (c3 m)]; [vw (c0 m); vw (c1 m); vw (c2 m); vw (c3 m)]].
Definition rowsOf43 {A} (m : mat4 A) : list (list A) :=
  [[vx (c0 m); vx (c1 m); vx (c2 m)]; [vy (c0 m); vy (c1 m); vy (c2 m)]; [vz (c0 m); vz (c1 m); vz (c2 m)]].
Definition colsOf2 {A} (m : mat2 A) : list (list A) := [l2 (a0 m); l2 (a1 m)].
Definition colsOf3 {A} (m : mat3 A) : list (list A) := [l3 (b0 m); l3 (b1 m); l3 (b2 m)].
Definition colsOf4 {A} (m : mat4 A) : list (list A) := [l4 (c0 m); l4 (c1 m); l4 (c2 m); l4 (c3 m)].
Definition colsOf43 {A} (m : mat4 A) : list (list A) := [l43 (c0 m); l43 (c1 m); l43 (c2 m)].

(** finite entries of magnitude at most 2^60 *)
Definition mild (l : list f32) : Prop := allFin l /\ boundedBy (bpow radix2 60) l.
Definition mildM (rows : list (list f32)) : Prop := Forall mild rows.
(** [w] is the matrix times [v], and [c] (columns) the matrix times [b] (columns), each entry up to
    [k] rounding errors of its terms *)
Definition actionErr (k : R) (w : list f32) (rows : list (list f32)) (v : list f32) : Prop :=
  Forall2 (fun r row => innerErr k r row v) w rows.
Definition productErr (k : R) (c rows b : list (list f32)) : Prop :=
  Forall2 (fun cj bj => actionErr k cj rows bj) c b.

(** exact arithmetic on lists *)
Fixpoint rdot (a b : list R) : R := match a, b with x :: a', y :: b' => x * y + rdot a' b' | _, _ => 0 end.
Definition act (a : list (list R)) (v : list R) : list R := map (fun r => rdot r v) a.
Definition absV (v : list R) : list R := map Rabs v.
Definition reals (v : list f32) : list R := map (fun x : f32 => val x) v.
Definition realsM (a : list (list f32)) : list (list R) := map reals a.

(** A chain of matrices applied one after the other: the exact image, and the magnitude that the
    errors are relative to: the image of the absolute values (2^-124 accounts for underflow). *)
Definition image (ms : list (list (list R))) (v : list R) : list R := fold_right act v ms.
Definition mag (ms : list (list (list R))) (v : list R) : list R :=
  fold_right (fun a w => map (fun x => x + bpow radix2 (-124)) (act (map absV a) w)) (absV v) ms.
Definition grow (n : nat) : R := (1 + 4.01 / 16777216) ^ n.
(** no intermediate result is near overflow *)
Fixpoint tame (ms : list (list (list R))) (v : list R) : Prop :=
  match ms with
  | [] => True
  | a :: ms' => tame ms' v /\ Forall (fun x => grow (length ms) * x <= bpow radix2 120) (mag ms v)
  end.
(** [w] is [x] up to [g] times [m] in each lane *)
Definition nearV (g : R) (w : list f32) (x m : list R) : Prop :=
  Forall3 (fun r x m => fin r /\ Rabs (val r - x) <= g * m) w x m.
(** the magnitude of a product matrix, rows times columns *)
Definition magP (a b : list (list R)) : list (list R) :=
  map (fun r => map (fun c => rdot (absV r) (absV c) + bpow radix2 (-124)) b) a.
