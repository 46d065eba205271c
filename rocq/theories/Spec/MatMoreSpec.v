(** 4x3 matrices as functions of row and column. *)
From Coq Require Import Reals ZArith List.
From Verif.Model Require Import Outcome Vec Matrix MatrixMore.
From Verif.Spec Require Import MatSpec.
Local Open Scope R_scope.

Definition ent43 {A} (m : mat43 A) (i j : nat) : A :=
  comp3 (match j with 0%nat => e0 m | 1%nat => e1 m | 2%nat => e2 m | _ => e3 m end) i.
(** the affine map x -> L x + t of a 4x3 matrix [L | t] on points of three coordinates *)
Definition affine (m : mat43 R) (x : nat -> R) (i : nat) : R :=
  sum 3 (fun k => ent43 m i k * x k) + ent43 m i 3.
(** what the arithmetic operators mean *)
Definition arithR (o : arith) (a b : R) : R :=
  match o with AAdd => a + b | ASub => a - b | AMul => a * b | ADiv => a / b end.
(** element access: the column exists and is returned, or the program stops or reads past the end *)
Definition accessSpec {A} (debug : bool) (count : Z) (cols : nat -> A) (i : Z) : outcome A :=
  if (i <? count)%Z then Ok (cols (Z.to_nat i)) else if debug then Abort else UB.
