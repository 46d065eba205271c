(** What a version number is: four bytes, ordered lexicographically. *)
From Coq Require Import ZArith List Ascii.
From Verif.Model Require Import Version.
From Verif.Spec Require Import OrderSpec.
Import ListNotations.
Local Open Scope Z_scope.

Definition wfVersion (v : version) : Prop :=
  byte (major v) /\ byte (minor v) /\ byte (patch v) /\ byte (build v).

Definition parts (v : version) : list Z := [major v; minor v; patch v; build v].

(** A decimal numeral: digits only, no superfluous leading zero, and its value. *)
Definition isDigit (c : ascii) : Prop := 48 <= Z.of_N (N_of_ascii c) <= 57.
Fixpoint numeralValue (s : list ascii) (acc : Z) : Z :=
  match s with [] => acc | c :: r => numeralValue r (10 * acc + (Z.of_N (N_of_ascii c) - 48)) end.
Definition decimal (s : list ascii) (n : Z) : Prop :=
  s <> [] /\ Forall isDigit s /\ numeralValue s 0 = n /\ (hd "0"%char s = "0"%char -> length s = 1%nat).

(** The parts [l] written in decimal and joined by dots. *)
Fixpoint dotted (l : list Z) (s : list ascii) : Prop :=
  match l with
  | [] => False
  | [n] => decimal s n
  | n :: r => exists a b, decimal a n /\ dotted r b /\ s = a ++ "."%char :: b
  end.
