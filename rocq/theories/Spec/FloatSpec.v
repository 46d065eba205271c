(** Specifications for the float vectors: binary32 numbers as extended reals. *)
From Coq Require Import ZArith Reals List Bool.
From Flocq Require Import Core.Core IEEE754.BinarySingleNaN IEEE754.Binary IEEE754.Bits.
From Verif.Model Require Import Outcome Scalar Vec IntVec FloatVec.
From Verif.Spec Require Import OrderSpec.
Local Open Scope R_scope.

(** What a binary32 number denotes. *)
Inductive denoted := NotNumber | NegInf | Real (r : R) | PosInf.
Definition denotes (x : f32) : denoted :=
  match x with
  | B754_nan _ _ _ _ _ => NotNumber
  | B754_infinity _ _ true => NegInf
  | B754_infinity _ _ false => PosInf
  | _ => Real (B2R 24 128 x)
  end.
Definition below (a b : denoted) : Prop :=
  match a, b with
  | NotNumber, _ | _, NotNumber => False
  | NegInf, NegInf => False
  | NegInf, _ => True
  | _, NegInf => False
  | PosInf, _ => False
  | _, PosInf => True
  | Real x, Real y => x < y
  end.
Definition same (a b : denoted) : Prop := a <> NotNumber /\ a = b.
(** The relation an operator names; everything but != is false of a NaN. *)
Definition frel (c : cmp) (a b : f32) : Prop :=
  let x := denotes a in
  let y := denotes b in
  match c with
  | CLt => below x y
  | CGt => below y x
  | CLe => below x y \/ same x y
  | CGe => below y x \/ same x y
  | CEq => same x y
  | CNe => ~ same x y
  end.
(** The operator with its sides exchanged. *)
Definition mirrored (c : cmp) : cmp :=
  match c with CLt => CGt | CGt => CLt | CLe => CGe | CGe => CLe | CEq => CEq | CNe => CNe end.

Definition finite32 (x : f32) : Prop := exists r, denotes x = Real r.
(** [r] is a binary32 number and none is closer to [x]. *)
Definition closest (x : R) (r : f32) : Prop :=
  exists v, denotes r = Real v /\
  forall y w, denotes y = Real w -> Rabs (v - x) <= Rabs (w - x).
(** The largest finite binary32 number. *)
Definition maxFinite : R := IZR (2 ^ 128 - 2 ^ 104).
(** The exact result of an operator on real numbers *)
Definition exactly (o : aop) (a b r : R) : Prop :=
  match o with
  | AAdd => r = a + b
  | ASub => r = a - b
  | AMul => r = a * b
  | ADiv => b <> 0 /\ a = r * b
  end.
(** [r] is the operator's result on the lanes [a] and [b]: whenever these are finite and the exact
    result is in range, the closest number. *)
Definition nearestOf (o : aop) (a b r : f32) : Prop :=
  forall x y z, denotes a = Real x -> denotes b = Real y -> exactly o x y z ->
  Rabs z <= maxFinite -> closest z r.

(** [z] is [v] truncated towards zero. *)
Definition truncates (v : R) (z : Z) : Prop :=
  (0 <= v /\ (0 <= z)%Z /\ IZR z <= v < IZR z + 1) \/ (v <= 0 /\ (z <= 0)%Z /\ IZR z - 1 < v <= IZR z).
(** The conversion of [x] to an integer of the range [P] is defined and gives [z]. *)
Definition convertsTo (P : Z -> Prop) (x : f32) (z : Z) : Prop :=
  exists v, denotes x = Real v /\ P z /\ truncates v z.
(** A vector conversion: the result has every lane converted; it is undefined when one lane's
    conversion is. *)
Definition convertsAll {A} (P : Z -> Prop) (l : list f32) (lanes : A -> list Z) (o : outcome A) : Prop :=
  (forall r, o = Ok r <-> Forall2 (convertsTo P) l (lanes r)) /\ ((forall r, o <> Ok r) -> o = UB).
(** What the named constants denote. *)
Definition constValue (k : fconst) : denoted :=
  match k with
  | KZero => Real 0
  | KOne => Real 1
  | KMinusOne => Real (-1)
  | KMin => Real (/ IZR (2 ^ 126))
  | KMinusMin => Real (- / IZR (2 ^ 126))
  | KMax => Real maxFinite
  | KMinusMax => Real (- maxFinite)
  | KEpsilon => Real (/ IZR (2 ^ 23))
  | KInf => PosInf
  | KMinusInf => NegInf
  | KNan => NotNumber
  end.
