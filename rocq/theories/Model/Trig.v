(** Trigonometric functions of <cmath> and of the SIMD sinCos, kept abstract: the C++ standard
    does not fix their rounding.  Theorems about code using them are in exact arithmetic,
    with the real functions ([TrigR]). *)
From Coq Require Import Reals ZArith.
From Verif.Model Require Import Scalar.

(** std::sin, std::cos, std::tan, std::asin, std::acos, std::atan2 *)
Class Trig (F : Type) := {
  tsin : F -> F; tcos : F -> F; ttan : F -> F; tasin : F -> F; tacos : F -> F; tatan2 : F -> F -> F;
  tpi : F
}.
(** C11 7.12.4.4: the angle of the point (x, y) in (-pi, pi] *)
Definition Ratan2 (y x : R) : R :=
  if Rlt_dec 0 x then atan (y / x)
  else if Rlt_dec x 0 then (if Rle_dec 0 y then atan (y / x) + PI else atan (y / x) - PI)%R
  else if Rlt_dec 0 y then (PI / 2)%R else if Rlt_dec y 0 then (- (PI / 2))%R else 0%R.
#[global] Instance TrigR : Trig R := {
  tsin := sin; tcos := cos; ttan := tan; tasin := asin; tacos := acos; tatan2 := Ratan2; tpi := PI
}.
