(** Model of the toString functions of colours and vectors, with std::to_string as the C++
    standard (up to C++23) describes it: "%d", "%u" and "%f" of printf in the default rounding
    mode. *)
From Coq Require Import ZArith List Bool Ascii.
From Flocq Require Import IEEE754.Binary IEEE754.Bits.
From Verif.Model Require Import Scalar Vec Color Version.
Import ListNotations.
Local Open Scope Z_scope.

Definition text := list ascii.
(** The decimal digits of n without leading zeros, in front of [rest]; the loop in
    std::to_string(unsigned), used at vector/uint.hpp:504.  [S (log2 n)] rounds are enough
    (TextProofs.digits_read). *)
Fixpoint digits (fuel : nat) (n : Z) (rest : text) : text :=
  match fuel with
  | O => rest
  | S k => let rest' := decDigit (n mod 10) :: rest in
           if n <? 10 then rest' else digits k (n / 10) rest'
  end.
(** std::to_string(unsigned), used at vector/uint.hpp:504 *)
Definition showUint (n : Z) : text := digits (S (Z.to_nat (Z.log2 n))) n [].
(** std::to_string(int), used at vector/int.hpp:561 *)
Definition showInt (n : Z) : text := if n <? 0 then "-"%char :: showUint (- n) else showUint n.

(** k digits of n with leading zeros: the fraction in std::to_string(float), used at
    vector/float.hpp:557 *)
Fixpoint fixedDigits (k : nat) (n : Z) (rest : text) : text :=
  match k with
  | O => rest
  | S k' => fixedDigits k' (n / 10) (decDigit (n mod 10) :: rest)
  end.
(** num / den rounded to the nearest integer, ties to even: the rounding of "%f" in
    std::to_string(float), used at vector/float.hpp:557 *)
Definition roundQuot (num den : Z) : Z :=
  let q := num / den in let r := num mod den in
  if 2 * r <? den then q else if den <? 2 * r then q + 1 else if Z.even q then q else q + 1.
(** std::to_string(float), used at vector/float.hpp:557: "%f", so six digits after the point *)
Definition showFloat (v : f32) : text :=
  match v with
  | B754_zero _ _ s => (if s then ["-"%char] else []) ++ showUint 0 ++ ["."%char] ++ fixedDigits 6 0 []
  | B754_infinity _ _ s => (if s then ["-"%char] else []) ++ ["i"; "n"; "f"]%char
  | B754_nan _ _ s _ _ => (if s then ["-"%char] else []) ++ ["n"; "a"; "n"]%char
  | B754_finite _ _ s m e _ =>
      let n := if 0 <=? e then Z.pos m * 2 ^ e * 1000000 else roundQuot (Z.pos m * 1000000) (2 ^ (- e)) in
      (if s then ["-"%char] else []) ++ showUint (n / 1000000) ++ ["."%char] ++ fixedDigits 6 (n mod 1000000) []
  end.

(** to_string(a) + " " + to_string(b) + ...: vector/float.hpp:557 *)
Definition spaced (l : list text) : text :=
  match l with [] => [] | a :: r => fold_left (fun acc b => acc ++ [" "%char] ++ b) r a end.
(** toString(int2), toString(int3), toString(int4): vector/int.hpp:561, 669, 783-786; toString(i32x4):
    simd/vector/int.hpp:666-669 *)
Definition toStringI2 (v : vec2 Z) : text := spaced [showInt (x2 v); showInt (y2 v)].
Definition toStringI3 (v : vec3 Z) : text := spaced [showInt (x3 v); showInt (y3 v); showInt (z3 v)].
Definition toStringI4 (v : vec4 Z) : text := spaced [showInt (vx v); showInt (vy v); showInt (vz v); showInt (vw v)].
(** toString(uint2), toString(uint3), toString(uint4): vector/uint.hpp:504, 642, 780-783;
    toString(u32x4): simd/vector/uint.hpp:631-634 *)
Definition toStringU2 (v : vec2 Z) : text := spaced [showUint (x2 v); showUint (y2 v)].
Definition toStringU3 (v : vec3 Z) : text := spaced [showUint (x3 v); showUint (y3 v); showUint (z3 v)].
Definition toStringU4 (v : vec4 Z) : text := spaced [showUint (vx v); showUint (vy v); showUint (vz v); showUint (vw v)].
(** toString(float2), toString(float3), toString(float4): vector/float.hpp:557, 822, 1109-1112;
    toString(f32x4): simd/vector/float.hpp:621-624 *)
Definition toStringF2 (v : vec2 f32) : text := spaced [showFloat (x2 v); showFloat (y2 v)].
Definition toStringF3 (v : vec3 f32) : text := spaced [showFloat (x3 v); showFloat (y3 v); showFloat (z3 v)].
Definition toStringF4 (v : vec4 f32) : text :=
  spaced [showFloat (vx v); showFloat (vy v); showFloat (vz v); showFloat (vw v)].
(** Color::toString4, toString3, toString2, toString1: color.hpp:167-182; a uint8 is promoted to int *)
Definition colorToString4 (c : color) : text := spaced [showInt (cr c); showInt (cg c); showInt (cb c); showInt (ca c)].
Definition colorToString3 (c : color) : text := spaced [showInt (cr c); showInt (cg c); showInt (cb c)].
Definition colorToString2 (c : color) : text := spaced [showInt (cr c); showInt (cg c)].
Definition colorToString1 (c : color) : text := showInt (cr c).
