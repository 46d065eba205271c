(** Model of /repo/include/math/color.hpp (struct Color).  A channel is an integer in
    [0, 256).  toLinear, fromLinear, the comparisons with a
    uint8 and the named constants are in ColorLinear.v. *)
From Coq Require Import ZArith Bool List Ascii.
From Verif.Model Require Import Outcome Scalar Vec Simd Hex.
Import ListNotations.
Local Open Scope Z_scope.
Local Open Scope outcome_scope.

(** color.hpp:30-50 *)
Record color := Color { cr : Z; cg : Z; cb : Z; ca : Z }.
(** color.hpp:41 *)
Definition colorAll (n : Z) : color := Color n n n n.

(** color.hpp:56 and 128: the four bytes read as one little-endian uint32 *)
Definition colorOfU32 (d : Z) : color :=
  Color (d mod 256) ((d / 256) mod 256) ((d / 65536) mod 256) ((d / 16777216) mod 256).
Definition colorToU32 (c : color) : Z := cr c + 256 * cg c + 65536 * cb c + 16777216 * ca c.

(** string(hex.c_str() + i, 2): two characters of the string; the terminating zero may be read,
    anything after it is undefined. *)
Definition charAt (s : list ascii) (i : nat) : outcome ascii :=
  match nth_error s i with
  | Some c => Ok c
  | None => if Nat.eqb i (length s) then Ok zero else UB
  end.
Definition two (s : list ascii) (i : nat) : outcome (list ascii) :=
  a <- charAt s i;; b <- charAt s (S i);; Ok [a; b].
(** uint32 to uint8 *)
Definition hexByte (ulbits : Z) (s : list ascii) (i : nat) : outcome Z :=
  t <- two s i;; v <- toInt32 ulbits t;; Ok (v mod 256).
(** color.hpp:61-70; [ndebug]: assertions are compiled out *)
Definition colorOfHex (ulbits : Z) (ndebug : bool) (s : list ascii) : outcome color :=
  if negb ndebug && negb (Nat.eqb (length s) 8 || Nat.eqb (length s) 6) then Abort else
  r <- hexByte ulbits s 0;; g <- hexByte ulbits s 2;; b <- hexByte ulbits s 4;;
  if Nat.eqb (length s) 8 then a <- hexByte ulbits s 6;; Ok (Color r g b a)
  else Ok (Color r g b 0).
(** color.hpp:187-204: toHex4 and toHex3; a uint8 is promoted to int (32 bits) by [>>] *)
Definition toHex4 (c : color) : outcome (list ascii) :=
  r <- toHex 32 (cr c) 2;; g <- toHex 32 (cg c) 2;; b <- toHex 32 (cb c) 2;; a <- toHex 32 (ca c) 2;;
  Ok (r ++ g ++ b ++ a).
Definition toHex3 (c : color) : outcome (list ascii) :=
  r <- toHex 32 (cr c) 2;; g <- toHex 32 (cg c) 2;; b <- toHex 32 (cb c) 2;; Ok (r ++ g ++ b).

Section Norm.
  Context {F : Type} {S : Scalar F}.
  (** float to uint8: undefined unless the truncated value fits *)
  Definition toU8 (x : F) : outcome Z :=
    match strunc x with
    | Some z => if (0 <=? z) && (z <? 256) then Ok z else UB
    | None => UB
    end.
  (** the constant 1.0f / 255.0f *)
  Definition inv255 : F := (f1 / slit 255 0)%sc.
  (** color.hpp:133-145 (getNorm) and one lane of 112-124 *)
  Definition normOf (n : Z) : F := (slit n 0 * inv255)%sc.
  (** one lane of color.hpp:76-98: clamp(...) * 255 + 0.5, truncated *)
  Definition quantize (x : F) : outcome Z := toU8 (stdclamp x f0 f1 * slit 255 0 + fhalf)%sc.
  (** the same lane of color.hpp:103-107, with the clamp of f32x4 *)
  Definition quantizeSimd (p : path) (x : F) : outcome Z :=
    toU8 (simdmax p (simdmin p x f1) f0 * slit 255 0 + fhalf)%sc.

  (** color.hpp:76-80, 85-89, 94-98, 103-107 *)
  Definition colorOfFloat2 (v : vec2 F) : outcome color :=
    r <- quantize (x2 v);; g <- quantize (y2 v);; Ok (Color r g 0 0).
  Definition colorOfFloat3 (v : vec3 F) : outcome color :=
    r <- quantize (x3 v);; g <- quantize (y3 v);; b <- quantize (z3 v);; Ok (Color r g b 0).
  Definition colorOfFloat4 (v : vec4 F) : outcome color :=
    r <- quantize (vx v);; g <- quantize (vy v);; b <- quantize (vz v);; a <- quantize (vw v);;
    Ok (Color r g b a).
  Definition colorOfF32x4 (p : path) (v : vec4 F) : outcome color :=
    r <- quantizeSimd p (vx v);; g <- quantizeSimd p (vy v);; b <- quantizeSimd p (vz v);;
    a <- quantizeSimd p (vw v);; Ok (Color r g b a).
  (** color.hpp:112-124 *)
  Definition float2OfColor (c : color) : vec2 F := V2 (normOf (cr c)) (normOf (cg c)).
  Definition float3OfColor (c : color) : vec3 F := V3 (normOf (cr c)) (normOf (cg c)) (normOf (cb c)).
  Definition float4OfColor (c : color) : vec4 F :=
    V4 (normOf (cr c)) (normOf (cg c)) (normOf (cb c)) (normOf (ca c)).
  (** color.hpp:150-162: setNormR, ... : clamp(...) * 255, truncated *)
  Definition setNorm (x : F) : outcome Z := toU8 (stdclamp x f0 f1 * slit 255 0)%sc.
End Norm.

(** color.hpp:217-222: the comparison operators *)
Definition colorEq (a b : color) : bool :=
  (cr a =? cr b) && (cg a =? cg b) && (cb a =? cb b) && (ca a =? ca b).
Definition colorNe (a b : color) : bool :=
  negb (cr a =? cr b) || negb (cg a =? cg b) || negb (cb a =? cb b) || negb (ca a =? ca b).
Definition colorLt (a b : color) : bool :=
  (cr a <? cr b) && (cg a <? cg b) && (cb a <? cb b) && (ca a <? ca b).
Definition colorGt (a b : color) : bool :=
  (cr b <? cr a) && (cg b <? cg a) && (cb b <? cb a) && (ca b <? ca a).
Definition colorLe (a b : color) : bool :=
  (cr a <=? cr b) && (cg a <=? cg b) && (cb a <=? cb b) && (ca a <=? ca b).
Definition colorGe (a b : color) : bool :=
  (cr b <=? cr a) && (cg b <=? cg a) && (cb b <=? cb a) && (ca b <=? ca a).
(** color.hpp:257 *)
Definition colorBinLess (a b : color) : bool := colorToU32 a <? colorToU32 b.
