(** Model of the conversions between 8-bit sRGB colours and linear RGB, the comparisons with a number and the
    named colours of /repo/include/math/color.hpp. *)
From Coq Require Import ZArith Bool.
From Verif.Model Require Import Outcome Scalar Vec Simd Color Numeric.
Local Open Scope Z_scope.

Section Linear.
  Context {F : Type} {S : Scalar F} {P : Pow F}.
  (** color.hpp:209, 214 *)
  Definition toLinear (c : color) : vec4 F := srgbToRgb (float4OfColor c).
  Definition fromLinear (p : path) (v : vec4 F) : outcome color := colorOfF32x4 p (rgbToSrgb p v).
End Linear.

(** color.hpp:223-228 *)
Definition colorEqN (c : color) (n : Z) : bool := (cr c =? n) && (cg c =? n) && (cb c =? n) && (ca c =? n).
Definition colorNeN (c : color) (n : Z) : bool :=
  negb (cr c =? n) || negb (cg c =? n) || negb (cb c =? n) || negb (ca c =? n).
Definition colorLtN (c : color) (n : Z) : bool := (cr c <? n) && (cg c <? n) && (cb c <? n) && (ca c <? n).
Definition colorGtN (c : color) (n : Z) : bool := (n <? cr c) && (n <? cg c) && (n <? cb c) && (n <? ca c).
Definition colorLeN (c : color) (n : Z) : bool := (cr c <=? n) && (cg c <=? n) && (cb c <=? n) && (ca c <=? n).
Definition colorGeN (c : color) (n : Z) : bool := (n <=? cr c) && (n <=? cg c) && (n <=? cb c) && (n <=? ca c).
(** color.hpp:244-249 *)
Definition nEqColor (n : Z) (c : color) : bool := colorEq (colorAll n) c.
Definition nNeColor (n : Z) (c : color) : bool := colorNe (colorAll n) c.
Definition nLtColor (n : Z) (c : color) : bool := colorLt (colorAll n) c.
Definition nGtColor (n : Z) (c : color) : bool := colorGt (colorAll n) c.
Definition nLeColor (n : Z) (c : color) : bool := colorLe (colorAll n) c.
Definition nGeColor (n : Z) (c : color) : bool := colorGe (colorAll n) c.

(** color.hpp:233-242 *)
Definition white : color := Color 255 255 255 255.
Definition black : color := Color 0 0 0 255.
Definition grey : color := Color 127 127 127 255.
Definition transparent : color := Color 0 0 0 0.
Definition red : color := Color 255 0 0 255.
Definition green : color := Color 0 255 0 255.
Definition blue : color := Color 0 0 255 255.
Definition cyan : color := Color 0 255 255 255.
Definition magenta : color := Color 255 0 255 255.
Definition yellow : color := Color 255 255 0 255.
