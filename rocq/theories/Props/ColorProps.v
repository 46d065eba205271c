(** C55 (Color), C66 - C68, C91 - C96: colours and the parsing of hexadecimal strings.  [num x]
    says that the binary32 value is not a NaN and [ext x] is its value (infinities +-2^128). *)
From Coq Require Import ZArith Reals Bool List Ascii Lia Lra.
From Flocq Require Import Core.Core IEEE754.BinarySingleNaN IEEE754.Binary IEEE754.Bits.
From Verif.Model Require Import Outcome Scalar Vec Simd Hex Color.
From Verif.Spec Require Import OrderSpec ColorSpec HexSpec HexParseSpec.
From Verif.Proofs Require Import OrdScalar ColorProofs HexParse.
Import ListNotations.
Local Open Scope Z_scope.

(** ** C55, colours *)

Theorem C55_color : strictTotalOrder isColor colorBinLess.
Proof. exact color_order. Qed.
Print Assumptions C55_color.

Theorem C55_color_lex : forall a b, isColor a -> isColor b ->
  (colorBinLess a b = true <-> lexLt [ca a; cb a; cg a; cr a] [ca b; cb b; cg b; cr b]).
Proof. exact color_order_lex. Qed.
Print Assumptions C55_color_lex.

Example C55_color_ex : isColor (Color 255 0 0 1) /\ isColor (Color 0 0 0 2) /\
  colorBinLess (Color 255 0 0 1) (Color 0 0 0 2) = true.
Proof. unfold isColor, byte. cbn [cr cg cb ca]. repeat split; lia. Qed.

(** ** C66 *)

Theorem C66_roundtrip : forall c, isColor c ->
  colorOfFloat2 (float2OfColor c : vec2 f32) = Ok (Color (cr c) (cg c) 0 0) /\
  colorOfFloat3 (float3OfColor c : vec3 f32) = Ok (Color (cr c) (cg c) (cb c) 0) /\
  colorOfFloat4 (float4OfColor c : vec4 f32) = Ok c /\
  (forall p, colorOfF32x4 p (float4OfColor c : vec4 f32) = Ok c).
Proof. exact color_float_roundtrip. Qed.
Print Assumptions C66_roundtrip.

Example C66_ex : isColor (Color 1 127 254 255) /\
  colorOfFloat4 (V4 (slit 1 (-1)) (slit 3 (-2)) (slit (-5) 0) (slit 7 0) : vec4 f32) = Ok (Color 128 191 0 255).
Proof. split; [unfold isColor, byte; cbn [cr cg cb ca]; repeat split; lia|vm_compute; reflexivity]. Qed.

(** ** C67 *)

Theorem C67_roundtrip : forall n, byte n -> setNorm (normOf n : f32) = Ok n.
Proof. exact setNorm_norm. Qed.
Print Assumptions C67_roundtrip.

Example C67_ex : byte 77 /\ setNorm (slit 1 (-1) : f32) = Ok 127.
Proof. split; [unfold byte; lia|vm_compute; reflexivity]. Qed.

(** ** C68 *)

Theorem C68_u32 : forall c, isColor c -> colorOfU32 (colorToU32 c) = c.
Proof. exact colorU32_roundtrip. Qed.
Print Assumptions C68_u32.

Theorem C68_u32_back : forall d, u32 d -> isColor (colorOfU32 d) /\ colorToU32 (colorOfU32 d) = d.
Proof. exact u32_roundtrip. Qed.
Print Assumptions C68_u32_back.

Theorem C68_hex : forall ul nd c, (ul = 32 \/ ul = 64) -> isColor c ->
  exists s4 s3, toHex4 c = Ok s4 /\ toHex3 c = Ok s3 /\ length s4 = 8%nat /\ length s3 = 6%nat /\
    colorOfHex ul nd s4 = Ok c /\ colorOfHex ul nd s3 = Ok (Color (cr c) (cg c) (cb c) 0).
Proof. exact color_hex_roundtrip. Qed.
Print Assumptions C68_hex.

Theorem C68_hex_digits : forall c, isColor c -> exists s, toHex4 c = Ok s /\
  exists h1 h2 h3 h4, s = h1 ++ h2 ++ h3 ++ h4 /\
  denotes h1 (cr c) /\ denotes h2 (cg c) /\ denotes h3 (cb c) /\ denotes h4 (ca c) /\
  length h1 = 2%nat /\ length h2 = 2%nat /\ length h3 = 2%nat /\ length h4 = 2%nat.
Proof. exact toHex4_denotes. Qed.
Print Assumptions C68_hex_digits.

Example C68_ex : isColor (Color 18 171 0 255) /\
  toHex4 (Color 18 171 0 255) = Ok ["1"; "2"; "A"; "B"; "0"; "0"; "F"; "F"]%char /\
  colorToU32 (Color 18 171 0 255) = 4278233874 /\ u32 4278233874.
Proof. split; [unfold isColor, byte; cbn [cr cg cb ca]; repeat split; lia|]. split; [vm_compute; reflexivity|]. split; [reflexivity|unfold u32; lia]. Qed.

(** ** C91: parsing *)

Theorem C91_toInt64 : forall s,
  (forall neg v, reads s neg v -> v < 2 ^ 64 -> toInt64 s = Ok (if neg then (- v) mod 2 ^ 64 else v)) /\
  (forall neg v, reads s neg v -> 2 ^ 64 <= v -> toInt64 s = Abort) /\
  ((forall neg v, ~ reads s neg v) -> toInt64 s = Abort).
Proof. exact toInt64_total. Qed.
Print Assumptions C91_toInt64.

Theorem C91_reads_unique : forall s neg v neg' v', reads s neg v -> reads s neg' v' -> neg = neg' /\ v = v'.
Proof. exact reads_unique. Qed.
Print Assumptions C91_reads_unique.

Theorem C91_toInt32_actual : forall ul s, (ul = 32 \/ ul = 64) ->
  (forall neg v, reads s neg v -> v < 2 ^ ul -> toInt32 ul s = Ok ((if neg then - v else v) mod 2 ^ 32)) /\
  (forall neg v, reads s neg v -> 2 ^ ul <= v -> toInt32 ul s = Abort) /\
  ((forall neg v, ~ reads s neg v) -> toInt32 ul s = Abort).
Proof. exact toInt32_total. Qed.
Print Assumptions C91_toInt32_actual.

(** "100000005" is read as 5 when unsigned long has 64 bits. *)

Theorem C91_toInt32_refuted : let s := ["1"; "0"; "0"; "0"; "0"; "0"; "0"; "0"; "5"]%char in
  reads s false (2 ^ 32 + 5) /\ toInt32 64 s = Ok 5 /\ toInt32 32 s = Abort.
Proof. exact nine_digits. Qed.
Print Assumptions C91_toInt32_refuted.

Example C91_ex : let s := [" "; "-"; "0"; "X"; "1"; "f"; "g"]%char in
  reads s true 31 /\ toInt32 64 s = Ok (2 ^ 32 - 31) /\ toInt64 s = Ok (2 ^ 64 - 31).
Proof. exact signed_prefix. Qed.

(** ** C92 *)

Theorem C92_total : forall x : f32, num x -> exists n,
  quantize x = Ok n /\ (forall p, quantizeSimd p x = Ok n) /\ nearestChannel (/ 16384) (ext x) n.
Proof. exact quantize_all. Qed.
Print Assumptions C92_total.

Theorem C92_monotone : forall (x y : f32) n m, num x -> num y -> (ext x <= ext y)%R ->
  quantize x = Ok n -> quantize y = Ok m -> n <= m.
Proof. exact quantize_mono. Qed.
Print Assumptions C92_monotone.

Example C92_ex : num (b32_lit 1 (-2)) /\ quantize (b32_lit 1 (-2)) = Ok 64 /\
  num (B754_infinity 24 128 true : f32) /\ quantize (B754_infinity 24 128 true : f32) = Ok 0.
Proof. repeat split; vm_compute; reflexivity. Qed.

(** ** C93 *)

Theorem C93_setNorm_refuted : exists (x : f32) n m, num x /\ quantize x = Ok n /\ setNorm x = Ok m /\ n <> m /\
  (Rabs (255 * ext x - IZR m) > / 2 + / 4)%R.
Proof. exact setNorm_differs. Qed.
Print Assumptions C93_setNorm_refuted.

Theorem C93_setNorm_actual : forall x : f32, num x -> exists n, setNorm x = Ok n /\ byte n /\
  (IZR n <= 255 * unitClamp (ext x) + / 32768 /\ 255 * unitClamp (ext x) < IZR n + 1 + / 32768)%R.
Proof. exact setNorm_below. Qed.
Print Assumptions C93_setNorm_actual.

Example C93_ex : num (b32_lit 1 (-2)) /\ setNorm (b32_lit 1 (-2)) = Ok 63.
Proof. split; vm_compute; reflexivity. Qed.

(** ** C94 *)

Theorem C94_nan_refuted : forall (x : f32), is_nan 24 128 x = true ->
  quantize x = UB /\ setNorm x = UB /\ quantizeSimd NEON x = UB /\ quantizeSimd GEN x = UB /\
  (forall p, p = SSE2 \/ p = SSE41 \/ p = AVX2 -> quantizeSimd p x = Ok 255%Z).
Proof. exact nan_channel. Qed.
Print Assumptions C94_nan_refuted.

Example C94_ex : is_nan 24 128 (f0 / f0 : f32)%sc = true.
Proof. reflexivity. Qed.

(** ** C95 *)

Theorem C95_lanes : forall a b,
  (colorEq a b = true <-> a = b) /\ colorNe a b = negb (colorEq a b) /\
  (colorLt a b = true <-> Forall2 Z.lt (channels a) (channels b)) /\
  (colorGt a b = true <-> Forall2 Z.lt (channels b) (channels a)) /\
  (colorLe a b = true <-> Forall2 Z.le (channels a) (channels b)) /\
  (colorGe a b = true <-> Forall2 Z.le (channels b) (channels a)).
Proof. exact color_ops. Qed.
Print Assumptions C95_lanes.

Theorem C95_total_refuted : exists a b, isColor a /\ isColor b /\ a <> b /\
  colorLt a b = false /\ colorLt b a = false /\ colorLe a b = false /\ colorGe a b = false.
Proof. exact color_not_total. Qed.
Print Assumptions C95_total_refuted.

Example C95_ex : colorLt (Color 1 2 3 4) (Color 2 3 4 5) = true /\ colorLe (Color 1 2 3 4) (Color 1 3 3 5) = true.
Proof. split; reflexivity. Qed.

(** ** C96 *)

Theorem C96_refuted : colorOfHex 64 true ["F"; "F"; "0"]%char = UB.
Proof. exact colorOfHex_short. Qed.
Print Assumptions C96_refuted.

Theorem C96_actual : forall ul nd s, (nd = false \/ (5 <= length s)%nat) ->
  colorOfHex ul nd s <> UB /\ colorOfHex ul nd s <> OutOfFuel.
Proof. exact colorOfHex_defined. Qed.
Print Assumptions C96_actual.

Theorem C96_debug : forall ul s, length s <> 6%nat -> length s <> 8%nat -> colorOfHex ul false s = Abort.
Proof. exact colorOfHex_debug. Qed.
Print Assumptions C96_debug.

Example C96_ex : (5 <= length ["1"; "2"; "3"; "4"; "5"; "6"; "7"]%char)%nat /\
  colorOfHex 64 true ["1"; "2"; "3"; "4"; "5"; "6"; "7"]%char = Ok (Color 18 52 86 0).
Proof. split; [cbn; lia|vm_compute; reflexivity]. Qed.
