(** C118, C119: colours in linear light, comparisons with a number and named colours.  [accuratePow d P] says that
    the power function [P] has relative error at most [d] on the bases and exponents these conversions use; [chan n] is n / 255. *)
From Coq Require Import ZArith Reals Bool List Ascii String Lia Lra.
From Verif.Model Require Import Outcome Scalar Vec Simd Hex Color Numeric ColorLinear.
From Verif.Spec Require Import OrderSpec ColorSpec LinearSpec.
From Verif.Proofs Require Import OrdScalar F32Round LinearProofs ColorNumber.
Import ListNotations.
Local Open Scope Z_scope.

(** ** C118 *)
Theorem C118_roundtrip : forall (P : Pow f32) p c, accuratePow (/ 4096) P -> isColor c ->
  fromLinear p (toLinear c : vec4 f32) = Ok c.
Proof. exact linear_roundtrip. Qed.
Print Assumptions C118_roundtrip.
(** a power function that is accurate enough *)
Theorem C118_fastPow_suffices : accuratePow (/ 4096) fastPower.
Proof. exact fastPower_accurate. Qed.
Print Assumptions C118_fastPow_suffices.
Theorem C118_accurate : forall d (P : Pow f32) c, accuratePow d P -> (d <= / 4096)%R -> isColor c ->
  (near d (vx (toLinear c)) (stdLinear (IZR (cr c) / 255)) /\ near d (vy (toLinear c)) (stdLinear (IZR (cg c) / 255)) /\
   near d (vz (toLinear c)) (stdLinear (IZR (cb c) / 255)))%R /\
  vw (toLinear c) = (normOf (ca c) : f32).
Proof. exact linear_accurate. Qed.
Print Assumptions C118_accurate.
Example C118_ex : isColor (Color 10 11 255 7) /\
  @fromLinear f32 _ fastPower SSE41 (@toLinear f32 _ fastPower (Color 10 11 255 7)) = Ok (Color 10 11 255 7).
Proof. split; [unfold isColor, byte; cbn; lia|apply linear_roundtrip; [exact fastPower_accurate|unfold isColor, byte; cbn; lia]]. Qed.

(** ** C119 *)
Theorem C119_right : forall c n,
  (colorEqN c n = true <-> allChannels (fun x => x = n) c) /\ (colorNeN c n = true <-> ~ allChannels (fun x => x = n) c) /\
  (colorLtN c n = true <-> allChannels (fun x => x < n) c) /\ (colorGtN c n = true <-> allChannels (fun x => x > n) c) /\
  (colorLeN c n = true <-> allChannels (fun x => x <= n) c) /\ (colorGeN c n = true <-> allChannels (fun x => x >= n) c).
Proof. exact compare_number. Qed.
Print Assumptions C119_right.
Theorem C119_left : forall c n,
  (nEqColor n c = true <-> allChannels (fun x => n = x) c) /\ (nNeColor n c = true <-> ~ allChannels (fun x => n = x) c) /\
  (nLtColor n c = true <-> allChannels (fun x => n < x) c) /\ (nGtColor n c = true <-> allChannels (fun x => n > x) c) /\
  (nLeColor n c = true <-> allChannels (fun x => n <= x) c) /\ (nGeColor n c = true <-> allChannels (fun x => n >= x) c).
Proof. exact number_compare. Qed.
Print Assumptions C119_left.
(** written as web colours the constants are the ones their names promise; grey is 0x7F, one below the web's 0x80 *)
Theorem C119_names : List.map toHex4 [white; black; grey; transparent; red; green; blue; cyan; magenta; yellow] =
  List.map (fun s => Ok (list_ascii_of_string s)) ["FFFFFFFF"; "000000FF"; "7F7F7FFF"; "00000000"; "FF0000FF";
    "00FF00FF"; "0000FFFF"; "00FFFFFF"; "FF00FFFF"; "FFFF00FF"]%string.
Proof. exact named_colors. Qed.
Print Assumptions C119_names.
Example C119_ex : colorLtN grey 128 = false /\ colorLtN transparent 1 = true /\ nLtColor 126 grey = true.
Proof. repeat split. Qed.
