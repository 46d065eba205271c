(** C133: toString.  [readInts], [readDecs] and [sixDecimals] are in Spec/TextSpec.v. *)
From Coq Require Import ZArith List Bool Ascii String Reals.
From Verif.Model Require Import Scalar Vec Color Text.
From Verif.Spec Require Import TextSpec.
From Verif.Proofs Require Import F32Round TextProofs.
Import ListNotations.
Local Open Scope Z_scope.

Theorem C133_int : (forall v, readInts (toStringI2 v) = Some [x2 v; y2 v]) /\ (forall v, readInts (toStringI3 v) = Some [x3 v; y3 v; z3 v]) /\
  (forall v, readInts (toStringI4 v) = Some [vx v; vy v; vz v; vw v]).
Proof. exact ints_text. Qed.
Print Assumptions C133_int.
Theorem C133_uint : (forall v, 0 <= x2 v -> 0 <= y2 v -> readInts (toStringU2 v) = Some [x2 v; y2 v]) /\
  (forall v, 0 <= x3 v -> 0 <= y3 v -> 0 <= z3 v -> readInts (toStringU3 v) = Some [x3 v; y3 v; z3 v]) /\
  (forall v, 0 <= vx v -> 0 <= vy v -> 0 <= vz v -> 0 <= vw v -> readInts (toStringU4 v) = Some [vx v; vy v; vz v; vw v]).
Proof. exact uints_text. Qed.
Print Assumptions C133_uint.
Theorem C133_color : forall c, readInts (colorToString4 c) = Some [cr c; cg c; cb c; ca c] /\ readInts (colorToString3 c) = Some [cr c; cg c; cb c] /\
  readInts (colorToString2 c) = Some [cr c; cg c] /\ readInts (colorToString1 c) = Some [cr c].
Proof. exact colors_text. Qed.
Print Assumptions C133_color.
Theorem C133_canonical : forall n, canonical (showInt n).
Proof. exact showInt_canonical. Qed.
Print Assumptions C133_canonical.
Example C133_int_ex : toStringI4 (V4 (-2147483648) 0 10 2147483647) = list_ascii_of_string "-2147483648 0 10 2147483647" /\
  toStringU2 (V2 4294967295 7) = list_ascii_of_string "4294967295 7" /\
  colorToString3 (Color 255 0 16 1) = list_ascii_of_string "255 0 16".
Proof. vm_compute. auto. Qed.

(** different vectors can have the same text *)
Theorem C133_float_refuted : exists a b : vec2 f32, fin (x2 a) /\ fin (y2 a) /\ fin (x2 b) /\ fin (y2 b) /\ val (x2 a) <> val (x2 b) /\ toStringF2 a = toStringF2 b.
Proof. exact floats_same. Qed.
Print Assumptions C133_float_refuted.
Theorem C133_float_actual :
  (forall v : vec2 f32, fin (x2 v) -> fin (y2 v) -> exists ds, readDecs (toStringF2 v) = Some ds /\ Forall2 (fun (v : f32) d => sixDecimals (val v) d) [x2 v; y2 v] ds) /\
  (forall v : vec3 f32, fin (x3 v) -> fin (y3 v) -> fin (z3 v) -> exists ds, readDecs (toStringF3 v) = Some ds /\ Forall2 (fun (v : f32) d => sixDecimals (val v) d) [x3 v; y3 v; z3 v] ds) /\
  (forall v : vec4 f32, fin (vx v) -> fin (vy v) -> fin (vz v) -> fin (vw v) ->
    exists ds, readDecs (toStringF4 v) = Some ds /\ Forall2 (fun (v : f32) d => sixDecimals (val v) d) [vx v; vy v; vz v; vw v] ds).
Proof. exact floats_text. Qed.
Print Assumptions C133_float_actual.
Theorem C133_apart : forall a b : f32, fin a -> fin b -> (/ 1000000 < Rabs (val a - val b))%R -> showFloat a <> showFloat b.
Proof. exact floats_apart. Qed.
Print Assumptions C133_apart.
Theorem C133_exact : forall (v : f32) n, fin v -> (val v = IZR n / 1000000)%R -> readDec (showFloat v) = Some (val v).
Proof. exact floats_exact. Qed.
Print Assumptions C133_exact.
Theorem C133_special : forall v : f32, ~ fin v -> readDec (showFloat v) = None.
Proof. exact floats_special. Qed.
Print Assumptions C133_special.
(** -0.75, 2^-20 (0.00000095...), 2^-21 (0.00000047...), 2^100 and minus infinity *)
Example C133_float_ex : toStringF4 (V4 (slit (-3) (-2)) (slit 1 (-20)) (slit 1 (-21)) (slit 1 100)) =
    list_ascii_of_string "-0.750000 0.000001 0.000000 1267650600228229401496703205376.000000" /\
  showFloat (sdiv (slit (-1) 0) f0) = list_ascii_of_string "-inf".
Proof. vm_compute. auto. Qed.
