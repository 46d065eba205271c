(** C137: even distribution of the hammersley points.  [inPiece] and [inCell] are in Spec/NetSpec.v. *)
From Coq Require Import ZArith Bool List Reals Lia Lra.
From Verif.Model Require Import Outcome Scalar Vec Numeric.
From Verif.Spec Require Import NumericSpec NetSpec.
From Verif.Proofs Require Import F32Round NetProofs.
Local Open Scope Z_scope.

(** every cell of every grid with 2^k columns and 2^(m-k) rows holds exactly one of the 2^m points *)
Theorem C137_net : forall m k a b, 0 <= k <= m -> m <= 24 -> 0 <= a < 2 ^ k -> 0 <= b < 2 ^ (m - k) -> let inv := (f1 / slit (2 ^ m) 0 : f32)%sc in
  exists! i, 0 <= i < 2 ^ m /\ inCell k (m - k) a b (hammersley i inv).
Proof. exact net. Qed.
Print Assumptions C137_net.
(** for any number of samples: every aligned block of 2^j consecutive indices has one point in each of 2^j rows *)
Theorem C137_strata : forall (inv : f32) j c b, 0 <= j <= 24 -> 0 <= c -> (c + 1) * 2 ^ j <= 2 ^ 24 -> 0 <= b < 2 ^ j ->
  exists! i, c * 2 ^ j <= i < (c + 1) * 2 ^ j /\ inPiece j b (val (y2 (hammersley i inv))).
Proof. exact strata. Qed.
Print Assumptions C137_strata.
Example C137_case : 0 <= 3 <= 10 /\ 10 <= 24 /\ 0 <= 5 < 2 ^ 3 /\ 0 <= 100 < 2 ^ (10 - 3) /\ (6 + 1) * 2 ^ 5 <= 2 ^ 24.
Proof. cbn. lia. Qed.
