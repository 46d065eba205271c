(** C122: products of matrices and vectors in binary32.  [mild] entries are finite and at most 2^60;
    [innerErr k] allows [k] rounding errors of 2^-24 relative to the sum of the absolute products. *)
From Coq Require Import ZArith Reals Bool List Lia Lra.
From Flocq Require Import Core.Core IEEE754.BinarySingleNaN IEEE754.Binary IEEE754.Bits.
From Verif.Model Require Import Scalar Vec Simd Matrix.
From Verif.Spec Require Import MatErrSpec.
From Verif.Proofs Require Import OrdScalar F32Round MatErrProofs ChainProofs.
Import ListNotations.
Local Open Scope R_scope.

(** ** C122 *)
Theorem C122_action : forall p,
  (forall (m : mat2 f32) v, mildM (rowsOf2 m) -> mild (l2 v) -> actionErr 2.01 (l2 (mulv2 m v)) (rowsOf2 m) (l2 v)) /\
  (forall (m : mat3 f32) v, mildM (rowsOf3 m) -> mild (l3 v) -> actionErr 3.01 (l3 (mulv3 m v)) (rowsOf3 m) (l3 v)) /\
  (forall (m : mat4 f32) v, mildM (rowsOf4 m) -> mild (l4 v) -> actionErr 4.01 (l4 (mulv4 m v)) (rowsOf4 m) (l4 v)) /\
  (forall (m : mat4 f32) v, mildM (rowsOf4 m) -> mild (l4 v) -> actionErr 4.01 (l4 (mulV p m v)) (rowsOf4 m) (l4 v)) /\
  (forall (m : mat4 f32) v, mildM (rowsOf43 m) -> mild (l43 v) -> actionErr 3.01 (l43 (multiply3x3v p m v)) (rowsOf43 m) (l43 v)).
Proof. exact action_near. Qed.
Print Assumptions C122_action.
Theorem C122_product : forall p,
  (forall a b : mat2 f32, mildM (rowsOf2 a) -> mildM (colsOf2 b) -> productErr 2.01 (colsOf2 (mulm2 a b)) (rowsOf2 a) (colsOf2 b)) /\
  (forall a b : mat3 f32, mildM (rowsOf3 a) -> mildM (colsOf3 b) -> productErr 3.01 (colsOf3 (mulm3 a b)) (rowsOf3 a) (colsOf3 b)) /\
  (forall a b : mat4 f32, mildM (rowsOf4 a) -> mildM (colsOf4 b) -> productErr 4.01 (colsOf4 (mulm4 a b)) (rowsOf4 a) (colsOf4 b)) /\
  (forall a b : mat4 f32, mildM (rowsOf4 a) -> mildM (colsOf4 b) -> productErr 4.01 (colsOf4 (mulM p a b)) (rowsOf4 a) (colsOf4 b)) /\
  (forall a b : mat4 f32, mildM (rowsOf43 a) -> mildM (colsOf43 b) -> productErr 3.01 (colsOf43 (multiply3x3 p a b)) (rowsOf43 a) (colsOf43 b)).
Proof. exact product_near. Qed.
Print Assumptions C122_product.
(** n matrices applied one after the other: the relative growth is (1 + 4.01 2^-24)^n - 1 *)
Theorem C122_chain4 : forall p ms v, Forall (fun m => Forall allFin (rowsOf4 m)) ms -> allFin (l4 v) ->
  tame (map (fun m => realsM (rowsOf4 m)) ms) (reals (l4 v)) ->
  nearV (grow (length ms) - 1) (l4 (fold_right (mulV p) v ms)) (image (map (fun m => realsM (rowsOf4 m)) ms) (reals (l4 v)))
    (mag (map (fun m => realsM (rowsOf4 m)) ms) (reals (l4 v))).
Proof. exact chain4. Qed.
Print Assumptions C122_chain4.
Theorem C122_chain3 : forall ms v, Forall (fun m => Forall allFin (rowsOf3 m)) ms -> allFin (l3 v) ->
  tame (map (fun m => realsM (rowsOf3 m)) ms) (reals (l3 v)) ->
  nearV (grow (length ms) - 1) (l3 (fold_right mulv3 v ms)) (image (map (fun m => realsM (rowsOf3 m)) ms) (reals (l3 v)))
    (mag (map (fun m => realsM (rowsOf3 m)) ms) (reals (l3 v))).
Proof. exact chain3. Qed.
Print Assumptions C122_chain3.
(** a product of n + 1 matrices, column by column *)
Theorem C122_product_chain : forall p ms (b : mat4 f32), Forall (fun m => Forall allFin (rowsOf4 m)) ms -> Forall allFin (colsOf4 b) ->
  Forall (fun c => tame (map (fun m => realsM (rowsOf4 m)) ms) (reals c)) (colsOf4 b) ->
  Forall2 (fun r c => nearV (grow (length ms) - 1) r (image (map (fun m => realsM (rowsOf4 m)) ms) (reals c))
      (mag (map (fun m => realsM (rowsOf4 m)) ms) (reals c))) (colsOf4 (fold_right (mulM p) b ms)) (colsOf4 b).
Proof. exact product_chain. Qed.
Print Assumptions C122_product_chain.
(** applying the combined matrix instead *)
Theorem C122_compose : forall p (a b : mat4 f32) v, Forall allFin (rowsOf4 a) -> Forall allFin (colsOf4 b) -> allFin (l4 v) ->
  Forall (Forall (fun x => grow 2 * x <= bpow radix2 120)) (magP (realsM (rowsOf4 a)) (realsM (colsOf4 b))) ->
  Forall (fun x => grow 2 * x <= bpow radix2 120)
    (map (fun x => x + bpow radix2 (-124)) (act (magP (realsM (rowsOf4 a)) (realsM (colsOf4 b))) (absV (reals (l4 v))))) ->
  nearV (grow 2 - 1) (l4 (mulV p (mulM p a b) v)) (image [realsM (rowsOf4 a); realsM (rowsOf4 b)] (reals (l4 v)))
    (map (fun x => x + bpow radix2 (-124)) (act (magP (realsM (rowsOf4 a)) (realsM (colsOf4 b))) (absV (reals (l4 v))))).
Proof. exact compose_near. Qed.
Print Assumptions C122_compose.
(** a quarter turn with a translation, twice *)
Example C122_ex : Forall (fun m => Forall allFin (rowsOf4 m)) [turn; turn] /\ allFin (l4 place) /\
  tame (map (fun m => realsM (rowsOf4 m)) [turn; turn]) (reals (l4 place)) /\
  Forall (Forall (fun x => grow 2 * x <= bpow radix2 120)) (magP (realsM (rowsOf4 turn)) (realsM (colsOf4 turn))) /\
  Forall (fun x => grow 2 * x <= bpow radix2 120)
    (map (fun x => x + bpow radix2 (-124)) (act (magP (realsM (rowsOf4 turn)) (realsM (colsOf4 turn))) (absV (reals (l4 place))))).
Proof. exact turn_tame. Qed.
Example C122_ex_value : image (map (fun m => realsM (rowsOf4 m)) [turn; turn]) (reals (l4 place)) = map IZR [4; -1; 7; 1]%Z.
Proof. exact turn_image. Qed.
