(** C121: signed SIMD integer vectors. *)
From Coq Require Import ZArith Bool List.
From Verif.Model Require Import Outcome Scalar Vec Simd IntVec SimdInt.
From Verif.Spec Require Import OrderSpec IntSpec.
From Verif.Proofs Require Import IntArith SignedProofs.
Import ListNotations.
Local Open Scope Z_scope.

(** ** C121 *)
Theorem C121_shift_vector : forall p (l : bool) a b r, Forall i32 (lanes4 a) -> Forall i32 (lanes4 b) ->
  intOp4 (if l then OShl else OShr) a b = Ok r -> i32Op p (if l then OShl else OShr) a b = Ok r.
Proof. exact (fun p l => i32Op_agrees p (if l then OShl else OShr)). Qed.
Print Assumptions C121_shift_vector.
Theorem C121_shift_number : forall p (l : bool) a n r, i32 a -> i32 n ->
  ilane (if l then OShl else OShr) a n = Ok r -> i32shiftN p l a n = Ok r.
Proof. exact i32shiftN_agrees. Qed.
Print Assumptions C121_shift_number.
Theorem C121_negate : forall p v, Forall i32 (lanes4 v) -> Forall (fun a => a <> - 2 ^ 31) (lanes4 v) ->
  i32neg p v = Ok (map_4 Z.opp v).
Proof. exact i32neg_right. Qed.
Print Assumptions C121_negate.
Theorem C121_not : forall p v, Forall2 (fun a r => r = (if Z.eq_dec a 0 then 1 else 0)) (lanes4 v) (lanes4 (i32not p v)).
Proof. exact i32not_right. Qed.
Print Assumptions C121_not.
Theorem C121_complement : forall p v,
  Forall2 (fun a r => (i32 a -> i32 r) /\ forall i, 0 <= i -> Z.testbit r i = negb (Z.testbit a i))
    (lanes4 v) (lanes4 (i32compl p v)).
Proof. exact i32compl_right. Qed.
Print Assumptions C121_complement.
Theorem C121_equality : forall p a b, (i32eq p a b = true <-> a = b) /\ i32ne p a b = negb (i32eq p a b).
Proof. exact (fun p a b => conj (i32eq_iff p a b) (i32ne_neg p a b)). Qed.
Print Assumptions C121_equality.
Theorem C121_bic : forall a b,
  Forall3 (fun x y r => forall i, 0 <= i -> Z.testbit r i = Z.testbit x i && negb (Z.testbit y i))
    (lanes4 a) (lanes4 b) (lanes4 (i32bic a b)).
Proof. exact i32bic_right. Qed.
Print Assumptions C121_bic.
Theorem C121_select : forall p (o : cmp) a b t f, let r := i32select p (i32compare o a b) t f in
  (relOf o (vx a) (vx b) -> vx r = vx t) /\ (~ relOf o (vx a) (vx b) -> vx r = vx f) /\
  (relOf o (vy a) (vy b) -> vy r = vy t) /\ (~ relOf o (vy a) (vy b) -> vy r = vy f) /\
  (relOf o (vz a) (vz b) -> vz r = vz t) /\ (~ relOf o (vz a) (vz b) -> vz r = vz f) /\
  (relOf o (vw a) (vw b) -> vw r = vw t) /\ (~ relOf o (vw a) (vw b) -> vw r = vw f).
Proof. exact i32select_means. Qed.
Print Assumptions C121_select.
Theorem C121_minmax : forall a b,
  Forall3 (fun x y m => least m [x; y]) (lanes4 a) (lanes4 b) (lanes4 (i32min a b)) /\
  Forall3 (fun x y m => greatest m [x; y]) (lanes4 a) (lanes4 b) (lanes4 (i32max a b)).
Proof. exact i32minmax_right. Qed.
Print Assumptions C121_minmax.
Theorem C121_reduce : forall v,
  least (i32min4 v) (lanes4 v) /\ greatest (i32max4 v) (lanes4 v) /\
  least (i32min3 v) [vx v; vy v; vz v] /\ greatest (i32max3 v) [vx v; vy v; vz v].
Proof. exact i32reduce_right. Qed.
Print Assumptions C121_reduce.
Theorem C121_clamp : forall v lo hi, Forall2 (fun l h => l <= h) (lanes4 lo) (lanes4 hi) ->
  clamp4 v lo hi = Ok (i32clamp v lo hi).
Proof. exact i32clamp_right. Qed.
Print Assumptions C121_clamp.
Example C121_ex : forall p, i32Op p OShr (V4 (-8) 7 1024 (-1)) (V4 1 0 10 31) = Ok (V4 (-4) 7 1 (-1)) /\
  i32shiftN p true 3 4 = Ok 48 /\ i32neg p (V4 1 (-2) 3 0) = Ok (V4 (-1) 2 (-3) 0) /\ i32not p (V4 0 1 (-1) 0) = V4 1 0 0 1 /\
  i32compl p (V4 0 (-1) 5 (-6)) = V4 (-1) 0 (-6) 5 /\ i32eq p (V4 1 2 3 4) (V4 1 2 3 5) = false /\
  i32select p (i32compare CLt (V4 (-1) 2 3 4) (V4 0 2 4 1)) (V4 10 20 30 40) (V4 1 2 3 4) = V4 10 2 30 4 /\
  i32min3 (V4 3 (-2) 5 (-9)) = -2 /\ i32max4 (V4 3 (-2) 5 9) = 9.
Proof. intros []; vm_compute; auto 12. Qed.
