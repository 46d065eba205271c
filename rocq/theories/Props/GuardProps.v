(** C129: the assertions in Aabb.  [debug] is the first argument of the checked members; [properBox],
    [properSize], [properFactor] and [properCall] are in Spec/GuardSpec.v. *)
From Coq Require Import ZArith Bool List Reals.
From Flocq Require Import IEEE754.Binary IEEE754.Bits.
From Verif.Model Require Import Outcome Scalar Vec Simd Aabb FloatVec Guards.
From Verif.Spec Require Import GeomSpec BvhGeomSpec GuardSpec.
From Verif.Proofs Require Import OrdScalar AabbWitness GuardProofs.
Import ListNotations.

Theorem C129_constructor : forall p (mn mx : vec4 f32),
  (properBox (mkAabb mn mx) -> newBox true p mn mx = Ok (mkAabb mn mx)) /\
  (~ properBox (mkAabb mn mx) -> newBox true p mn mx = Abort) /\
  newBox false p mn mx = Ok (mkAabb mn mx).
Proof. exact constructor_exact. Qed.
Print Assumptions C129_constructor.
Theorem C129_setters : forall p (b : aabb f32) mn mx,
  ((properBox (mkAabb mn (bmax b)) -> setMinC true p b mn = Ok (mkAabb mn (bmax b))) /\
   (~ properBox (mkAabb mn (bmax b)) -> setMinC true p b mn = Abort) /\
   setMinC false p b mn = Ok (mkAabb mn (bmax b))) /\
  ((properBox (mkAabb (bmin b) mx) -> setMaxC true p b mx = Ok (mkAabb (bmin b) mx)) /\
   (~ properBox (mkAabb (bmin b) mx) -> setMaxC true p b mx = Abort) /\
   setMaxC false p b mx = Ok (mkAabb (bmin b) mx)) /\
  ((properBox (mkAabb mn mx) -> setC true p b mn mx = Ok (mkAabb mn mx)) /\
   (~ properBox (mkAabb mn mx) -> setC true p b mn mx = Abort) /\
   setC false p b mn mx = Ok (mkAabb mn mx)).
Proof. exact setters_exact. Qed.
Print Assumptions C129_setters.
Theorem C129_sizes : forall p (size q : vec4 f32),
  (properSize size ->
   setSize1C true p size = Ok (setSize1 size) /\ setExtent1C true p size = Ok (setExtent1 size) /\
   setSizeC true p size q = Ok (setSize size q) /\ setExtentC true p size q = Ok (setExtent size q) /\
   properBox (setSize1 size) /\ properBox (setExtent1 size) /\
   (finite3 q -> properBox (setSize size q) /\ properBox (setExtent size q))) /\
  (~ properSize size ->
   setSize1C true p size = Abort /\ setExtent1C true p size = Abort /\
   setSizeC true p size q = Abort /\ setExtentC true p size q = Abort).
Proof. exact sized_exact. Qed.
Print Assumptions C129_sizes.
(** any number of calls *)
Theorem C129_history : forall p l (b b' : aabb f32), properBox b -> Forall properCall l ->
  runCalls true p b l = Ok b' -> properBox b'.
Proof. exact history_keeps. Qed.
Print Assumptions C129_history.
(** without setters nothing aborts, and the release build computes the same box *)
Theorem C129_no_abort : forall p l (b : aabb f32), properBox b -> Forall properCall l ->
  Forall (fun c => isSetter c = false) l ->
  exists b', runCalls true p b l = Ok b' /\ runCalls false p b l = Ok b' /\ properBox b'.
Proof. exact history_runs. Qed.
Print Assumptions C129_no_abort.
(** the operators of proper arguments agree with the compound operators *)
Theorem C129_operators : forall p (b : aabb f32) v w, properBox b -> properFactor v -> finite3 w ->
  (mulBoxC true p b v = Ok (scaleBox b v) /\ runCall true p b (MulBy v) = Ok (scaleBox b v)) /\
  (divBoxC true p b v = Ok (divBox b v) /\ runCall true p b (DivBy v) = Ok (divBox b v)) /\
  (addBoxC true p b w = Ok (translateBox b w) /\ runCall true p b (AddBy w) = Ok (translateBox b w)) /\
  (subBoxC true p b w = Ok (subBox b w) /\ runCall true p b (SubBy w) = Ok (subBox b w)).
Proof. exact operators_agree. Qed.
Print Assumptions C129_operators.
Theorem C129_infinite_box : properBox aabbInf /\
  (forall p, newBox true p (bmin aabbInf) (bmax aabbInf) = Ok aabbInf) /\
  forall p (q : vec4 f32), isInsidePoint p aabbInf q = true <-> num4 q.
Proof. exact inf_box. Qed.
Print Assumptions C129_infinite_box.
(** what the assertions miss: an infinite position, *= with a negative factor, shrink to nothing *)
Theorem C129_unseen : exists (b : aabb f32) size q s o, properBox b /\ properSize size /\
  (forall p, setSizeC true p size q = Ok (setSize size q)) /\ ~ properBox (setSize size q) /\
  (forall p, runCall true p b (MulBy s) = Ok (scaleBox b s) /\ runCall true p b (BinMul s) = Abort) /\ ~ properBox (scaleBox b s) /\
  properBox o /\ forall p, ~ properBox (shrinkBox p b o).
Proof. exact unseen. Qed.
Print Assumptions C129_unseen.
Example C129_ex :
  let b := bx 0 0 0 1 1 1 in
  let l := [SetMax (v4 4 4 4); ExtendPoint (v4 (-2) 3 5); BinMul (v4 2 2 2); SubBy (v4 1 0 0); ExtendBox (bx 0 0 0 9 9 9)] in
  properBox b /\ Forall properCall l /\
  forall p, match runCalls true p b l with Ok b' => eqbox b' (bx (-5) 0 0 9 9 10) | _ => false end = true.
Proof. exact history_example. Qed.
