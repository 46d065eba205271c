(** C125 and C126: lane access, and integer operators with a number. *)
From Coq Require Import ZArith Bool List.
From Verif.Model Require Import Outcome Scalar Vec Simd IntVec SimdInt LaneAccess.
From Verif.Spec Require Import OrderSpec IntSpec AccessSpec.
From Verif.Proofs Require Import AccessProofs.
Import ListNotations.
Local Open Scope Z_scope.
Local Open Scope outcome_scope.

(** ** C125 *)
Theorem C125_four_values : forall A p (x y z w : A), lanes4 (simd4 p x y z w) = [x; y; z; w].
Proof. exact four_lanes. Qed.
Print Assumptions C125_four_values.
Theorem C125_three_values : forall A p (x y z : A), lanes4 (simd3 p x y z) = [x; y; z; z].
Proof. exact three_lanes. Qed.
Print Assumptions C125_three_values.
Theorem C125_fourth_value : forall A p (v : vec4 A) w,
  lanes4 (simdWithW p v w) = [vx v; vy v; vz v; w] /\ lanes4 (simdWithWi p v w) = [vx v; vy v; vz v; w].
Proof. exact withW_lanes. Qed.
Print Assumptions C125_fourth_value.
Theorem C125_plain_roundtrip : forall A p, (forall v : vec4 A, plain4 (simdOf4 p v) = v) /\
  (forall v : vec3 A, plain3 (simdOf3 p v) = v /\ vw (simdOf3 p v) = z3 v) /\
  (forall v : vec2 A, plain2 (simdOf2 p v) = v /\ vz (simdOf2 p v) = y2 v /\ vw (simdOf2 p v) = y2 v).
Proof. exact plain_roundtrip. Qed.
Print Assumptions C125_plain_roundtrip.
Theorem C125_index : forall A debug i, 0 <= i ->
  (forall v : vec2 A, indexed debug (lanes2 v) i (index2 debug v i)) /\
  (forall v : vec3 A, indexed debug (lanes3 v) i (index3 debug v i)) /\
  (forall v : vec4 A, indexed debug (lanes4 v) i (index4 debug v i)).
Proof. exact indexes. Qed.
Print Assumptions C125_index.
Theorem C125_getters : forall A debug (v : vec4 A) l, index4 debug v (laneNo l) = Ok (getLane l v).
Proof. exact getters. Qed.
Print Assumptions C125_getters.
Theorem C125_store : forall A (v : vec4 A), storeLanes v = lanes4 v /\
  exists a b c d, storeLanes v = [a; b; c; d] /\ loadAligned a b c d = v.
Proof. exact store_reload. Qed.
Print Assumptions C125_store.
Theorem C125_swizzle : forall A p X Y Z' W (v : vec4 A),
  0 <= X <= 3 -> 0 <= Y <= 3 -> 0 <= Z' <= 3 -> 0 <= W <= 3 ->
  map Some (lanes4 (swizzle p X Y Z' W v)) =
  map (fun i => nth_error (lanes4 v) (Z.to_nat i)) [X; Y; Z'; W].
Proof. exact swizzle_lanes. Qed.
Print Assumptions C125_swizzle.
Theorem C125_history : forall A debug h (v : vec4 A) c, holds c v -> Forall inBounds h ->
  exists v', doWrites debug v h = Ok v' /\ holds (fold_left effect h c) v'.
Proof. exact history_holds. Qed.
Print Assumptions C125_history.
Theorem C125_history_out_of_bounds : forall A debug h (v : vec4 A), Forall unsignedIndex h -> ~ Forall inBounds h ->
  doWrites debug v h = if debug then Abort else UB.
Proof. exact history_out. Qed.
Print Assumptions C125_history_out_of_bounds.
(** named and indexed writes, fixW and an out-of-range index *)
Example C125_ex :
  doWrites true (V4 1 2 3 4) [WLane LY 7; WIndex 2 9; WFixW; WLane LX 5] = Ok (V4 5 7 9 9) /\
  Forall inBounds [WLane LY 7; WIndex 2 9; WFixW; WLane LX 5] /\
  doWrites true (V4 1 2 3 4) [WIndex 4 9; WAll 0] = Abort /\ doWrites false (V4 1 2 3 4) [WIndex 4 9] = UB /\
  swizzle SSE2 3 0 2 1 (V4 10 20 30 40) = V4 40 10 30 20 /\ swizzle GEN 3 0 2 1 (V4 10 20 30 40) = V4 40 10 30 20 /\
  simdWithW AVX2 (V4 1 2 3 4) 8 = V4 1 2 3 8 /\ index3 true (V3 4 5 6) 2 = Ok 6.
Proof. repeat split; repeat constructor; discriminate. Qed.

(** ** C126 *)
Theorem C126_uint_number : forall o n, u32 n ->
  (forall v, Forall u32 (lanes2 v) -> opMeets (uRes o) (uUndef o) (lanes2 v) [n; n] (omap lanes2 (uintOpN2 o v n))) /\
  (forall v, Forall u32 (lanes3 v) -> opMeets (uRes o) (uUndef o) (lanes3 v) [n; n; n] (omap lanes3 (uintOpN3 o v n))) /\
  (forall v, Forall u32 (lanes4 v) -> opMeets (uRes o) (uUndef o) (lanes4 v) [n; n; n; n] (omap lanes4 (uintOpN4 o v n))).
Proof. exact uint_number. Qed.
Print Assumptions C126_uint_number.
Theorem C126_int_number : forall o n, i32 n ->
  (forall v, Forall i32 (lanes2 v) -> opMeets (iRes o) (iUndef o) (lanes2 v) [n; n] (omap lanes2 (intOpN2 o v n))) /\
  (forall v, Forall i32 (lanes3 v) -> opMeets (iRes o) (iUndef o) (lanes3 v) [n; n; n] (omap lanes3 (intOpN3 o v n))) /\
  (forall v, Forall i32 (lanes4 v) -> opMeets (iRes o) (iUndef o) (lanes4 v) [n; n; n; n] (omap lanes4 (intOpN4 o v n))).
Proof. exact int_number. Qed.
Print Assumptions C126_int_number.
Theorem C126_number_uint : forall o n, u32 n ->
  (forall v, Forall u32 (lanes2 v) -> opMeets (uRes o) (uUndef o) [n; n] (lanes2 v) (omap lanes2 (nUintOp2 o n v))) /\
  (forall v, Forall u32 (lanes3 v) -> opMeets (uRes o) (uUndef o) [n; n; n] (lanes3 v) (omap lanes3 (nUintOp3 o n v))) /\
  (forall v, Forall u32 (lanes4 v) -> opMeets (uRes o) (uUndef o) [n; n; n; n] (lanes4 v) (omap lanes4 (nUintOp4 o n v))).
Proof. exact number_uint. Qed.
Print Assumptions C126_number_uint.
Theorem C126_number_int : forall o n, i32 n ->
  (forall v, Forall i32 (lanes2 v) -> opMeets (iRes o) (iUndef o) [n; n] (lanes2 v) (omap lanes2 (nIntOp2 o n v))) /\
  (forall v, Forall i32 (lanes3 v) -> opMeets (iRes o) (iUndef o) [n; n; n] (lanes3 v) (omap lanes3 (nIntOp3 o n v))) /\
  (forall v, Forall i32 (lanes4 v) -> opMeets (iRes o) (iUndef o) [n; n; n; n] (lanes4 v) (omap lanes4 (nIntOp4 o n v))).
Proof. exact number_int. Qed.
Print Assumptions C126_number_int.
Theorem C126_assignment : forall o, (forall v w, assign2 (ulane o) v w = uintOp2 o v w /\ assign2 (ilane o) v w = intOp2 o v w) /\
  (forall v w, assign3 (ulane o) v w = uintOp3 o v w /\ assign3 (ilane o) v w = intOp3 o v w) /\
  (forall v w, assign4 (ulane o) v w = uintOp4 o v w /\ assign4 (ilane o) v w = intOp4 o v w).
Proof. exact assigned. Qed.
Print Assumptions C126_assignment.
Theorem C126_compare_number : forall c n,
  (forall v, Forall3 (fun x y m => maskFor (relOf c x y) m) (lanes2 v) [n; n] (lanes2 (compareN2 c v n))) /\
  (forall v, Forall3 (fun x y m => maskFor (relOf c x y) m) (lanes3 v) [n; n; n] (lanes3 (compareN3 c v n))) /\
  (forall v, Forall3 (fun x y m => maskFor (relOf c x y) m) (lanes4 v) [n; n; n; n] (lanes4 (compareN4 c v n))) /\
  (forall v, Forall3 (fun x y m => maskFor (relOf c x y) m) [n; n] (lanes2 v) (lanes2 (nCompare2 c n v))) /\
  (forall v, Forall3 (fun x y m => maskFor (relOf c x y) m) [n; n; n] (lanes3 v) (lanes3 (nCompare3 c n v))) /\
  (forall v, Forall3 (fun x y m => maskFor (relOf c x y) m) [n; n; n; n] (lanes4 v) (lanes4 (nCompare4 c n v))).
Proof. exact compare_number. Qed.
Print Assumptions C126_compare_number.
Theorem C126_simd_uint_number : forall p o v n, Forall u32 (lanes4 v) -> u32 n -> Forall (fun x => ~ uUndef o x n) (lanes4 v) ->
  exists r, u32OpN p o v n = Ok r /\ Forall3 (uRes o) (lanes4 v) [n; n; n; n] (lanes4 r).
Proof. exact u32_number. Qed.
Print Assumptions C126_simd_uint_number.
Theorem C126_simd_int_number : forall p o v n, Forall i32 (lanes4 v) -> i32 n -> Forall (fun x => ~ iUndef o x n) (lanes4 v) ->
  exists r, i32OpN p o v n = Ok r /\ Forall3 (iRes o) (lanes4 v) [n; n; n; n] (lanes4 r).
Proof. exact i32_number. Qed.
Print Assumptions C126_simd_int_number.
Theorem C126_simd_number_uint : forall p o v n, Forall u32 (lanes4 v) -> u32 n -> Forall (fun x => ~ uUndef o n x) (lanes4 v) ->
  exists r, nU32Op p o n v = Ok r /\ Forall3 (uRes o) [n; n; n; n] (lanes4 v) (lanes4 r).
Proof. exact number_u32. Qed.
Print Assumptions C126_simd_number_uint.
Theorem C126_simd_number_int : forall p o v n, Forall i32 (lanes4 v) -> i32 n -> Forall (fun x => ~ iUndef o n x) (lanes4 v) ->
  exists r, nI32Op p o n v = Ok r /\ Forall3 (iRes o) [n; n; n; n] (lanes4 v) (lanes4 r).
Proof. exact number_i32. Qed.
Print Assumptions C126_simd_number_int.
Theorem C126_constants2 : forall v, Forall i32 (lanes2 v) ->
  intOp2 OAdd v intZero2 = Ok v /\ intOp2 OMul v intOne2 = Ok v /\
  (t <- intOp2 OMul v intZero2;; intOp2 OAdd t v) = Ok v /\
  (x2 v <> - 2 ^ 31 -> y2 v <> - 2 ^ 31 -> intOp2 OMul v intMinusOne2 = Ok (map_2 Z.opp v)) /\
  (r <- nIntOp2 OMul (x2 v) intRight2;; t <- nIntOp2 OMul (y2 v) intTop2;; intOp2 OAdd r t) = Ok v.
Proof. exact constants2. Qed.
Print Assumptions C126_constants2.
Theorem C126_constants3 : forall v, Forall i32 (lanes3 v) ->
  intOp3 OAdd v intZero3 = Ok v /\ intOp3 OMul v intOne3 = Ok v /\
  (Forall (fun a => a <> - 2 ^ 31) (lanes3 v) -> intOp3 OMul v intMinusOne3 = Ok (map_3 Z.opp v)) /\
  (r <- nIntOp3 OMul (x3 v) intRight3;; t <- nIntOp3 OMul (y3 v) intTop3;; f <- nIntOp3 OMul (z3 v) intFront3;;
   s <- intOp3 OAdd r t;; intOp3 OAdd s f) = Ok v.
Proof. exact constants3. Qed.
Print Assumptions C126_constants3.
Theorem C126_opposites : intOp2 OAdd intLeft2 intRight2 = Ok intZero2 /\ intOp2 OAdd intBottom2 intTop2 = Ok intZero2 /\
  intOp3 OAdd intLeft3 intRight3 = Ok intZero3 /\ intOp3 OAdd intBottom3 intTop3 = Ok intZero3 /\
  intOp3 OAdd intBack3 intFront3 = Ok intZero3.
Proof. exact opposites. Qed.
Print Assumptions C126_opposites.
Theorem C126_unsigned_constants : (forall v, Forall u32 (lanes2 v) -> uintOp2 OAdd v uintZero2 = Ok v /\ uintOp2 OMul v uintOne2 = Ok v) /\
  (forall v, Forall u32 (lanes3 v) -> uintOp3 OAdd v uintZero3 = Ok v /\ uintOp3 OMul v uintOne3 = Ok v).
Proof. exact uconstants. Qed.
Print Assumptions C126_unsigned_constants.
(** division by a number and of a number, an undefined lane, a wrapped sum *)
Example C126_ex :
  intOpN3 ODiv (V3 7 (-7) 9) 2 = Ok (V3 3 (-3) 4) /\ nIntOp2 ODiv 7 (V2 2 0) = UB /\
  uintOpN2 OAdd (V2 4294967295 1) 2 = Ok (V2 1 3) /\ u32OpN AVX2 OShl (V4 1 2 3 4) 31 = Ok (V4 2147483648 0 2147483648 0) /\
  i32OpN NEON OShr (V4 (-8) 8 1 0) 1 = Ok (V4 (-4) 4 0 0) /\ compareN2 CLt (V2 1 5) 3 = V2 4294967295 0 /\
  assign4 (ilane OSub) (V4 5 6 7 8) (V4 1 2 3 4) = Ok (V4 4 4 4 4) /\ u32 2 /\ i32 (-8) /\ ~ uUndef OShl 1 31.
Proof. repeat split; try reflexivity; try discriminate. intro H. apply H. reflexivity. Qed.
