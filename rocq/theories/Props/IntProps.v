(** C53 - C60, C88 - C90: integer vectors, their masks, orders, constructors, arithmetic, mip
    levels and conversions.  A uint32 lane is an integer in [0, 2^32), an int32 lane one in
    [-2^31, 2^31). *)
From Coq Require Import ZArith Reals Bool List Lia.
From Flocq Require Import Core.Core IEEE754.BinarySingleNaN IEEE754.Binary IEEE754.Bits.
From Verif.Model Require Import Outcome Scalar Vec Simd Aabb IntVec SimdInt.
From Verif.Spec Require Import OrderSpec IntSpec.
From Verif.Proofs Require Import IntProofs IntArith IntOrder MipProofs IntConv IntWitness AabbWitness.
Import ListNotations.
Local Open Scope Z_scope.

(** ** C53 *)
Theorem C53_compare2 : forall c a b,
  Forall3 (fun x y m => maskFor (relOf c x y) m) (lanes2 a) (lanes2 b) (lanes2 (compare2 c a b)).
Proof. exact compare2_lanes. Qed.
Print Assumptions C53_compare2.

Theorem C53_compare3 : forall c a b,
  Forall3 (fun x y m => maskFor (relOf c x y) m) (lanes3 a) (lanes3 b) (lanes3 (compare3 c a b)).
Proof. exact compare3_lanes. Qed.
Print Assumptions C53_compare3.

Theorem C53_compare4 : forall c a b,
  Forall3 (fun x y m => maskFor (relOf c x y) m) (lanes4 a) (lanes4 b) (lanes4 (compare4 c a b)).
Proof. exact compare4_lanes. Qed.
Print Assumptions C53_compare4.

Theorem C53_reduce2 : forall c a b,
  let m := compare2 c a b in let R := relOf c in
  (areAllTrue2 m = true <-> Forall2 R (lanes2 a) (lanes2 b)) /\
  (areAnyTrue2 m = true <-> Exists2 R (lanes2 a) (lanes2 b)) /\
  (areAllFalse2 m = true <-> Forall2 (fun x y => ~ R x y) (lanes2 a) (lanes2 b)) /\
  (areAnyFalse2 m = true <-> Exists2 (fun x y => ~ R x y) (lanes2 a) (lanes2 b)).
Proof. exact reduce2. Qed.
Print Assumptions C53_reduce2.

Theorem C53_reduce3 : forall c a b,
  let m := compare3 c a b in let R := relOf c in
  (areAllTrue3 m = true <-> Forall2 R (lanes3 a) (lanes3 b)) /\
  (areAnyTrue3 m = true <-> Exists2 R (lanes3 a) (lanes3 b)) /\
  (areAllFalse3 m = true <-> Forall2 (fun x y => ~ R x y) (lanes3 a) (lanes3 b)) /\
  (areAnyFalse3 m = true <-> Exists2 (fun x y => ~ R x y) (lanes3 a) (lanes3 b)).
Proof. exact reduce3. Qed.
Print Assumptions C53_reduce3.

Theorem C53_reduce4 : forall p c a b,
  let m := compare4 c a b in let R := relOf c in
  (areAllTrue4 p m = true <-> Forall2 R (lanes4 a) (lanes4 b)) /\
  (areAnyTrue4 p m = true <-> Exists2 R (lanes4 a) (lanes4 b)) /\
  (areAllFalse4 p m = true <-> Forall2 (fun x y => ~ R x y) (lanes4 a) (lanes4 b)) /\
  (areAnyFalse4 p m = true <-> Exists2 (fun x y => ~ R x y) (lanes4 a) (lanes4 b)).
Proof. exact reduce4. Qed.
Print Assumptions C53_reduce4.

Theorem C53_getTrues2 : forall c a b, let n := getTrues2 (compare2 c a b) in
  (Z.testbit n 0 = true <-> relOf c (x2 a) (x2 b)) /\
  (Z.testbit n 1 = true <-> relOf c (y2 a) (y2 b)) /\ 0 <= n < 4.
Proof. exact getTrues2_bits. Qed.
Print Assumptions C53_getTrues2.

Theorem C53_getTrues3 : forall c a b, let n := getTrues3 (compare3 c a b) in
  (Z.testbit n 0 = true <-> relOf c (x3 a) (x3 b)) /\
  (Z.testbit n 1 = true <-> relOf c (y3 a) (y3 b)) /\
  (Z.testbit n 2 = true <-> relOf c (z3 a) (z3 b)) /\ 0 <= n < 8.
Proof. exact getTrues3_bits. Qed.
Print Assumptions C53_getTrues3.

Theorem C53_getTrues4 : forall c a b, let n := getTrues4 (compare4 c a b) in
  (Z.testbit n 0 = true <-> relOf c (vx a) (vx b)) /\
  (Z.testbit n 1 = true <-> relOf c (vy a) (vy b)) /\
  (Z.testbit n 2 = true <-> relOf c (vz a) (vz b)) /\
  (Z.testbit n 3 = true <-> relOf c (vw a) (vw b)) /\ 0 <= n < 16.
Proof. exact getTrues4_bits. Qed.
Print Assumptions C53_getTrues4.

Theorem C53_select2 : forall c (a b : vec2 Z) (t f : vec2 Z),
  let r := select2 (compare2 c a b) t f in
  chosen (relOf c (x2 a) (x2 b)) (x2 t) (x2 f) (x2 r) /\
  chosen (relOf c (y2 a) (y2 b)) (y2 t) (y2 f) (y2 r).
Proof. exact select2_lanes. Qed.
Print Assumptions C53_select2.

Theorem C53_select3 : forall c (a b : vec3 Z) (t f : vec3 Z),
  let r := select3 (compare3 c a b) t f in
  chosen (relOf c (x3 a) (x3 b)) (x3 t) (x3 f) (x3 r) /\
  chosen (relOf c (y3 a) (y3 b)) (y3 t) (y3 f) (y3 r) /\
  chosen (relOf c (z3 a) (z3 b)) (z3 t) (z3 f) (z3 r).
Proof. exact select3_lanes. Qed.
Print Assumptions C53_select3.

Theorem C53_select4 : forall c (a b : vec4 Z) (t f : vec4 Z),
  let r := select4 (compare4 c a b) t f in
  chosen (relOf c (vx a) (vx b)) (vx t) (vx f) (vx r) /\
  chosen (relOf c (vy a) (vy b)) (vy t) (vy f) (vy r) /\
  chosen (relOf c (vz a) (vz b)) (vz t) (vz f) (vz r) /\
  chosen (relOf c (vw a) (vw b)) (vw t) (vw f) (vw r).
Proof. exact select4_lanes. Qed.
Print Assumptions C53_select4.

Theorem C53_equality : (forall a b, eqv2 a b = true <-> a = b) /\ (forall a b, eqv3 a b = true <-> a = b) /\
  (forall a b, eqv4 a b = true <-> a = b).
Proof. exact eqv_iff. Qed.
Print Assumptions C53_equality.

Theorem C53_inequality : (forall a b, nev2 a b = negb (eqv2 a b)) /\ (forall a b, nev3 a b = negb (eqv3 a b)) /\
  (forall a b, nev4 a b = negb (eqv4 a b)).
Proof. exact nev_neg. Qed.
Print Assumptions C53_inequality.

Theorem C53_simd_equality : forall p a b, u32eq p a b = true <-> a = b.
Proof. exact u32eq_iff. Qed.
Print Assumptions C53_simd_equality.

Theorem C53_simd_inequality : forall p a b, u32ne p a b = negb (u32eq p a b).
Proof. exact u32ne_neg. Qed.
Print Assumptions C53_simd_inequality.

(** a mixed comparison: lanes differ in both directions *)
Example C53_ex : compare3 CLt (V3 1 5 7) (V3 2 4 7) = V3 4294967295 0 0 /\
  getTrues3 (compare3 CLe (V3 1 5 7) (V3 2 4 7)) = 5 /\
  areAnyTrue3 (compare3 CLt (V3 1 5 7) (V3 2 4 7)) = true /\
  areAllTrue3 (compare3 CLt (V3 1 5 7) (V3 2 4 7)) = false /\
  select3 (compare3 CLt (V3 1 5 7) (V3 2 4 7)) (V3 10 20 30) (V3 40 50 60) = V3 10 50 60.
Proof. vm_compute. auto. Qed.

(** ** C54 *)
Theorem C54_duality2 : forall v,
  areAnyFalse2 v = negb (areAllTrue2 v) /\ areAnyTrue2 v = negb (areAllFalse2 v).
Proof. exact reductions_dual2. Qed.
Print Assumptions C54_duality2.

Theorem C54_duality3 : forall v,
  areAnyFalse3 v = negb (areAllTrue3 v) /\ areAnyTrue3 v = negb (areAllFalse3 v).
Proof. exact reductions_dual3. Qed.
Print Assumptions C54_duality3.

Theorem C54_duality4 : forall p v,
  areAnyFalse4 p v = negb (areAllTrue4 p v) /\ areAnyTrue4 p v = negb (areAllFalse4 p v).
Proof. exact reductions_dual4. Qed.
Print Assumptions C54_duality4.

Theorem C54_allTrue2 : forall v, Forall u32 (lanes2 v) ->
  (areAllTrue2 v = true <-> Forall (fun x => x = 2 ^ 32 - 1) (lanes2 v)).
Proof. exact allTrue2_iff. Qed.
Print Assumptions C54_allTrue2.

Theorem C54_allTrue3 : forall v, Forall u32 (lanes3 v) ->
  (areAllTrue3 v = true <-> Forall (fun x => x = 2 ^ 32 - 1) (lanes3 v)).
Proof. exact allTrue3_iff. Qed.
Print Assumptions C54_allTrue3.

Theorem C54_allTrue4 : forall p v, p = GEN \/ p = NEON -> Forall u32 (lanes4 v) ->
  (areAllTrue4 p v = true <-> Forall (fun x => x = 2 ^ 32 - 1) (lanes4 v)).
Proof. exact allTrue4_iff. Qed.
Print Assumptions C54_allTrue4.

Theorem C54_allFalse2 : forall v, areAllFalse2 v = true <-> Forall (fun x => x = 0) (lanes2 v).
Proof. exact allFalse2_iff. Qed.
Print Assumptions C54_allFalse2.

Theorem C54_allFalse3 : forall v, areAllFalse3 v = true <-> Forall (fun x => x = 0) (lanes3 v).
Proof. exact allFalse3_iff. Qed.
Print Assumptions C54_allFalse3.

Theorem C54_allFalse4 : forall p v, p <> SSE2 -> Forall u32 (lanes4 v) ->
  (areAllFalse4 p v = true <-> Forall (fun x => x = 0) (lanes4 v)).
Proof. exact allFalse4_iff. Qed.
Print Assumptions C54_allFalse4.

(** a vector that is neither all true nor all false, though no lane is a mask *)
Example C54_ex : areAllTrue3 (V3 1 2 4) = false /\ areAllFalse3 (V3 1 2 4) = false /\
  areAnyTrue3 (V3 1 2 4) = true /\ areAnyFalse3 (V3 1 2 4) = true.
Proof. vm_compute. auto. Qed.

(** ** C88 *)
(** The reductions agree on every path for masks ... *)
Theorem C88_masks_agree : forall p b0 b1 b2 b3,
  let m := V4 (maskOf b0) (maskOf b1) (maskOf b2) (maskOf b3) in
  areAllTrue4 p m = (b0 && b1 && b2 && b3)%bool /\
  areAnyTrue4 p m = (b0 || b1 || b2 || b3)%bool /\
  areAllFalse4 p m = negb (b0 || b1 || b2 || b3) /\
  areAnyFalse4 p m = negb (b0 && b1 && b2 && b3) /\
  getTrues4 m = Z.b2z b0 + 2 * Z.b2z b1 + 4 * Z.b2z b2 + 8 * Z.b2z b3.
Proof. exact reduce4_mask. Qed.
Print Assumptions C88_masks_agree.

(** ... but not for other lanes: SSE looks at the top bit of each byte. *)
Theorem C88_reductions_refuted : exists v, Forall u32 (lanes4 v) /\
  areAllTrue4 SSE2 v = true /\ areAllTrue4 GEN v = false.
Proof. exact reductions_path_refuted. Qed.
Print Assumptions C88_reductions_refuted.

Theorem C88_sse_allTrue_actual : forall p v, p = SSE2 \/ p = SSE41 \/ p = AVX2 ->
  (areAllTrue4 p v = true <-> Forall byteTopsSet (lanes4 v)).
Proof. exact reductions_sse. Qed.
Print Assumptions C88_sse_allTrue_actual.

Theorem C88_sse2_allFalse_actual : forall v,
  areAllFalse4 SSE2 v = true <-> Forall byteTopsClear (lanes4 v).
Proof. exact reductions_sse2_false. Qed.
Print Assumptions C88_sse2_allFalse_actual.

Example C88_ex : areAllFalse4 SSE2 (V4 1 0 0 0) = true /\ areAllFalse4 GEN (V4 1 0 0 0) = false.
Proof. vm_compute. auto. Qed.

(** ** C55 *)
Theorem C55_uint2 : strictTotalOrder (fun v => Forall u32 (lanes2 v)) uintLess2.
Proof. exact (orderU2 u32 toU32_inj_u32). Qed.
Print Assumptions C55_uint2.

Theorem C55_uint3 : strictTotalOrder (fun v => Forall u32 (lanes3 v)) binLess3.
Proof. exact (order3 u32 toU32_inj_u32). Qed.
Print Assumptions C55_uint3.

Theorem C55_uint4 : strictTotalOrder (fun v => Forall u32 (lanes4 v)) binLess4.
Proof. exact (order4 u32 toU32_inj_u32). Qed.
Print Assumptions C55_uint4.

Theorem C55_int2 : strictTotalOrder (fun v => Forall i32 (lanes2 v)) intLess2.
Proof. exact (orderI2 i32 toU32_inj_i32). Qed.
Print Assumptions C55_int2.

Theorem C55_int3 : strictTotalOrder (fun v => Forall i32 (lanes3 v)) binLess3.
Proof. exact (order3 i32 toU32_inj_i32). Qed.
Print Assumptions C55_int3.

Theorem C55_int4 : strictTotalOrder (fun v => Forall i32 (lanes4 v)) binLess4.
Proof. exact (order4 i32 toU32_inj_i32). Qed.
Print Assumptions C55_int4.

Theorem C55_float2 : strictTotalOrder (fun _ => True) floatLess2.
Proof. exact orderF2. Qed.
Print Assumptions C55_float2.

Theorem C55_float3 : strictTotalOrder (fun _ => True) floatLess3.
Proof. exact orderF3. Qed.
Print Assumptions C55_float3.

Theorem C55_float4 : strictTotalOrder (fun _ => True) floatLess4.
Proof. exact orderF4. Qed.
Print Assumptions C55_float4.

(** memcmp compares the least significant byte of the first lane first *)
Example C55_ex : binLess3 (V3 256 0 0) (V3 1 0 0) = true /\ uintLess2 (V2 5 1) (V2 0 2) = true /\
  intLess2 (V2 5 (-1)) (V2 0 0) = true /\ binLess4 (V4 0 0 0 (-1)) (V4 0 0 0 1) = false.
Proof. vm_compute. auto. Qed.

(** ** C56 *)
Theorem C56_boxes_refuted : exists a b : aabb f32, a <> b /\ aabbLess a b = false /\ aabbLess b a = false.
Proof. exact aabbLess_refuted. Qed.
Print Assumptions C56_boxes_refuted.

Theorem C56_boxes_actual : forall a b,
  (aabbLess a b = false /\ aabbLess b a = false) <->
  (bmin a = bmin b /\ vx (bmax a) = vx (bmax b) /\ vy (bmax a) = vy (bmax b)).
Proof. exact aabbLess_actual. Qed.
Print Assumptions C56_boxes_actual.

Theorem C56_strict : (forall a, aabbLess a a = false) /\
  (forall a b c, aabbLess a b = true -> aabbLess b c = true -> aabbLess a c = true).
Proof. exact aabbLess_rest. Qed.
Print Assumptions C56_strict.

Example C56_ex : aabbLess (bx 0 0 0 1 1 1) (bx 0 0 0 1 1 2) = false /\
  aabbLess (bx 0 0 0 1 1 2) (bx 0 0 0 1 1 1) = false /\ aabbLess (bx 0 0 0 1 1 1) (bx 0 0 0 1 2 1) = false /\
  aabbLess (bx 0 0 0 1 2 1) (bx 0 0 0 1 1 1) = true.
Proof. vm_compute. auto. Qed.

(** ** C57 *)
Theorem C57_constructors : forall A (a b c d : A),
  ctor3_xy_z (V2 a b) c = V3 a b c /\ ctor3_x_yz a (V2 b c) = V3 a b c /\
  ctor4_xy_z_w (V2 a b) c d = V4 a b c d /\ ctor4_x_yz_w a (V2 b c) d = V4 a b c d /\
  ctor4_x_y_zw a b (V2 c d) = V4 a b c d /\ ctor4_xy_zw (V2 a b) (V2 c d) = V4 a b c d /\
  ctor4_xyz_w (V3 a b c) d = V4 a b c d /\ ctor4_x_yzw a (V3 b c d) = V4 a b c d /\
  xy_of3 (V3 a b c) = V2 a b /\ xy_of4 (V4 a b c d) = V2 a b /\ loadAligned a b c d = V4 a b c d.
Proof. exact constructors. Qed.
Print Assumptions C57_constructors.

Theorem C57_int3_refuted : exists xy z, int3_xy_z xy z <> V3 (x2 xy) (y2 xy) z.
Proof. exact int3_refuted. Qed.
Print Assumptions C57_int3_refuted.

Theorem C57_int3_actual : forall x y z, int3_xy_z (V2 x y) z = V3 x y x.
Proof. exact int3_actual. Qed.
Print Assumptions C57_int3_actual.

Theorem C57_loadPtr_refuted : exists a b c d : Z, loadPtr GEN a b c d <> V4 a b c d.
Proof. exact loadPtr_refuted. Qed.
Print Assumptions C57_loadPtr_refuted.

Theorem C57_loadPtr_actual : forall A p (a b c d : A),
  loadPtr p a b c d = match p with GEN => V4 a a a a | _ => V4 a b c d end.
Proof. exact loadPtr_actual. Qed.
Print Assumptions C57_loadPtr_actual.

Theorem C57_signed_unsigned : forall v, Forall u32 (lanes4 v) ->
  uintOfInt4 (intOfUint4 v) = v /\
  Forall2 (fun u i => i32 i /\ (exists k, u = i + k * 2 ^ 32)) (lanes4 v) (lanes4 (intOfUint4 v)).
Proof. exact convert4. Qed.
Print Assumptions C57_signed_unsigned.

Example C57_ex : int3_xy_z (V2 1 2) 3 = V3 1 2 1 /\ loadPtr GEN 1 2 3 4 = V4 1 1 1 1 /\
  intOfUint4 (V4 0 1 2147483648 4294967295) = V4 0 1 (-2147483648) (-1).
Proof. vm_compute. auto. Qed.

(** ** C58 *)
Theorem C58_unsigned_lane : forall o a b, u32 a -> u32 b ->
  match ulane o a b with
  | Ok r => uRes o a b r /\ ~ uUndef o a b
  | UB => uUndef o a b
  | _ => False
  end.
Proof. exact ulane_means. Qed.
Print Assumptions C58_unsigned_lane.

Theorem C58_signed_lane : forall o a b, i32 a -> i32 b ->
  match ilane o a b with
  | Ok r => iRes o a b r /\ ~ iUndef o a b
  | UB => iUndef o a b
  | _ => False
  end.
Proof. exact ilane_means. Qed.
Print Assumptions C58_signed_lane.

Theorem C58_uint2 : forall o a b, Forall u32 (lanes2 a) -> Forall u32 (lanes2 b) ->
  match uintOp2 o a b with
  | Ok r => Forall3 (uRes o) (lanes2 a) (lanes2 b) (lanes2 r)
            /\ Forall2 (fun x y => ~ uUndef o x y) (lanes2 a) (lanes2 b)
  | UB => Exists2 (uUndef o) (lanes2 a) (lanes2 b)
  | _ => False
  end.
Proof. exact (fun o => lanewise2 (ulane o) u32 (uRes o) (uUndef o) (ulane_means o)). Qed.
Print Assumptions C58_uint2.

Theorem C58_int2 : forall o a b, Forall i32 (lanes2 a) -> Forall i32 (lanes2 b) ->
  match intOp2 o a b with
  | Ok r => Forall3 (iRes o) (lanes2 a) (lanes2 b) (lanes2 r)
            /\ Forall2 (fun x y => ~ iUndef o x y) (lanes2 a) (lanes2 b)
  | UB => Exists2 (iUndef o) (lanes2 a) (lanes2 b)
  | _ => False
  end.
Proof. exact (fun o => lanewise2 (ilane o) i32 (iRes o) (iUndef o) (ilane_means o)). Qed.
Print Assumptions C58_int2.

Theorem C58_uint3 : forall o a b, Forall u32 (lanes3 a) -> Forall u32 (lanes3 b) ->
  match uintOp3 o a b with
  | Ok r => Forall3 (uRes o) (lanes3 a) (lanes3 b) (lanes3 r)
            /\ Forall2 (fun x y => ~ uUndef o x y) (lanes3 a) (lanes3 b)
  | UB => Exists2 (uUndef o) (lanes3 a) (lanes3 b)
  | _ => False
  end.
Proof. exact (fun o => lanewise3 (ulane o) u32 (uRes o) (uUndef o) (ulane_means o)). Qed.
Print Assumptions C58_uint3.

Theorem C58_int3 : forall o a b, Forall i32 (lanes3 a) -> Forall i32 (lanes3 b) ->
  match intOp3 o a b with
  | Ok r => Forall3 (iRes o) (lanes3 a) (lanes3 b) (lanes3 r)
            /\ Forall2 (fun x y => ~ iUndef o x y) (lanes3 a) (lanes3 b)
  | UB => Exists2 (iUndef o) (lanes3 a) (lanes3 b)
  | _ => False
  end.
Proof. exact (fun o => lanewise3 (ilane o) i32 (iRes o) (iUndef o) (ilane_means o)). Qed.
Print Assumptions C58_int3.

Theorem C58_uint4 : forall o a b, Forall u32 (lanes4 a) -> Forall u32 (lanes4 b) ->
  match uintOp4 o a b with
  | Ok r => Forall3 (uRes o) (lanes4 a) (lanes4 b) (lanes4 r)
            /\ Forall2 (fun x y => ~ uUndef o x y) (lanes4 a) (lanes4 b)
  | UB => Exists2 (uUndef o) (lanes4 a) (lanes4 b)
  | _ => False
  end.
Proof. exact (fun o => lanewise4 (ulane o) u32 (uRes o) (uUndef o) (ulane_means o)). Qed.
Print Assumptions C58_uint4.

Theorem C58_int4 : forall o a b, Forall i32 (lanes4 a) -> Forall i32 (lanes4 b) ->
  match intOp4 o a b with
  | Ok r => Forall3 (iRes o) (lanes4 a) (lanes4 b) (lanes4 r)
            /\ Forall2 (fun x y => ~ iUndef o x y) (lanes4 a) (lanes4 b)
  | UB => Exists2 (iUndef o) (lanes4 a) (lanes4 b)
  | _ => False
  end.
Proof. exact (fun o => lanewise4 (ilane o) i32 (iRes o) (iUndef o) (ilane_means o)). Qed.
Print Assumptions C58_int4.

Theorem C58_uint2_ring : ringLaws (fun v => Forall u32 (lanes2 v))
  (uintOp2 OAdd) (uintOp2 OSub) (uintOp2 OMul) (dup2 0) (dup2 1).
Proof. exact ring2. Qed.
Print Assumptions C58_uint2_ring.

Theorem C58_uint3_ring : ringLaws (fun v => Forall u32 (lanes3 v))
  (uintOp3 OAdd) (uintOp3 OSub) (uintOp3 OMul) (dup3 0) (dup3 1).
Proof. exact ring3. Qed.
Print Assumptions C58_uint3_ring.

Theorem C58_uint4_ring : ringLaws (fun v => Forall u32 (lanes4 v))
  (uintOp4 OAdd) (uintOp4 OSub) (uintOp4 OMul) (dup4 0) (dup4 1).
Proof. exact ring4. Qed.
Print Assumptions C58_uint4_ring.

Theorem C58_negation : forall a, u32 a -> u32 (uneg a) /\ (exists k, uneg a + a = k * 2 ^ 32).
Proof. exact uneg_lane. Qed.
Print Assumptions C58_negation.

Theorem C58_complement : forall a i, u32 a -> 0 <= i < 32 -> Z.testbit (ucompl a) i = negb (Z.testbit a i).
Proof. exact ucompl_lane. Qed.
Print Assumptions C58_complement.

Theorem C58_simd_unsigned : forall p o a b r, Forall u32 (lanes4 a) -> Forall u32 (lanes4 b) ->
  uintOp4 o a b = Ok r -> u32Op p o a b = Ok r.
Proof. exact u32Op_agrees. Qed.
Print Assumptions C58_simd_unsigned.

Theorem C58_simd_signed : forall p o a b r, Forall i32 (lanes4 a) -> Forall i32 (lanes4 b) ->
  intOp4 o a b = Ok r -> i32Op p o a b = Ok r.
Proof. exact i32Op_agrees. Qed.
Print Assumptions C58_simd_signed.

Theorem C58_simd_shift : forall p (l : bool) a n r, u32 a -> u32 n ->
  ulane (if l then OShl else OShr) a n = Ok r -> u32shiftN p l a n = Ok r.
Proof. exact u32shiftN_agrees. Qed.
Print Assumptions C58_simd_shift.

Theorem C58_clamp : forall v lo hi,
  match clampLane v lo hi with
  | Ok r => lo <= hi /\ lo <= r <= hi /\ (lo <= v <= hi -> r = v) /\ (r = v \/ r = lo \/ r = hi)
            /\ (v < lo -> r = lo) /\ (hi < v -> r = hi)
  | UB => hi < lo
  | _ => False
  end.
Proof. exact clampLane_means. Qed.
Print Assumptions C58_clamp.

Example C58_ex : uintOp3 OSub (V3 1 2 3) (V3 3 2 1) = Ok (V3 4294967294 0 2) /\
  intOp3 ODiv (V3 (-7) 7 1) (V3 2 (-2) 1) = Ok (V3 (-3) (-3) 1) /\
  intOp2 OAdd (V2 2147483647 0) (V2 1 0) = UB /\ uintOp2 ODiv (V2 1 1) (V2 1 0) = UB /\
  intOp2 ODiv (V2 (-2147483648) 0) (V2 (-1) 1) = UB /\ intOp2 OShl (V2 1 (-1)) (V2 31 0) = UB /\
  intOp2 OShl (V2 1 3) (V2 31 2) = Ok (V2 (-2147483648) 12).
Proof. vm_compute. auto 8. Qed.

(** ** C59 *)
Theorem C59_mipCount_refuted : exists size, u32 size /\ 1 <= size /\
  forall n, calcMipCount size = Ok n -> ~ isMipCount size n.
Proof. exact mipCount_refuted. Qed.
Print Assumptions C59_mipCount_refuted.

(** right up to 2^21 - 2, for every power of two, and whenever the size is at least 2^-20 of the
    next power of two away from it; one too large within 2^-21 of it *)
Theorem C59_mipCount_small : forall size, 1 <= size <= 2 ^ 21 - 2 ->
  exists n, calcMipCount size = Ok n /\ isMipCount size n.
Proof. exact mipCount_small. Qed.
Print Assumptions C59_mipCount_small.

Theorem C59_mipCount_pow2 : forall k, 0 <= k <= 31 -> calcMipCount (2 ^ k) = Ok (k + 1).
Proof. exact mipCount_pow2. Qed.
Print Assumptions C59_mipCount_pow2.

Theorem C59_mipCount_actual : forall size n, u32 size -> isMipCount size n ->
  (2 ^ 20 * (2 ^ n - size) >= 2 ^ n -> calcMipCount size = Ok n) /\
  (17 <= n -> 2 ^ 21 * (2 ^ n - size) <= 2 ^ n -> calcMipCount size = Ok (n + 1)).
Proof. exact mipCount_actual. Qed.
Print Assumptions C59_mipCount_actual.

Theorem C59_mipCount_zero : calcMipCount 0 = UB.
Proof. exact mipCount_zero. Qed.
Print Assumptions C59_mipCount_zero.

Theorem C59_sizeAtMip : forall size mip, u32 size -> 0 <= mip ->
  match calcSizeAtMip size mip with
  | Ok s => mip < 32 /\ isMipSize size mip s
  | UB => 32 <= mip
  | _ => False
  end.
Proof. exact sizeAtMip. Qed.
Print Assumptions C59_sizeAtMip.

Theorem C59_sizeAtMip2 : forall size mip, Forall u32 (lanes2 size) -> 0 <= mip < 32 ->
  exists s, calcSizeAtMip2 size mip = Ok s /\ Forall2 (fun a b => isMipSize a mip b) (lanes2 size) (lanes2 s).
Proof. exact sizeAtMip2_lanes. Qed.
Print Assumptions C59_sizeAtMip2.

Theorem C59_sizeAtMip3 : forall size mip, Forall u32 (lanes3 size) -> 0 <= mip < 32 ->
  exists s, calcSizeAtMip3 size mip = Ok s /\ Forall2 (fun a b => isMipSize a mip b) (lanes3 size) (lanes3 s).
Proof. exact sizeAtMip3_lanes. Qed.
Print Assumptions C59_sizeAtMip3.

Theorem C59_sizeAtMip3_simd : forall p size mip, Forall u32 (lanes4 size) -> 0 <= mip < 32 ->
  (p = NEON \/ p = GEN \/ p = SSE2 \/ 1 <= mip \/ Forall low31 (lanes4 size)) ->
  exists s, calcSizeAtMip3s p size mip = Ok s /\
    Forall2 (fun x y => isMipSize x mip y) (lanes4 size) (lanes4 s).
Proof. exact sizeAtMip3s. Qed.
Print Assumptions C59_sizeAtMip3_simd.

Theorem C59_sizeAtMip3_simd_refuted : exists size, Forall u32 (lanes4 size) /\
  calcSizeAtMip3s SSE41 size 0 = Ok (V4 1 1 1 1) /\ size = V4 (2 ^ 31) 1 1 1.
Proof. exact sizeAtMip3s_refuted. Qed.
Print Assumptions C59_sizeAtMip3_simd_refuted.

Theorem C59_mip_chain : forall size n, u32 size -> isMipCount size n ->
  calcSizeAtMip size (n - 1) = Ok 1 /\
  forall m, 0 <= m < n - 1 -> exists s, calcSizeAtMip size m = Ok s /\ 1 < s.
Proof. exact mip_chain. Qed.
Print Assumptions C59_mip_chain.

Example C59_ex : isMipCount 1920 11 /\ calcMipCount 1920 = Ok 11 /\ calcSizeAtMip 1920 3 = Ok 240 /\
  calcSizeAtMip 1920 10 = Ok 1 /\ calcMipCount 2097151 = Ok 22 /\ calcSizeAtMip3 (V3 640 480 3) 2 = Ok (V3 160 120 1).
Proof.
  split; [unfold isMipCount; lia|].
  split; [apply (mipCount_actual 1920 11); unfold u32, isMipCount; lia|].
  split; [reflexivity|]. split; [reflexivity|].
  split; [apply (mipCount_actual 2097151 21); unfold u32, isMipCount; lia | reflexivity].
Qed.

(** ** C60 *)
Theorem C60_compare_refuted : exists a b, Forall u32 (lanes4 a) /\ Forall u32 (lanes4 b) /\
  Forall2 (fun x y => x < y) (lanes4 a) (lanes4 b) /\
  forall p, p = SSE2 \/ p = SSE41 \/ p = AVX2 ->
    u32compare p CLt a b = dup4 0 /\ u32compare p CGt a b = dup4 (2 ^ 32 - 1) /\
    areAllFalse4 p (u32compare p CLt a b) = true.
Proof. exact u32compare_refuted. Qed.
Print Assumptions C60_compare_refuted.

Theorem C60_compare_actual : forall p c a b, Forall u32 (lanes4 a) -> Forall u32 (lanes4 b) ->
  (p = NEON \/ p = GEN \/ c = CEq \/ c = CNe \/ Forall2 sameHalf (lanes4 a) (lanes4 b)) ->
  Forall3 (fun x y m => maskFor (relOf c x y) m) (lanes4 a) (lanes4 b) (lanes4 (u32compare p c a b)).
Proof. exact u32compare_right. Qed.
Print Assumptions C60_compare_actual.

Theorem C60_compare_sse_actual : forall p c a b, (p = SSE2 \/ p = SSE41 \/ p = AVX2) ->
  (u32cmpLane p c a b = true <-> relOf c (toI32 a) (toI32 b)).
Proof. exact u32cmp_signed. Qed.
Print Assumptions C60_compare_sse_actual.

Theorem C60_minmax_refuted : exists a b, Forall u32 (lanes4 a) /\ Forall u32 (lanes4 b) /\
  forall p, p = SSE41 \/ p = AVX2 -> u32min p a b = b /\ u32max p a b = a /\
    Forall2 (fun x y => x < y) (lanes4 a) (lanes4 b).
Proof. exact u32minmax_refuted. Qed.
Print Assumptions C60_minmax_refuted.

Theorem C60_minmax_actual : forall p a b, Forall u32 (lanes4 a) -> Forall u32 (lanes4 b) ->
  (p = NEON \/ p = GEN \/ p = SSE2 \/ Forall2 sameHalf (lanes4 a) (lanes4 b)) ->
  Forall3 (fun x y m => least m [x; y]) (lanes4 a) (lanes4 b) (lanes4 (u32min p a b)) /\
  Forall3 (fun x y m => greatest m [x; y]) (lanes4 a) (lanes4 b) (lanes4 (u32max p a b)).
Proof. exact u32minmax_right. Qed.
Print Assumptions C60_minmax_actual.

Theorem C60_reduce4 : forall p v,
  (p = NEON \/ p = GEN \/ p = SSE2 \/ Forall low31 (lanes4 v)) -> Forall u32 (lanes4 v) ->
  least (u32min4 p v) (lanes4 v) /\ greatest (u32max4 p v) (lanes4 v).
Proof. exact reduce_minmax4. Qed.
Print Assumptions C60_reduce4.

Theorem C60_reduce3 : forall p v, let l := [vx v; vy v; vz v] in
  (p = NEON \/ p = GEN \/ p = SSE2 \/ Forall low31 l) -> Forall u32 l ->
  least (u32min3 p v) l /\ greatest (u32max3 p v) l.
Proof. exact reduce_minmax3. Qed.
Print Assumptions C60_reduce3.

Example C60_ex : forall p, u32compare p CLt (V4 1 5 0 7) (V4 2 4 9 7) = V4 4294967295 0 4294967295 0 /\
  u32max3 p (V4 1 5 3 99) = 5 /\ u32min4 p (V4 4 5 3 9) = 3.
Proof. intros []; vm_compute; auto. Qed.

(** ** C89 *)
Theorem C89_fromUnsigned_refuted : forall p u, u32 u -> 2 ^ 31 <= u -> p = SSE2 \/ p = SSE41 \/ p = AVX2 ->
  B2R 24 128 (f32ofU32 p u) <> rnd32 (IZR u).
Proof. exact f32ofU32_refuted. Qed.
Print Assumptions C89_fromUnsigned_refuted.

Theorem C89_generic_refuted : exists u, u32 u /\ seq (f32ofU32 GEN u) (fi 1) = false /\ u = 1 /\
  seq (f32ofI32 GEN u) (fi 1) = false.
Proof. exact f32ofU32_gen_refuted. Qed.
Print Assumptions C89_generic_refuted.

Theorem C89_fromUnsigned_actual : forall p u, u32 u -> p = NEON \/ (p <> GEN /\ u < 2 ^ 31) ->
  is_finite 24 128 (f32ofU32 p u) = true /\ B2R 24 128 (f32ofU32 p u) = rnd32 (IZR u).
Proof. exact f32ofU32_right. Qed.
Print Assumptions C89_fromUnsigned_actual.

Theorem C89_fromUnsigned_sse_actual : forall p u, u32 u -> 2 ^ 31 <= u -> p = SSE2 \/ p = SSE41 \/ p = AVX2 ->
  B2R 24 128 (f32ofU32 p u) = rnd32 (IZR (u - 2 ^ 32)).
Proof. exact f32ofU32_sse. Qed.
Print Assumptions C89_fromUnsigned_sse_actual.

Theorem C89_fromSigned_actual : forall p i, i32 i -> p <> GEN ->
  is_finite 24 128 (f32ofI32 p i) = true /\ B2R 24 128 (f32ofI32 p i) = rnd32 (IZR i).
Proof. exact f32ofI32_right. Qed.
Print Assumptions C89_fromSigned_actual.

Example C89_ex : seq (f32ofU32 NEON 3000000000) (fi 3000000000) = true /\
  seq (f32ofU32 SSE2 3000000000) (fi (-1294967296)) = true /\ seq (f32ofI32 SSE2 (-5)) (fi (-5)) = true.
Proof. vm_compute. auto. Qed.

(** ** C90 *)
Theorem C90_toUnsigned_refuted : exists x : f32, seq x (slit 3 30) = true /\
  u32ofF32 NEON x = Ok (3 * 2 ^ 30) /\ u32ofF32 GEN x = Ok (3 * 2 ^ 30) /\
  u32ofF32 SSE2 x = Ok (2 ^ 31) /\ u32ofF32 SSE41 x = Ok (2 ^ 31) /\ u32ofF32 AVX2 x = Ok (2 ^ 31).
Proof. exact u32ofF32_refuted. Qed.
Print Assumptions C90_toUnsigned_refuted.

Theorem C90_toUnsigned_actual : forall p (x : f32), is_finite 24 128 x = true ->
  (0 <= B2R 24 128 x)%R ->
  (B2R 24 128 x < IZR (if match p with NEON | GEN => true | _ => false end then 2 ^ 32 else 2 ^ 31))%R ->
  exists z, u32ofF32 p x = Ok z /\ (IZR z <= B2R 24 128 x < IZR (z + 1))%R.
Proof. exact u32ofF32_right. Qed.
Print Assumptions C90_toUnsigned_actual.

Theorem C90_toUnsigned_sse_actual : forall p (x : f32), is_finite 24 128 x = true -> (IZR (2 ^ 31) <= B2R 24 128 x)%R ->
  p = SSE2 \/ p = SSE41 \/ p = AVX2 -> u32ofF32 p x = Ok (2 ^ 31).
Proof. exact u32ofF32_sse. Qed.
Print Assumptions C90_toUnsigned_sse_actual.

Example C90_ex : forall p, u32ofF32 p (slit 11 (-2)) = Ok 2.
Proof. intros []; vm_compute; reflexivity. Qed.
