(** Model of lane access on the SIMD vectors f32x4, i32x4 and u32x4 (construction, reading,
    writing, storing, swizzling), of indexing the plain vectors, and of the integer operators
    with one number operand, compound assignment and the integer vector constants.

    A 128-bit register is the four lanes from the lowest address up.  The three SIMD types share
    their shapes; [A] is the lane type.  The casts between uint32 and int inside the SSE
    constructors (simd/vector/uint.hpp:70, 147, 161) keep the bits and are left out. *)
From Coq Require Import ZArith Bool List.
From Verif.Model Require Import Outcome Scalar Vec Simd IntVec SimdInt MatrixMore.
Import ListNotations.
Local Open Scope Z_scope.
Local Open Scope outcome_scope.

(** _mm_set_ps and _mm_set_epi32 take the highest lane first: simd/vector/float.hpp:179 *)
Definition mmSet {A} (e3 e2 e1 e0 : A) : vec4 A := V4 e0 e1 e2 e3.
(** _mm_blend_ps and _mm_blend_epi32: bit i of the mask takes lane i of the second operand:
    simd/vector/float.hpp:124 *)
Definition mmBlend {A} (a b : vec4 A) (mask : Z) : vec4 A :=
  V4 (if Z.testbit mask 0 then vx b else vx a) (if Z.testbit mask 1 then vy b else vy a)
     (if Z.testbit mask 2 then vz b else vz a) (if Z.testbit mask 3 then vw b else vw a).

(** One value in every lane: simd/vector/float.hpp:70-79, simd/vector/int.hpp:61-70,
    simd/vector/uint.hpp:67-76 *)
Definition simdAll {A} (x : A) : vec4 A := dup4 x.
(** Four values: simd/vector/float.hpp:88-97, simd/vector/int.hpp:79-88, simd/vector/uint.hpp:85-94 *)
Definition simd4 {A} (p : path) (x y z w : A) : vec4 A :=
  match p with SSE2 | SSE41 | AVX2 => mmSet w z y x | NEON | GEN => V4 x y z w end.
(** Three values, the third repeated: simd/vector/float.hpp:106-115, simd/vector/int.hpp:97-106,
    simd/vector/uint.hpp:103-112 *)
Definition simd3 {A} (p : path) (x y z : A) : vec4 A :=
  match p with SSE2 | SSE41 | AVX2 => mmSet z z y x | NEON | GEN => V4 x y z z end.
(** Three lanes and a fourth value: simd/vector/float.hpp:121-132 *)
Definition simdWithW {A} (p : path) (v : vec4 A) (w : A) : vec4 A :=
  match p with
  | SSE41 | AVX2 => mmBlend v (dup4 w) 8
  | SSE2 => mmSet w (vz v) (vy v) (vx v)
  | NEON | GEN => V4 (vx v) (vy v) (vz v) w
  end.
(** The integer versions blend with AVX2 only: simd/vector/int.hpp:113-124,
    simd/vector/uint.hpp:119-130 *)
Definition simdWithWi {A} (p : path) (v : vec4 A) (w : A) : vec4 A :=
  match p with
  | AVX2 => mmBlend v (dup4 w) 8
  | SSE2 | SSE41 => mmSet w (vz v) (vy v) (vx v)
  | NEON | GEN => V4 (vx v) (vy v) (vz v) w
  end.
(** From the plain vectors: simd/vector/float.hpp:176-185, 190-199, 204-213; simd/vector/int.hpp:153-162,
    167-176, 181-190; simd/vector/uint.hpp:144-153, 158-167, 172-181 *)
Definition simdOf4 {A} (p : path) (v : vec4 A) : vec4 A :=
  match p with SSE2 | SSE41 | AVX2 => mmSet (vw v) (vz v) (vy v) (vx v) | NEON | GEN => v end.
Definition simdOf3 {A} (p : path) (v : vec3 A) : vec4 A :=
  match p with
  | SSE2 | SSE41 | AVX2 => mmSet (z3 v) (z3 v) (y3 v) (x3 v)
  | NEON => V4 (x3 v) (y3 v) (z3 v) (z3 v)
  | GEN => ctor4_xyz_w v (z3 v)
  end.
Definition simdOf2 {A} (p : path) (v : vec2 A) : vec4 A :=
  match p with
  | SSE2 | SSE41 | AVX2 => mmSet (y2 v) (y2 v) (y2 v) (x2 v)
  | NEON => V4 (x2 v) (y2 v) (y2 v) (y2 v)
  | GEN => ctor4_xy_z_w v (y2 v) (y2 v)
  end.
(** Back to the plain vectors: simd/vector/float.hpp:420, 424, 428, 432; simd/vector/int.hpp:385-397,
    simd/vector/uint.hpp:361-373 *)
Definition plain4 {A} (v : vec4 A) : vec4 A := v.
Definition plain3 {A} (v : vec4 A) : vec3 A := V3 (vx v) (vy v) (vz v).
Definition plain2 {A} (v : vec4 A) : vec2 A := xy_of4 v.

(** store and storeAligned, the memory from the lowest address up: simd/vector/float.hpp:249-271,
    simd/vector/int.hpp:226-250, simd/vector/uint.hpp:217-241 *)
Definition storeLanes {A} (v : vec4 A) : list A := [vx v; vy v; vz v; vw v].

(** getX .. getW: simd/vector/float.hpp:276-321, simd/vector/int.hpp:255-297,
    simd/vector/uint.hpp:246-288 *)
Inductive lane := LX | LY | LZ | LW.
Definition getLane {A} (l : lane) (v : vec4 A) : A :=
  match l with LX => vx v | LY => vy v | LZ => vz v | LW => vw v end.
(** setX .. setW: simd/vector/float.hpp:326, 331, 336, 341; simd/vector/int.hpp:303, 308, 313, 318;
    simd/vector/uint.hpp:294, 299, 304, 309 *)
Definition setLane {A} (l : lane) (v : vec4 A) (a : A) : vec4 A :=
  match l with
  | LX => V4 a (vy v) (vz v) (vw v)
  | LY => V4 (vx v) a (vz v) (vw v)
  | LZ => V4 (vx v) (vy v) a (vw v)
  | LW => V4 (vx v) (vy v) (vz v) a
  end.
(** fixW: simd/vector/float.hpp:347, simd/vector/int.hpp:324, simd/vector/uint.hpp:315 *)
Definition fixW {A} (v : vec4 A) : vec4 A := setLane LW v (getLane LZ v).

(** operator[]: an assertion in debug builds, then the memory: vector/float.hpp:65-78, 217-230,
    418-431; vector/int.hpp:58-71, 214-227, 415-428; vector/uint.hpp:61-74, 199-212, 374-387; the
    SIMD vectors forward to the plain ones. *)
Definition index2 {A} (debug : bool) (v : vec2 A) : Z -> outcome A := column debug 1 [x2 v; y2 v].
Definition index3 {A} (debug : bool) (v : vec3 A) : Z -> outcome A := column debug 2 [x3 v; y3 v; z3 v].
Definition index4 {A} (debug : bool) (v : vec4 A) : Z -> outcome A :=
  column debug 3 [vx v; vy v; vz v; vw v].
(** Writing through operator[] (the reference version) *)
Definition laneNumbered (i : Z) : option lane :=
  if i =? 0 then Some LX else if i =? 1 then Some LY else if i =? 2 then Some LZ
  else if i =? 3 then Some LW else None.
Definition setIndex {A} (debug : bool) (v : vec4 A) (i : Z) (a : A) : outcome (vec4 A) :=
  if debug && negb (i <=? 3) then Abort
  else match laneNumbered i with Some l => Ok (setLane l v a) | None => UB end.

(** swizzle<X, Y, Z, W>: simd/vector/float.hpp:358-373, simd/vector/int.hpp:335-350,
    simd/vector/uint.hpp:325-340.  _MM_SHUFFLE packs the indices two bits each; the shuffle
    instruction unpacks them.  An index above 3 does not compile (static_assert). *)
Definition mmShuffleImm (z y x w : Z) : Z :=
  Z.lor (Z.lor (Z.lor (Z.shiftl z 6) (Z.shiftl y 4)) (Z.shiftl x 2)) w.
Definition pick {A} (v : vec4 A) (i : Z) : A :=
  if i =? 0 then vx v else if i =? 1 then vy v else if i =? 2 then vz v else vw v.
Definition mmShuffle {A} (v : vec4 A) (imm : Z) : vec4 A :=
  let field k := Z.land (Z.shiftr imm k) 3 in
  V4 (pick v (field 0)) (pick v (field 2)) (pick v (field 4)) (pick v (field 6)).
Definition swizzle {A} (p : path) (X Y Z' W : Z) (v : vec4 A) : vec4 A :=
  match p with
  | SSE2 | SSE41 | AVX2 => mmShuffle v (mmShuffleImm W Z' Y X)
  | NEON | GEN => V4 (pick v X) (pick v Y) (pick v Z') (pick v W)
  end.

(** A sequence of writes to one vector *)
Inductive write (A : Type) :=
| WLane (l : lane) (a : A)     (* setX .. setW *)
| WIndex (i : Z) (a : A)       (* v[i] = a *)
| WAll (a : A)                 (* v = f32x4(a) *)
| WFixW.                       (* v.fixW() *)
Arguments WLane {A} l a.
Arguments WIndex {A} i a.
Arguments WAll {A} a.
Arguments WFixW {A}.
Definition doWrite {A} (debug : bool) (v : vec4 A) (w : write A) : outcome (vec4 A) :=
  match w with
  | WLane l a => Ok (setLane l v a)
  | WIndex i a => setIndex debug v i a
  | WAll a => Ok (simdAll a)
  | WFixW => Ok (fixW v)
  end.
Fixpoint doWrites {A} (debug : bool) (v : vec4 A) (h : list (write A)) : outcome (vec4 A) :=
  match h with
  | [] => Ok v
  | w :: h' => v' <- doWrite debug v w;; doWrites debug v' h'
  end.

(** ** Integer operators with a number *)
(** v op n: vector/uint.hpp:92-101, 234-243, 413-422 *)
Definition uintOpN2 (o : iop) (v : vec2 Z) (n : Z) : outcome (vec2 Z) :=
  seqO2 (V2 (ulane o (x2 v) n) (ulane o (y2 v) n)).
Definition uintOpN3 (o : iop) (v : vec3 Z) (n : Z) : outcome (vec3 Z) :=
  seqO3 (V3 (ulane o (x3 v) n) (ulane o (y3 v) n) (ulane o (z3 v) n)).
Definition uintOpN4 (o : iop) (v : vec4 Z) (n : Z) : outcome (vec4 Z) :=
  seqO4 (V4 (ulane o (vx v) n) (ulane o (vy v) n) (ulane o (vz v) n) (ulane o (vw v) n)).
(** vector/int.hpp:97-106, 261-270, 469-478 *)
Definition intOpN2 (o : iop) (v : vec2 Z) (n : Z) : outcome (vec2 Z) :=
  seqO2 (V2 (ilane o (x2 v) n) (ilane o (y2 v) n)).
Definition intOpN3 (o : iop) (v : vec3 Z) (n : Z) : outcome (vec3 Z) :=
  seqO3 (V3 (ilane o (x3 v) n) (ilane o (y3 v) n) (ilane o (z3 v) n)).
Definition intOpN4 (o : iop) (v : vec4 Z) (n : Z) : outcome (vec4 Z) :=
  seqO4 (V4 (ilane o (vx v) n) (ilane o (vy v) n) (ilane o (vz v) n) (ilane o (vw v) n)).
(** n op v: vector/uint.hpp:480-489, 621-630, 759-768 *)
Definition nUintOp2 (o : iop) (n : Z) (v : vec2 Z) : outcome (vec2 Z) := uintOp2 o (dup2 n) v.
Definition nUintOp3 (o : iop) (n : Z) (v : vec3 Z) : outcome (vec3 Z) := uintOp3 o (dup3 n) v.
Definition nUintOp4 (o : iop) (n : Z) (v : vec4 Z) : outcome (vec4 Z) := uintOp4 o (dup4 n) v.
(** vector/int.hpp:540-549, 648-657, 762-771 *)
Definition nIntOp2 (o : iop) (n : Z) (v : vec2 Z) : outcome (vec2 Z) := intOp2 o (dup2 n) v.
Definition nIntOp3 (o : iop) (n : Z) (v : vec3 Z) : outcome (vec3 Z) := intOp3 o (dup3 n) v.
Definition nIntOp4 (o : iop) (n : Z) (v : vec4 Z) : outcome (vec4 Z) := intOp4 o (dup4 n) v.

(** v op= w, one lane after the other in place; [w] is a copy: vector/uint.hpp:105-114, 247-256,
    426-435; vector/int.hpp:110-119, 274-283, 482-491.  v op= n passes the number for every lane:
    vector/uint.hpp:115-124, 257-266, 436-445; vector/int.hpp:120-129, 284-293, 492-501. *)
Definition assign2 (f : Z -> Z -> outcome Z) (v w : vec2 Z) : outcome (vec2 Z) :=
  a <- f (x2 v) (x2 w);; let v := V2 a (y2 v) in
  b <- f (y2 v) (y2 w);; Ok (V2 (x2 v) b).
Definition assign3 (f : Z -> Z -> outcome Z) (v w : vec3 Z) : outcome (vec3 Z) :=
  a <- f (x3 v) (x3 w);; let v := V3 a (y3 v) (z3 v) in
  b <- f (y3 v) (y3 w);; let v := V3 (x3 v) b (z3 v) in
  c <- f (z3 v) (z3 w);; Ok (V3 (x3 v) (y3 v) c).
Definition assign4 (f : Z -> Z -> outcome Z) (v w : vec4 Z) : outcome (vec4 Z) :=
  a <- f (vx v) (vx w);; let v := setLane LX v a in
  b <- f (vy v) (vy w);; let v := setLane LY v b in
  c <- f (vz v) (vz w);; let v := setLane LZ v c in
  d <- f (vw v) (vw w);; Ok (setLane LW v d).

(** v cmp n and n cmp v: vector/uint.hpp:144-149, 286-291, 469-474, 490-495, 631-636, 769-774;
    vector/int.hpp:149-154, 313-318, 525-530, 550-555, 658-663, 772-777 *)
Definition compareN2 (c : cmp) (v : vec2 Z) (n : Z) : vec2 Z := compare2 c v (dup2 n).
Definition compareN3 (c : cmp) (v : vec3 Z) (n : Z) : vec3 Z := compare3 c v (dup3 n).
Definition compareN4 (c : cmp) (v : vec4 Z) (n : Z) : vec4 Z := compare4 c v (dup4 n).
Definition nCompare2 (c : cmp) (n : Z) (v : vec2 Z) : vec2 Z := compare2 c (dup2 n) v.
Definition nCompare3 (c : cmp) (n : Z) (v : vec3 Z) : vec3 Z := compare3 c (dup3 n) v.
Definition nCompare4 (c : cmp) (n : Z) (v : vec4 Z) : vec4 Z := compare4 c (dup4 n) v.

(** The SIMD vectors with a number: shifts have their own instruction, the rest spread the number
    first.  simd/vector/uint.hpp:502-509, 609-625, 475-494; simd/vector/int.hpp:535-542, 645-660 *)
Definition u32OpN (p : path) (o : iop) (v : vec4 Z) (n : Z) : outcome (vec4 Z) :=
  match o with
  | OShl => seqO4 (map_4 (fun a => u32shiftN p true a n) v)
  | OShr => seqO4 (map_4 (fun a => u32shiftN p false a n) v)
  | _ => u32Op p o v (simdAll n)
  end.
Definition nU32Op (p : path) (o : iop) (n : Z) (v : vec4 Z) : outcome (vec4 Z) := u32Op p o (simdAll n) v.
Definition i32OpN (p : path) (o : iop) (v : vec4 Z) (n : Z) : outcome (vec4 Z) :=
  match o with
  | OShl => seqO4 (map_4 (fun a => i32shiftN p true a n) v)
  | OShr => seqO4 (map_4 (fun a => i32shiftN p false a n) v)
  | _ => i32Op p o v (simdAll n)
  end.
Definition nI32Op (p : path) (o : iop) (n : Z) (v : vec4 Z) : outcome (vec4 Z) := i32Op p o (simdAll n) v.

(** ** Constants *)
(** vector/uint.hpp:154-155, 296-297, 477-478 *)
Definition uintZero2 : vec2 Z := dup2 0.
Definition uintOne2 : vec2 Z := dup2 1.
Definition uintZero3 : vec3 Z := dup3 0.
Definition uintOne3 : vec3 Z := dup3 1.
(** vector/int.hpp:159-165 *)
Definition intZero2 : vec2 Z := dup2 0.
Definition intOne2 : vec2 Z := dup2 1.
Definition intMinusOne2 : vec2 Z := dup2 (-1).
Definition intLeft2 : vec2 Z := V2 (-1) 0.
Definition intRight2 : vec2 Z := V2 1 0.
Definition intBottom2 : vec2 Z := V2 0 (-1).
Definition intTop2 : vec2 Z := V2 0 1.
(** vector/int.hpp:323-331 *)
Definition intZero3 : vec3 Z := dup3 0.
Definition intOne3 : vec3 Z := dup3 1.
Definition intMinusOne3 : vec3 Z := dup3 (-1).
Definition intLeft3 : vec3 Z := V3 (-1) 0 0.
Definition intRight3 : vec3 Z := V3 1 0 0.
Definition intBottom3 : vec3 Z := V3 0 (-1) 0.
Definition intTop3 : vec3 Z := V3 0 1 0.
Definition intBack3 : vec3 Z := V3 0 0 (-1).
Definition intFront3 : vec3 Z := V3 0 0 1.
