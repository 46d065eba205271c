(** Model of the SIMD vectors u32x4 (/repo/include/math/simd/vector/uint.hpp) and f32x4
    (/repo/include/math/simd/vector/float.hpp), lane by lane, for each code path. *)
From Coq Require Import ZArith Bool.
From Verif.Model Require Import Scalar Vec.
Local Open Scope Z_scope.

(** ** u32x4: lanes are integers in [0, 2^32) *)
Notation u32x4 := (vec4 Z).

Definition allOnes : Z := 4294967295.
(** A comparison lane: all ones or zero. *)
Definition maskOf (b : bool) : Z := if b then allOnes else 0.

(** uint.hpp:410-439, operators & | ^ *)
Definition uand : u32x4 -> u32x4 -> u32x4 := map2_4 Z.land.
Definition uor : u32x4 -> u32x4 -> u32x4 := map2_4 Z.lor.
Definition uxor : u32x4 -> u32x4 -> u32x4 := map2_4 Z.lxor.
(** uint.hpp:342-345, splat *)
Definition splatX {A} (v : vec4 A) : vec4 A := dup4 (vx v).
Definition splatY {A} (v : vec4 A) : vec4 A := dup4 (vy v).
Definition splatZ {A} (v : vec4 A) : vec4 A := dup4 (vz v).
Definition splatW {A} (v : vec4 A) : vec4 A := dup4 (vw v).

(** _mm_movemask_epi8: the top bits of the four bytes of a lane, and of the 16 bytes. *)
Definition byteTops (x : Z) : Z :=
  Z.b2z (Z.testbit x 7) + 2 * Z.b2z (Z.testbit x 15) + 4 * Z.b2z (Z.testbit x 23)
  + 8 * Z.b2z (Z.testbit x 31).
Definition movemask8 (v : u32x4) : Z :=
  byteTops (vx v) + 16 * byteTops (vy v) + 256 * byteTops (vz v) + 4096 * byteTops (vw v).

Definition zmin4 (v : u32x4) : Z := Z.min (Z.min (vx v) (vy v)) (Z.min (vz v) (vw v)).
Definition zmax4 (v : u32x4) : Z := Z.max (Z.max (vx v) (vy v)) (Z.max (vz v) (vw v)).
Definition uallZero (v : u32x4) : bool :=
  Z.lor (Z.lor (Z.lor (vx v) (vy v)) (vz v)) (vw v) =? 0.

(** uint.hpp:653-662; generic path vector/uint.hpp:795 *)
Definition areAllTrue4 (p : path) (v : u32x4) : bool :=
  match p with
  | SSE2 | SSE41 | AVX2 => movemask8 v =? 65535
  | NEON => zmin4 v =? allOnes
  | GEN => Z.land (Z.land (Z.land (vx v) (vy v)) (vz v)) (vw v) =? allOnes
  end.
(** uint.hpp:666-677; generic path vector/uint.hpp:799 *)
Definition areAllFalse4 (p : path) (v : u32x4) : bool :=
  match p with
  | SSE41 | AVX2 => uallZero v
  | SSE2 => movemask8 v =? 0
  | NEON => zmax4 v =? 0
  | GEN => uallZero v
  end.
(** uint.hpp:681-692; generic path vector/uint.hpp:803 *)
Definition areAnyTrue4 (p : path) (v : u32x4) : bool :=
  match p with
  | SSE41 | AVX2 => negb (uallZero v)
  | SSE2 => negb (movemask8 v =? 0)
  | NEON => negb (zmax4 v =? 0)
  | GEN => negb (uallZero v)
  end.
(** uint.hpp:696-705; generic path vector/uint.hpp:807 *)
Definition areAnyFalse4 (p : path) (v : u32x4) : bool :=
  match p with
  | SSE2 | SSE41 | AVX2 => negb (movemask8 v =? 65535)
  | NEON => negb (zmin4 v =? allOnes)
  | GEN => negb (Z.land (Z.land (Z.land (vx v) (vy v)) (vz v)) (vw v) =? allOnes)
  end.
(** uint.hpp:639-649; generic path vector/uint.hpp:788-791 *)
Definition getTrues4 (v : u32x4) : Z :=
  Z.b2z (Z.testbit (vx v) 31) + 2 * Z.b2z (Z.testbit (vy v) 31)
  + 4 * Z.b2z (Z.testbit (vz v) 31) + 8 * Z.b2z (Z.testbit (vw v) 31).

(** One lane of select: the top bit of the condition lane decides (uint.hpp:772-787,
    float.hpp:728-740; generic paths vector/uint.hpp:847-851, vector/float.hpp:1152-1156). *)
Definition sel {A} (c : Z) (t f : A) : A := if Z.testbit c 31 then t else f.
Definition select4 {A} (c : u32x4) (t f : vec4 A) : vec4 A :=
  V4 (sel (vx c) (vx t) (vx f)) (sel (vy c) (vy t) (vy f))
     (sel (vz c) (vz t) (vz f)) (sel (vw c) (vw t) (vw f)).

(** ** f32x4 *)
Section Float.
  Context {F : Type} {S : Scalar F} (p : path).
  Notation f32x4 := (vec4 F).

  (** float.hpp:122-133: f32x4(xyz, w) *)
  Definition withW (v : f32x4) (w : F) : f32x4 := V4 (vx v) (vy v) (vz v) w.
  (** float.hpp:106-115, 190-199: three components, the fourth lane repeats z *)
  Definition of3 (x y z : F) : f32x4 := V4 x y z z.
  Definition ofFloat3 (v : vec3 F) : f32x4 := of3 (x3 v) (y3 v) (z3 v).

  (** float.hpp:435-484 *)
  Definition vadd : f32x4 -> f32x4 -> f32x4 := map2_4 sadd.
  Definition vsub : f32x4 -> f32x4 -> f32x4 := map2_4 ssub.
  Definition vmul : f32x4 -> f32x4 -> f32x4 := map2_4 smul.
  Definition vdiv : f32x4 -> f32x4 -> f32x4 := map2_4 sdiv.
  Definition vneg : f32x4 -> f32x4 := map_4 sneg.
  (** float.hpp:485-495 (v op n); NEON's vmulq_n_f32 is the same lane-wise product *)
  Definition vscale (v : f32x4) (n : F) : f32x4 := vmul v (dup4 n).
  Definition vdivn (v : f32x4) (n : F) : f32x4 := vdiv v (dup4 n).

  (** float.hpp:528-567: comparisons give lane masks; false on NaN *)
  Definition vlt : f32x4 -> f32x4 -> u32x4 := map2_4 (fun a b => maskOf (slt a b)).
  Definition vgt : f32x4 -> f32x4 -> u32x4 := map2_4 (fun a b => maskOf (sgt a b)).
  Definition vle : f32x4 -> f32x4 -> u32x4 := map2_4 (fun a b => maskOf (sle a b)).
  Definition vge : f32x4 -> f32x4 -> u32x4 := map2_4 (fun a b => maskOf (sge a b)).
  (** float.hpp:686-711 *)
  Definition veq : f32x4 -> f32x4 -> u32x4 := map2_4 (fun a b => maskOf (seq a b)).
  Definition vne : f32x4 -> f32x4 -> u32x4 := map2_4 (fun a b => maskOf (negb (seq a b))).

  (** float.hpp:748-773 *)
  Definition vmin : f32x4 -> f32x4 -> f32x4 := map2_4 (simdmin p).
  Definition vmax : f32x4 -> f32x4 -> f32x4 := map2_4 (simdmax p).

  (** swizzle<Y,U,W,U>, <Z,U,U,U> and <Y,U,Z,U> with U = Z lane (float.hpp:357-372) *)
  Definition swYUWU {A} (v : vec4 A) : vec4 A := V4 (vy v) (vz v) (vw v) (vz v).
  Definition swZUUU {A} (v : vec4 A) : vec4 A := V4 (vz v) (vz v) (vz v) (vz v).
  Definition swYUZU {A} (v : vec4 A) : vec4 A := V4 (vy v) (vz v) (vz v) (vz v).
  (** float.hpp:779-815 *)
  Definition vmin4 (v : f32x4) : F :=
    let m := vmin v (swYUWU v) in vx (vmin m (swZUUU m)).
  Definition vmax4 (v : f32x4) : F :=
    let m := vmax v (swYUWU v) in vx (vmax m (swZUUU m)).
  Definition vmin3 (v : f32x4) : F :=
    let m := vmin v (swYUZU v) in vx (vmin m (swZUUU m)).
  Definition vmax3 (v : f32x4) : F :=
    let m := vmax v (swYUZU v) in vx (vmax m (swZUUU m)).

  (** float.hpp:824-827 *)
  Definition vclamp (v mn mx : f32x4) : f32x4 := vmax (vmin v mx) mn.
  (** float.hpp:836-843 *)
  Definition vfma (a b c : f32x4) : f32x4 :=
    V4 (simdfma p (vx a) (vx b) (vx c)) (simdfma p (vy a) (vy b) (vy c))
       (simdfma p (vz a) (vz b) (vz c)) (simdfma p (vw a) (vw b) (vw c)).
  (** float.hpp:848-860, 865-874 *)
  Definition vabs : f32x4 -> f32x4 := map_4 sabs.
  Definition vsqrt : f32x4 -> f32x4 := map_4 ssqrt.

  (** float.hpp:986-995.  _mm_dp_ps sums (p0+p1)+(p2+p3); vaddvq_f32 sums pairwise; the
      generic and plain SSE2 code uses vector/float.hpp:1287. *)
  Definition dot4 (a b : f32x4) : F :=
    match p with
    | SSE41 | AVX2 | NEON =>
        ((vx a * vx b + vy a * vy b) + (vz a * vz b + vw a * vw b))%sc
    | SSE2 | GEN => dotp4 a b
    end.
  (** float.hpp:1019-1028: masked lanes contribute +0 *)
  Definition dot3 (a b : f32x4) : F :=
    match p with
    | SSE41 | AVX2 | NEON => ((vx a * vx b + vy a * vy b) + (vz a * vz b + f0))%sc
    | SSE2 | GEN => dotp3 (xyz a) (xyz b)
    end.
  (** float.hpp:1036-1051: shuffles b.yzxx*a - a.yzxx*b, then .yzxx; the generic path is
      vector/float.hpp:983-986 with w = z *)
  Definition swYZXX {A} (v : vec4 A) : vec4 A := V4 (vy v) (vz v) (vx v) (vx v).
  Definition cross3 (a b : f32x4) : f32x4 :=
    match p with
    | GEN => ofFloat3 (crossp (xyz a) (xyz b))
    | _ => swYZXX (vsub (vmul (swYZXX b) a) (vmul (swYZXX a) b))
    end.
  (** float.hpp:1057, 1077 *)
  Definition lengthSq4 (v : f32x4) : F := dot4 v v.
  Definition lengthSq3 (v : f32x4) : F := dot3 v v.
  (** float.hpp:1062-1071, 1082-1091 *)
  Definition length4 (v : f32x4) : F := ssqrt (dot4 v v).
  Definition length3 (v : f32x4) : F := ssqrt (dot3 v v).
  (** float.hpp:1099-1121 *)
  Definition distanceSq3 (a b : f32x4) : F := lengthSq3 (vsub a b).
  Definition distancev3 (a b : f32x4) : F := length3 (vsub a b).
  (** float.hpp:1127-1136 *)
  Definition normalize4 (v : f32x4) : f32x4 :=
    match p with
    | SSE41 | AVX2 | NEON => vdiv v (dup4 (ssqrt (dot4 v v)))
    | SSE2 | GEN => normalizep4 v
    end.
  (** float.hpp:1141-1151 *)
  Definition normalize3 (v : f32x4) : f32x4 :=
    match p with
    | SSE41 | AVX2 | NEON => vdiv v (dup4 (ssqrt (dot3 v v)))
    | SSE2 | GEN => ofFloat3 (normalizep3 (xyz v))
    end.
  (** float.hpp:1159-1172: isNormalized3/4 with the default tolerance 1.0e-6f
      (the binary32 value nearest to 1e-6) *)
  Definition isNormalized3 (v : f32x4) : bool :=
    sle (sabs (lengthSq3 v - f1)%sc) (slit 8796093 (-43)).
  Definition isNormalized4 (v : f32x4) : bool :=
    sle (sabs (lengthSq4 v - f1)%sc) (slit 8796093 (-43)).
  (** float.hpp:1359: a * (1 - t) + b * t *)
  Definition vlerp (a b : f32x4) (t : F) : f32x4 :=
    vadd (vscale a (f1 - t)%sc) (vscale b t).
End Float.
