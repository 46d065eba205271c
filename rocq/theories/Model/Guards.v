(** Model of the members of Aabb whose bodies begin with an assertion, with the assertion kept:
    /repo/include/math/aabb.hpp:51-98, 120-167, 188-199, 222-257.  [debug] is true when NDEBUG is not
    defined; a failed assertion is [Abort]. *)
From Coq Require Import ZArith Bool List.
From Verif.Model Require Import Outcome Scalar Vec Simd Aabb FloatVec.
Import ListNotations.

Section Guards.
  Context {F : Type} {S : Scalar F} (debug : bool) (p : path).
  Notation f32x4 := (vec4 F).

  (** assert(c), then the rest of the function: aabb.hpp:53 and the others *)
  Definition checked {A} (c : bool) (r : A) : outcome A := if debug && negb c then Abort else Ok r.
  (** the argument of the assertion in aabb.hpp:53, 74, 84, 97 *)
  Definition cornersOk (mn mx : f32x4) : bool := areAllTrue4 p (vle (withW mn f0) (withW mx f1)).
  (** the argument of the assertion in aabb.hpp:122, 134, 154, 165; the number is spread over the
      lanes, simd/vector/float.hpp operator>=(f32x4, float) *)
  Definition sizeOk (size : f32x4) : bool := areAllTrue4 p (vge (withW size f1) (dup4 f0)).

  (** aabb.hpp:51-54 *)
  Definition newBox (mn mx : f32x4) : outcome (aabb F) := checked (cornersOk mn mx) (mkAabb mn mx).
  (** aabb.hpp:72-76 *)
  Definition setMinC (b : aabb F) (mn : f32x4) : outcome (aabb F) :=
    checked (cornersOk mn (bmax b)) (mkAabb mn (bmax b)).
  (** aabb.hpp:82-86 *)
  Definition setMaxC (b : aabb F) (mx : f32x4) : outcome (aabb F) :=
    checked (cornersOk (bmin b) mx) (mkAabb (bmin b) mx).
  (** aabb.hpp:95-99 *)
  Definition setC (b : aabb F) (mn mx : f32x4) : outcome (aabb F) := checked (cornersOk mn mx) (mkAabb mn mx).
  (** aabb.hpp:120-125, 132-137 *)
  Definition setSize1C (size : f32x4) : outcome (aabb F) := checked (sizeOk size) (setSize1 size).
  Definition setSizeC (size position : f32x4) : outcome (aabb F) := checked (sizeOk size) (setSize size position).
  (** aabb.hpp:152-156, 163-167 *)
  Definition setExtent1C (extent : f32x4) : outcome (aabb F) := checked (sizeOk extent) (setExtent1 extent).
  Definition setExtentC (extent position : f32x4) : outcome (aabb F) := checked (sizeOk extent) (setExtent extent position).
  (** aabb.hpp:250-253: the result goes through the constructor *)
  Definition mulBoxC (b : aabb F) (v : f32x4) : outcome (aabb F) := newBox (vmul (bmin b) v) (vmul (bmax b) v).
  Definition divBoxC (b : aabb F) (v : f32x4) : outcome (aabb F) := newBox (vdiv (bmin b) v) (vdiv (bmax b) v).
  Definition addBoxC (b : aabb F) (v : f32x4) : outcome (aabb F) := newBox (vadd (bmin b) v) (vadd (bmax b) v).
  Definition subBoxC (b : aabb F) (v : f32x4) : outcome (aabb F) := newBox (vsub (bmin b) v) (vsub (bmax b) v).

  (** one call of a member of Aabb; the last four are the compound operators (and translate, scale) *)
  Inductive call :=
  | SetMin (mn : f32x4) | SetMax (mx : f32x4) | SetBoth (mn mx : f32x4)
  | SetSize1 (size : f32x4) | SetSize (size position : f32x4)
  | SetExtent1 (extent : f32x4) | SetExtent (extent position : f32x4)
  | ExtendPoint (point : f32x4) | ExtendBox (o : aabb F)
  | BinMul (v : f32x4) | BinDiv (v : f32x4) | BinAdd (v : f32x4) | BinSub (v : f32x4)
  | MulBy (v : f32x4) | DivBy (v : f32x4) | AddBy (v : f32x4) | SubBy (v : f32x4).

  (** aabb.hpp:72-99, 120-167, 188-199, 222, 227, 250-257; the binary operators stand for b = b op v *)
  Definition runCall (b : aabb F) (c : call) : outcome (aabb F) :=
    match c with
    | SetMin mn => setMinC b mn
    | SetMax mx => setMaxC b mx
    | SetBoth mn mx => setC b mn mx
    | SetSize1 s => setSize1C s
    | SetSize s q => setSizeC s q
    | SetExtent1 e => setExtent1C e
    | SetExtent e q => setExtentC e q
    | ExtendPoint q => Ok (extendPoint p b q)
    | ExtendBox o => Ok (extendBox p b o)
    | BinMul v => mulBoxC b v
    | BinDiv v => divBoxC b v
    | BinAdd v => addBoxC b v
    | BinSub v => subBoxC b v
    | MulBy v => Ok (scaleBox b v)
    | DivBy v => Ok (divBox b v)
    | AddBy v => Ok (translateBox b v)
    | SubBy v => Ok (subBox b v)
    end.
  (** a sequence of calls on one object: aabb.hpp:72-257 *)
  Fixpoint runCalls (b : aabb F) (l : list call) : outcome (aabb F) :=
    match l with
    | [] => Ok b
    | c :: l => bind (runCall b c) (fun b => runCalls b l)
    end.
End Guards.

(** aabb.hpp:269: Aabb::inf; f32x4::inf and f32x4::minusInf, simd/vector/float.hpp *)
Definition aabbInf : aabb f32 := mkAabb (const4 KMinusInf) (const4 KInf).
