(** The scalar type of the library, [float], abstracted.

    Every floating-point function of the library is modelled once, polymorphically
    over this class, with the operations in the order of the source.  Two instances
    are used: the real numbers (idealised arithmetic) and IEEE-754 binary32 with
    round-to-nearest-even (what /repo's [float] is on its supported targets). *)
From Coq Require Import ZArith Bool Reals.
From Flocq Require Import Core.Core IEEE754.BinarySingleNaN IEEE754.Binary IEEE754.Bits.

(** The code paths selected by the preprocessor in
    /repo/include/math/simd/types.hpp:22-48: x86 with SSE2 only, x86 with SSE4.1, x86
    with AVX2 and FMA, AArch64 NEON, and the generic scalar fallback. *)
Inductive path := SSE2 | SSE41 | AVX2 | NEON | GEN.

Class Scalar (F : Type) := {
  slit : Z -> Z -> F;            (* literal m * 2^e *)
  sadd : F -> F -> F;
  ssub : F -> F -> F;
  smul : F -> F -> F;
  sdiv : F -> F -> F;
  sneg : F -> F;
  sabs : F -> F;
  ssqrt : F -> F;
  sfma : F -> F -> F -> F;       (* fused a * b + c *)
  slt : F -> F -> bool;          (* C++ <, false on NaN *)
  sle : F -> F -> bool;
  seq : F -> F -> bool;
  ssign : F -> bool;             (* sign bit *)
  sfloor : F -> F;
  strunc : F -> option Z         (* truncation to an integer, None on NaN/inf *)
}.

Declare Scope scal_scope.
Delimit Scope scal_scope with sc.
Infix "+" := sadd : scal_scope.
Infix "-" := ssub : scal_scope.
Infix "*" := smul : scal_scope.
Infix "/" := sdiv : scal_scope.
Notation "- x" := (sneg x) : scal_scope.

Section Literals.
  Context {F : Type} {S : Scalar F}.
  (** Small literals used all over the source. *)
  Definition f0 : F := slit 0 0.
  Definition f1 : F := slit 1 0.
  Definition f2 : F := slit 2 0.
  Definition fhalf : F := slit 1 (-1).
  (** FLT_MAX, FLT_MIN and FLT_EPSILON of <cfloat>. *)
  Definition fltMax : F := slit 16777215 104.
  Definition fltMin : F := slit 1 (-126).
  Definition fltEps : F := slit 1 (-23).
  (** C++ > and >= on float. *)
  Definition sgt (a b : F) : bool := slt b a.
  Definition sge (a b : F) : bool := sle b a.
  (** std::isnan *)
  Definition snan (a : F) : bool := negb (seq a a).
  (** std::min / std::max (used by the scalar vectors, e.g.
      /repo/include/math/vector/float.hpp:606-629). *)
  Definition stdmin (a b : F) : F := if slt b a then b else a.
  Definition stdmax (a b : F) : F := if slt a b then b else a.
  (** std::clamp(v, lo, hi); calling it with hi < lo is undefined behaviour, which the
      callers in the model check. *)
  Definition stdclamp (v lo hi : F) : F := if slt v lo then lo else if slt hi v then hi else v.
  (** One lane of the SIMD min/max, /repo/include/math/simd/vector/float.hpp:748-773.
      SSE minps/maxps return the second operand when the comparison is false
      (NaN, equal zeros); NEON fmin/fmax propagate NaN and order -0 below +0; the
      generic path is std::min/std::max. *)
  Definition simdmin (p : path) (a b : F) : F :=
    match p with
    | SSE2 | SSE41 | AVX2 => if slt a b then a else b
    | NEON => if snan a then a else if snan b then b
              else if slt a b then a else if slt b a then b
              else if ssign a then a else b
    | GEN => stdmin a b
    end.
  Definition simdmax (p : path) (a b : F) : F :=
    match p with
    | SSE2 | SSE41 | AVX2 => if slt b a then a else b
    | NEON => if snan a then a else if snan b then b
              else if slt b a then a else if slt a b then b
              else if ssign a then b else a
    | GEN => stdmax a b
    end.
  (** One lane of MATH_SIMD_FMA, /repo/include/math/simd/vector/float.hpp:24-30 and of
      the generic std::fma fallback (836-843). *)
  Definition simdfma (p : path) (a b c : F) : F :=
    match p with
    | SSE2 | SSE41 => (c + a * b)%sc
    | AVX2 => sfma a b c
    | NEON => (c + a * b)%sc
    | GEN => sfma a b c
    end.
End Literals.

(** ** Instance: real numbers *)
Definition Rlit (m e : Z) : R := (IZR m * powerRZ 2 e)%R.

#[global] Instance ScalarR : Scalar R := {
  slit := Rlit;
  sadd := Rplus;
  ssub := Rminus;
  smul := Rmult;
  sdiv := Rdiv;
  sneg := Ropp;
  sabs := Rabs;
  ssqrt := R_sqrt.sqrt;
  sfma := fun a b c => (a * b + c)%R;
  slt := Rlt_bool;
  sle := Rle_bool;
  seq := Req_bool;
  ssign := fun x => Rlt_bool x 0;
  sfloor := fun x => IZR (Zfloor x);
  strunc := fun x => Some (Ztrunc x)
}.

(** ** Instance: IEEE-754 binary32 *)
Definition f32 : Type := binary32.

Definition b32_lit (m e : Z) : f32 :=
  binary_normalize 24 128 eq_refl eq_refl mode_NE m e false.

Definition b32_cmp_is (f : comparison -> bool) (a b : f32) : bool :=
  match b32_compare a b with Some c => f c | None => false end.

(** NaN payloads are those chosen by Flocq's [binop_nan_pl32]/[unop_nan_pl32]; no theorem
    below depends on a payload. *)
#[global] Instance ScalarF32 : Scalar f32 := {
  slit := b32_lit;
  sadd := b32_plus mode_NE;
  ssub := b32_minus mode_NE;
  smul := b32_mult mode_NE;
  sdiv := b32_div mode_NE;
  sneg := b32_opp;
  sabs := b32_abs;
  ssqrt := b32_sqrt mode_NE;
  sfma := b32_fma mode_NE;
  slt := b32_cmp_is (fun c => match c with Lt => true | _ => false end);
  sle := b32_cmp_is (fun c => match c with Gt => false | _ => true end);
  seq := b32_cmp_is (fun c => match c with Eq => true | _ => false end);
  ssign := Bsign 24 128;
  sfloor := Bnearbyint 24 128 eq_refl unop_nan_pl32 mode_DN;
  strunc := fun x => if is_finite 24 128 x then Some (Btrunc 24 128 x) else None
}.
