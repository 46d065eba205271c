(** Spherical harmonics, sh.hpp.  An array of floats is a list; an array declared without
    initialiser holds [None]; reading it before writing is undefined behaviour, as is any index
    outside it. *)
From Coq Require Import ZArith Bool List.
From Verif.Model Require Import Outcome Scalar Vec Simd Matrix Trig Numeric Bvh.
Import ListNotations.
Local Open Scope Z_scope.
Local Open Scope outcome_scope.

(** ibl.hpp:46, 50 *)
Definition shBandCount : Z := 3.
Definition shCoeffCount : Z := 9.
(** sh.hpp:63-66 *)
Definition shIndex (m l : Z) : Z := l * (l + 1) + m.

(** for (i = a; i < b; i++) *)
Definition range (a b : Z) : list Z := map (Z.add a) (iota (b - a)).
Fixpoint forEach {St} (is : list Z) (f : Z -> St -> outcome St) (s : St) : outcome St :=
  match is with [] => Ok s | i :: is' => s' <- f i s ;; forEach is' f s' end.

Section Sh.
  Context {F : Type} {S : Scalar F} {T : Trig F} {P : Pow F}.

  Definition cells := list (option F).
  Definition readCell (a : cells) (i : Z) : outcome F :=
    o <- readAt a i ;; match o with Some x => Ok x | None => UB end.
  Definition writeCell (a : cells) (i : Z) (x : F) : outcome cells := writeAt a i (Some x).
  (** a[i] *= k *)
  Definition scaleCell (a : cells) (i : Z) (k : F) : outcome cells :=
    x <- readCell a i ;; writeCell a i (x * k)%sc.

  (** sh.hpp:80-120; s is the direction, the result starts uninitialised *)
  Definition ofInt (n : Z) : F := slit n 0.
  Definition basisZonal (s : vec3 F) (a : cells) : outcome cells :=
    a <- writeCell a 0 f1 ;;
    r <- forEach (range 1 shBandCount) (fun l st =>
           let '(a, pml2, pml1) := st in
           let pml := ((ofInt (2 * l - 1) * pml1 * z3 s - ofInt (l - 1) * pml2) / ofInt l)%sc in
           a <- writeCell a (shIndex 0 l) pml ;; Ok (a, pml1, pml)) (a, f0, f1) ;;
    Ok (fst (fst r)).
  Definition basisSectoral (s : vec3 F) (a : cells) : outcome cells :=
    r <- forEach (range 1 shBandCount) (fun m st =>
           let '(a, pmm) := st in
           let pmm := (ofInt (1 - 2 * m) * pmm)%sc in
           let pml1 := (ofInt (2 * m + 1) * pmm * z3 s)%sc in
           a <- writeCell a (shIndex (- m) m) pmm ;;
           a <- writeCell a (shIndex m m) pmm ;;
           if m + 1 <? shBandCount then
             a <- writeCell a (shIndex (- m) (m + 1)) pml1 ;;
             a <- writeCell a (shIndex m (m + 1)) pml1 ;;
             Ok (a, pmm)
           else Ok (a, pmm)) (a, f1) ;;
    Ok (fst r).
  Definition basisTrig (s : vec3 F) (a : cells) : outcome cells :=
    r <- forEach (range 1 (shBandCount + 1)) (fun m st =>
           let '(a, cm, sm) := st in
           a <- forEach (range m shBandCount) (fun l a =>
                  a <- scaleCell a (shIndex (- m) l) sm ;;
                  scaleCell a (shIndex m l) cm) a ;;
           Ok (a, (cm * x3 s - sm * y3 s)%sc, (sm * x3 s + cm * y3 s)%sc)) (a, x3 s, y3 s) ;;
    Ok (fst (fst r)).
  Definition computeShBasis (s : vec3 F) : outcome cells :=
    a <- basisZonal s (repeat None 9) ;;
    a <- basisSectoral s a ;;
    basisTrig s a.

  (** sh.hpp:50-61 *)
  Definition ki : list F :=
    [slit 14868421 (-24); slit 8584287 (-23); slit 8584287 (-23); slit 8584287 (-23);
     slit 2399381 (-24); slit 2399381 (-23); slit 2077925 (-22); slit 2399381 (-23); slit 2399381 (-24)].
  (** sh.hpp:42, <cmath> M_SQRT1_2, rounded to float *)
  Definition sqrt3F : F := slit 14529495 (-23).
  Definition sqrtHalfF : F := slit 11863283 (-24).

  (** five floats *)
  Record vec5 := V5 { u0 : F; u1 : F; u2 : F; u3 : F; u4 : F }.
  (** sh.hpp:122-129 *)
  Definition projectVecToSH2K (s : vec3 F) : vec5 :=
    V5 (y3 s * x3 s)%sc (sneg (y3 s * z3 s)%sc)
       (f1 / (f2 * sqrt3F) * (slit 3 0 * z3 s * z3 s - f1))%sc
       (sneg (z3 s * x3 s)%sc) (fhalf * (x3 s * x3 s - y3 s * y3 s))%sc.
  (** sh.hpp:130-137: the matrix is given by its five columns *)
  Definition multiply5 (m0 m1 m2 m3 m4 v : vec5) : vec5 :=
    let row q := (q m0 * u0 v + q m1 * u1 v + q m2 * u2 v + q m3 * u3 v + q m4 * u4 v)%sc in
    V5 (row u0) (row u1) (row u2) (row u3) (row u4).
  (** sh.hpp:140-146; the nine-argument constructor takes rows (matrix/float.hpp:157-163) *)
  Definition rotateBand1 (band1 : vec3 F) (m : mat3 F) : vec3 F :=
    let n := slit (-1) 0 in
    let invA1TimesK := rows3 f0 n f0 f0 f0 f1 n f0 f0 in
    let mn0 := b0 m in let mn1 := b1 m in let mn2 := b2 m in
    let r1OverK := rows3 (sneg (y3 mn0)) (z3 mn0) (sneg (x3 mn0)) (sneg (y3 mn1)) (z3 mn1) (sneg (x3 mn1))
                         (sneg (y3 mn2)) (z3 mn2) (sneg (x3 mn2)) in
    mulv3 r1OverK (mulv3 invA1TimesK band1).
  (** sh.hpp:147-179; [h] is (float)M_SQRT1_2 *)
  Definition rotateBand2With (h : F) (band2 : vec5) (m : mat3 F) : vec5 :=
    let n := slit (-1) 0 in let n2 := slit (-2) 0 in
    let t := multiply5 (V5 f0 f1 f2 f0 f0) (V5 n f0 f0 f0 n2) (V5 f0 sqrt3F f0 f0 f0)
                       (V5 f1 f1 f0 n2 f0) (V5 f2 f1 f0 f0 f0) band2 in
    let p0 := projectVecToSH2K (b0 m) in
    let p1 := projectVecToSH2K (b2 m) in
    let p2 := projectVecToSH2K (scale3 (add3 (b0 m) (b1 m)) h) in
    let p3 := projectVecToSH2K (scale3 (add3 (b0 m) (b2 m)) h) in
    let p4 := projectVecToSH2K (scale3 (add3 (b1 m) (b2 m)) h) in
    multiply5 p0 p1 p2 p3 p4 t.
  Definition rotateBand2 : vec5 -> mat3 F -> vec5 := rotateBand2With sqrtHalfF.
  (** sh.hpp:180-190; all coefficients are read before any is written, so the in-place call of shmin
      is the same function *)
  Record sh9 := SH { s0 : F; s1 : F; s2 : F; s3 : F; s4 : F; s5 : F; s6 : F; s7 : F; s8 : F }.
  Definition rotateSh3Bands (w : sh9) (m : mat3 F) : sh9 :=
    let r := rotateBand1 (V3 (s1 w) (s2 w) (s3 w)) m in
    let q := rotateBand2 (V5 (s4 w) (s5 w) (s6 w) (s7 w) (s8 w)) m in
    SH (s0 w) (x3 r) (y3 r) (z3 r) (u0 q) (u1 q) (u2 q) (u3 q) (u4 q).

  (** sh.hpp:193-202 *)
  Definition sincWindow (l : Z) (w : F) : F :=
    if l =? 0 then f1
    else if sge (ofInt l) w then f0
    else let x := (piF * ofInt l / w)%sc in
         let x := (tsin x / x)%sc in
         (x * x * x * x)%sc.
  (** sh.hpp:203-216, and the same loop over f32x4 in deringingSH 299-309 (scaling all four lanes) *)
  Definition windowing {A} (scale : A -> F -> A) (cutoff : F) (a : list A) : outcome (list A) :=
    let scaleAt a i w := x <- readAt a i ;; writeAt a i (scale x w) in
    forEach (range 0 shBandCount) (fun l a =>
      let w := sincWindow l cutoff in
      a <- scaleAt a (shIndex 0 l) w ;;
      forEach (range 1 (l + 1)) (fun m a =>
        a <- scaleAt a (shIndex (- m) l) w ;;
        scaleAt a (shIndex m l) w) a) a.

  (** sh.hpp:219-230 *)
  Definition caMin : list F :=
    [slit 9465531 (-25); slit (-4098695) (-23); slit 4098695 (-23); slit (-4098695) (-23);
     slit 9164961 (-23); slit (-9164961) (-23); slit 10582785 (-25); slit (-9164961) (-23); slit 9164961 (-24)].
  Definition ca0 : F := slit 9465531 (-25).
  Definition ca2 : F := slit 4098695 (-23).
  Definition ca4 : F := slit 9164961 (-23).
  Definition ca6 : F := slit 10582785 (-25).
  Definition ca8 : F := slit 9164961 (-24).
  (** sh.hpp:232-237: the frame that turns the linear term onto the z axis *)
  Definition shFrame (w : sh9) : mat3 F :=
    let dir := normalizep3 (V3 (sneg (s3 w)) (sneg (s1 w)) (s2 w)) in
    let zAxis := neg3 dir in
    let xAxis := normalizep3 (crossp zAxis (V3 f0 f1 f0)) in
    let yAxis := crossp xAxis zAxis in
    transposep3 (M3 xAxis yAxis (neg3 zAxis)).
  (** sh.hpp:256-268, the Newton iteration, with the number of iterations bounded by [fuel] *)
  Fixpoint newton (fuel : nat) (a b c d z : F) : outcome (F * F) :=
    match fuel with
    | O => OutOfFuel
    | Datatypes.S fuel' =>
      let q := ssqrt (f1 - z * z)%sc in
      let minimum := (a * z * z + b * z + c + d * z * q)%sc in
      let dz := ((z * z - f1) * (d - f2 * d * z * z + (b + f2 * a * z) * q)
                 / (slit 3 0 * d * z - f2 * d * z * z * z - f2 * a * spow (f1 - z * z) (slit 3 (-1))))%sc in
      let z := (z - dz)%sc in
      if sle (sabs z) f1 && sgt (sabs dz) (slit 2748779 (-38)) then newton fuel' a b c d z
      else Ok (minimum, z)
    end.
  (** sh.hpp:217-273: the minimum and the array as it is left *)
  Definition shmin (fuel : nat) (w : sh9) : outcome (F * sh9) :=
    let w := rotateSh3Bands w (shFrame w) in
    let m2max := (ca8 * ssqrt (s8 w * s8 w + s4 w * s4 w))%sc in
    let a := (slit 3 0 * ca6 * s6 w + m2max)%sc in
    let b := (ca2 * s2 w)%sc in
    let c := (ca0 * s0 w - ca6 * s6 w - m2max)%sc in
    let zmin := (sneg b / (f2 * a))%sc in
    let m0minZ := (a * zmin * zmin + b * zmin + c)%sc in
    let m0minB := stdmin (a + b + c)%sc (a - b + c)%sc in
    let m0min := if sgt a f0 && sge zmin (slit (-1) 0) && sle zmin f1 then m0minZ else m0minB in
    let d := (ca4 * ssqrt (s5 w * s5 w + s7 w * s7 w))%sc in
    let minimum := (m0min - fhalf * d)%sc in
    if slt minimum f0 then
      r <- newton fuel a b c d (sneg sqrtHalfF) ;;
      let '(minimum, z) := r in
      Ok (if sgt (sabs z) f1 then stdmin (a + b + c)%sc (a - b + c)%sc else minimum, w)
    else Ok (minimum, w).

  (** sh.hpp:276-310, for any minimum function that may change the array it is given.
      One search: at most [n] bisection steps on one channel. *)
  Context (minOf : list F -> outcome (F * list F)).
  Fixpoint searchCutoff (n : nat) (w : list F) (l r cutoff : F) : outcome F :=
    match n with
    | O => Ok cutoff
    | Datatypes.S n' =>
      if slt (l + slit 13421773 (-27))%sc r then
        let m := (fhalf * (l + r))%sc in
        w <- windowing smul m w ;;
        x <- minOf w ;;
        let '(mn, w) := x in
        let '(l, r) := if slt mn f0 then (l, m) else (m, r) in
        searchCutoff n' w l r (stdmin cutoff l)
      else Ok cutoff
    end.
  (** the cutoff after the three channels; it starts at shBandCount * 4 + 1 *)
  Definition channelOf (a : list (vec4 F)) (c : Z) : list F := map (fun v => lane v c) a.
  Definition deringCutoff (a : list (vec4 F)) : outcome F :=
    forEach (range 0 3) (fun c cutoff =>
      searchCutoff 16 (channelOf a c) (ofInt shBandCount) cutoff cutoff) (ofInt (shBandCount * 4 + 1)).
  Definition deringingSH (a : list (vec4 F)) : outcome (list (vec4 F)) :=
    cutoff <- deringCutoff a ;; windowing scalep4 cutoff a.
End Sh.
Arguments vec5 : clear implicits.
Arguments sh9 : clear implicits.

Section Shader.
  Context {F : Type} {S : Scalar F}.
  (** sh.hpp:312-327 *)
  Definition caShader : list F :=
    [slit 753243 (-23); slit (-10437241) (-26); slit 10437241 (-26); slit (-10437241) (-26);
     slit 5834595 (-24); slit (-5834595) (-24); slit 3368605 (-25); slit (-5834595) (-24); slit 5834595 (-25)].
  Definition shaderPreprocessSH (a : list (vec4 F)) : outcome (list (vec4 F)) :=
    forEach (range 0 shCoeffCount) (fun i a =>
      x <- readAt a i ;; k <- readAt caShader i ;; writeAt a i (scalep4 x k)) a.
End Shader.
(** shmin on the array it is given, as deringingSH calls it *)
Section Dering.
  Context {F : Type} {S : Scalar F} {T : Trig F} {P : Pow F}.
  Definition ofArray (a : list F) : outcome (sh9 F) :=
    match a with [a0; a1; a2; a3; a4; a5; a6; a7; a8] => Ok (SH a0 a1 a2 a3 a4 a5 a6 a7 a8) | _ => UB end.
  Definition toArray (w : sh9 F) : list F := [s0 w; s1 w; s2 w; s3 w; s4 w; s5 w; s6 w; s7 w; s8 w].
  Definition shminArray (fuel : nat) (a : list F) : outcome (F * list F) :=
    w <- ofArray a ;; r <- shmin fuel w ;; Ok (fst r, toArray (snd r)).
  Definition dering (fuel : nat) : list (vec4 F) -> outcome (list (vec4 F)) := deringingSH (shminArray fuel).
End Dering.
