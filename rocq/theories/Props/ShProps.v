(** C77, C78, C79, C102 - C105: spherical harmonics. *)
From Coq Require Import ZArith Reals Bool List Lia Lra.
From Flocq Require Import Core.Core IEEE754.BinarySingleNaN IEEE754.Binary IEEE754.Bits.
From Verif.Model Require Import Outcome Scalar Vec Simd Matrix Trig Numeric Sh.
From Verif.Spec Require Import IblSpec ShSpec SphereSpec.
From Verif.Proofs Require Import RealLits ShProofs HarmonicProofs DeringProofs.
Import ListNotations.
Local Open Scope R_scope.

(** ** C77 *)

Theorem C77_range : forall B m l, harmonic B m l -> (0 <= shIndex m l < B * B)%Z.
Proof. exact index_range. Qed.
Print Assumptions C77_range.

Theorem C77_injective : forall m l m' l', (Z.abs m <= l)%Z -> (Z.abs m' <= l')%Z ->
  shIndex m l = shIndex m' l' -> m = m' /\ l = l'.
Proof. exact index_inj. Qed.
Print Assumptions C77_injective.

Theorem C77_onto : forall B i, (0 <= i < B * B)%Z -> (0 <= B)%Z -> exists m l, harmonic B m l /\ shIndex m l = i.
Proof. exact index_onto. Qed.
Print Assumptions C77_onto.

Theorem C77_defined : forall (F : Type) (S : Scalar F) (s : vec3 F),
  exists vs, length vs = 9%nat /\ computeShBasis s = Ok (map Some vs).
Proof. exact basis_defined. Qed.
Print Assumptions C77_defined.

Example C77_hypotheses : harmonic 3 (-2) 2 /\ (Z.abs (-2) <= 2)%Z /\ (0 <= 8 < 3 * 3)%Z.
Proof. unfold harmonic. lia. Qed.

(** ** C78 *)

Theorem C78_basis : forall s : vec3 R, computeShBasis s = Ok (map Some (harmonics s)).
Proof. exact basis_real. Qed.
Print Assumptions C78_basis.

Example C78_case : harmonics (V3 0 0 1) = [1; -0; 1; -0; 6 * (0 * 0); -3 * (0 * 1); (3 * 1 * 1 - 1) / 2; -3 * (0 * 1); 3 * (0 * 0 - 0 * 0)].
Proof. reflexivity. Qed.

(** ** C79 *)

Theorem C79_band1_refuted : exists (m : mat3 R) v,
  rotation m /\ unit3 v /\ rotateBand1 (band1Of v) m <> band1Of (applied m v).
Proof. exact band1_wrong. Qed.
Print Assumptions C79_band1_refuted.

Theorem C79_band1_actual : forall (b : vec3 R) m,
  rotateBand1 b m = V3 (inner3 (b0 m) b) (inner3 (b1 m) b) (inner3 (b2 m) b).
Proof. exact band1_actual. Qed.
Print Assumptions C79_band1_actual.

Theorem C79_projection : forall v, list5 (projectVecToSH2K v) = band2Of sqrt3F v.
Proof. exact project_band2. Qed.
Print Assumptions C79_projection.

Theorem C79_band2 : forall h v m, h * h = / 2 -> unit3 v -> orthonormal m ->
  list5 (rotateBand2With h (projectVecToSH2K v) m) = band2Of sqrt3F (applied m v).
Proof. exact band2_exact. Qed.
Print Assumptions C79_band2.

Theorem C79_band2_close : forall v m, unit3 v -> orthonormal m -> forall n, (n < 5)%nat ->
  Rabs (nth n (list5 (rotateBand2 (projectVecToSH2K v) m)) 0 - nth n (band2Of sqrt3F (applied m v)) 0) <= / 8000000.
Proof. exact band2_close. Qed.
Print Assumptions C79_band2_close.

Theorem C79_bands : forall c (b v : vec3 R) m k0 k1 k2 k3 k4, unit3 v -> orthonormal m -> band2Of sqrt3F v = [k0; k1; k2; k3; k4] ->
  let r := rotateSh3Bands (SH c (x3 b) (y3 b) (z3 b) k0 k1 k2 k3 k4) m in
  s0 r = c /\ [s1 r; s2 r; s3 r] = [inner3 (b0 m) b; inner3 (b1 m) b; inner3 (b2 m) b] /\
  forall n, (n < 5)%nat -> Rabs (nth n [s4 r; s5 r; s6 r; s7 r; s8 r] 0 - nth n (band2Of sqrt3F (applied m v)) 0) <= / 8000000.
Proof. exact bands_all. Qed.
Print Assumptions C79_bands.

Example C79_hypotheses : rotation quarterTurn /\ unit3 (V3 (3/5) 0 (-4/5)) /\ sqrt (/ 2) * sqrt (/ 2) = / 2 /\ Rabs (sqrtHalfF * sqrtHalfF - / 2) <= / 50000000.
Proof.
  split; [exact quarterTurn_rotation|]. split; [unfold unit3; cbn [x3 y3 z3]; lra|]. split; [apply sqrt_sqrt; lra|exact sqrtHalf_err].
Qed.

(** ** C102 *)

Theorem C102_orthogonal : forall i j, (i < 9)%nat -> (j < 9)%nat ->
  hasSphereIntegral (fun d => nth i (harmonics d) 0 * nth j (harmonics d) 0)
    (if Nat.eqb i j then 4 * PI * nth i squaredNorms 0 else 0).
Proof. exact orthogonal. Qed.
Print Assumptions C102_orthogonal.

Theorem C102_lobes : forall l, (l < 3)%nat -> cosineLobe l (lobes l).
Proof. exact lobe_ok. Qed.
Print Assumptions C102_lobes.

Theorem C102_ki : forall i, (i < 9)%nat -> Rabs (nth i ki 0 - lobes (bandOf i) / normOf i) <= / 500000.
Proof. exact ki_close. Qed.
Print Assumptions C102_ki.

Example C102_hypotheses : length (ki : list R) = 9%nat /\ length squaredNorms = 9%nat /\ normOf 4 = sqrt (4 * PI * (12 / 5)).
Proof. repeat split. Qed.

(** ** C103 *)

Theorem C103_each_once : forall (F : Type) (S : Scalar F) (T : Trig F) A (scale : A -> F -> A) cutoff a, length a = 9%nat ->
  windowing scale cutoff a
  = Ok (bandScaled scale (sincWindow 0 cutoff) (sincWindow 1 cutoff) (sincWindow 2 cutoff) a).
Proof. exact windowing_bands. Qed.
Print Assumptions C103_each_once.

Theorem C103_constant : forall w : R, sincWindow 0 w = 1.
Proof. exact window_zero. Qed.
Print Assumptions C103_constant.

Theorem C103_unit : forall l w, 0 < w -> (0 <= l)%Z -> 0 <= sincWindow (F := R) l w <= 1.
Proof. exact window_unit. Qed.
Print Assumptions C103_unit.

Theorem C103_cut : forall l (w : R), (0 < l)%Z -> w <= IZR l -> sincWindow l w = 0.
Proof. exact window_cut. Qed.
Print Assumptions C103_cut.

Example C103_hypotheses : length sampleSH = 9%nat /\ 0 < 17 / 4 /\ 2 <= IZR 2.
Proof. split; [reflexivity|lra]. Qed.

(** ** C104 *)

Theorem C104_refuted : exists minOf (a r : list (vec4 R)), (forall w, exists w', minOf w = Ok (1, w')) /\
  length a = 9%nat /\ deringingSH minOf a = Ok r /\ r <> a.
Proof. exact dering_refuted. Qed.
Print Assumptions C104_refuted.

Theorem C104_actual : forall minOf (a r : list (vec4 R)), length a = 9%nat -> deringingSH minOf a = Ok r ->
  exists w1 w2, 0 <= w1 <= 1 /\ 0 <= w2 <= 21 / 100 /\ r = bandScaled scalep4 1 w1 w2 a.
Proof. exact dering_actual_real. Qed.
Print Assumptions C104_actual.

Theorem C104_actual_binary32 : forall (T : Trig f32) minOf (a r : list (vec4 f32)), deringingSH minOf a = Ok r ->
  windowing scalep4 cutoffLow a = Ok r \/ windowing scalep4 cutoffHigh a = Ok r.
Proof. exact dering_actual_f32. Qed.
Print Assumptions C104_actual_binary32.

Theorem C104_defined : forall (F : Type) (S : Scalar F) (T : Trig F) minOf, soundMin minOf -> forall a : list (vec4 F), length a = 9%nat ->
  deringingSH minOf a = OutOfFuel \/ exists r, deringingSH minOf a = Ok r /\ length r = 9%nat.
Proof. exact @dering_defined. Qed.
Print Assumptions C104_defined.

Theorem C104_minimum_defined : forall (F : Type) (S : Scalar F) (P : Pow F) fuel, soundMin (shminArray (F := F) fuel).
Proof. exact shmin_sound. Qed.
Print Assumptions C104_minimum_defined.

(** a constant with a little of every other coefficient, through the code's own minimum search, with a
    stand-in for the sine and the power *)
#[local] Instance lineTrig : Trig f32 := {| tsin := fun x => x; tcos := fun x => x; ttan := fun x => x; tasin := fun x => x; tacos := fun x => x; tatan2 := fun x _ => x; tpi := piF |}.
#[local] Instance linePow : Pow f32 := {| spow := fun x _ => x |}.
Definition sampleF : list (vec4 f32) := V4 (slit 100 0) (slit 100 0) (slit 100 0) f1 :: repeat (V4 f1 f1 f1 f1) 8.
Example C104_case : match dering 10 sampleF with Ok r => Nat.eqb (length r) 9 | _ => false end = true.
Proof. vm_compute. reflexivity. Qed.

(** ** C105 *)

Theorem C105_each_once : forall (F : Type) (S : Scalar F) (a : list (vec4 F)), length a = 9%nat ->
  shaderPreprocessSH a = Ok (map (fun p => scalep4 (fst p) (snd p)) (combine a caShader)).
Proof. exact shader_scaled. Qed.
Print Assumptions C105_each_once.

Theorem C105_constants : forall i d, (i < 9)%nat -> unit3 d ->
  Rabs (nth i caShader 0 * nth i (shaderPolys d) 0 - nth i (harmonics d) 0 / normOf i / PI) <= / 500000.
Proof. exact shader_close. Qed.
Print Assumptions C105_constants.

Example C105_hypotheses : length (caShader : list R) = 9%nat /\ unit3 (V3 (2/3) (-2/3) (1/3)).
Proof. split; [reflexivity|]. unfold unit3. cbn [x3 y3 z3]. lra. Qed.
