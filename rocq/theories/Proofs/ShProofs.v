(** Spherical harmonics: indexing, basis, rotation. *)
From Coq Require Import ZArith Reals Bool List Lia Lra Psatz.
From Verif.Model Require Import Outcome Scalar Vec Simd Matrix Trig Numeric Bvh Sh.
From Verif.Spec Require Import IblSpec ShSpec.
From Verif.Proofs Require Import RealLits Frustum IblProofs GainProofs.
Import ListNotations.
Local Open Scope R_scope.

(** ** Indices *)
Lemma index_range : forall B m l, harmonic B m l -> (0 <= shIndex m l < B * B)%Z.
Proof. intros B m l H. unfold harmonic in H. unfold shIndex. nia. Qed.
Lemma index_inj : forall m l m' l', (Z.abs m <= l)%Z -> (Z.abs m' <= l')%Z -> shIndex m l = shIndex m' l' -> m = m' /\ l = l'.
Proof.
  intros m l m' l' H H' E. unfold shIndex in E.
  assert (l = l'). { destruct (Z.lt_trichotomy l l') as [K|[K|K]]; [exfalso; nia|exact K|exfalso; nia]. }
  subst. lia.
Qed.
Lemma index_onto : forall B i, (0 <= i < B * B)%Z -> (0 <= B)%Z -> exists m l, harmonic B m l /\ shIndex m l = i.
Proof.
  intros B i H HB. pose proof (Z.sqrt_spec i ltac:(lia)) as S. pose proof (Z.sqrt_nonneg i) as N. cbv zeta in S.
  set (l := Z.sqrt i) in *. exists (i - l * (l + 1))%Z, l. unfold harmonic, shIndex. split; [|lia]. nia.
Qed.

(** ** Basis *)
Lemma basis_defined : forall (F : Type) (S : Scalar F) (s : vec3 F),
  exists vs, length vs = 9%nat /\ computeShBasis s = Ok (map Some vs).
Proof.
  intros F S [x y z]. unfold computeShBasis.
  set (r := bind (basisZonal _ _) _).
  assert (E : exists a b c d e f g h i, r = Ok [Some a; Some b; Some c; Some d; Some e; Some f; Some g; Some h; Some i]).
  { unfold r. do 9 eexists. cbn -[slit ofInt]. reflexivity. }
  destruct E as (a & b & c & d & e & f & g & h & i & E). exists [a; b; c; d; e; f; g; h; i]. split; [reflexivity|exact E].
Qed.
Lemma ofIntR : forall n, ofInt n = IZR n. Proof. intros n. unfold ofInt. apply litR. Qed.
Lemma basis_real : forall s : vec3 R, computeShBasis s = Ok (map Some (harmonics s)).
Proof.
  intros [x y z].
  assert (E : exists a b c d e f g h i, computeShBasis (V3 x y z) = Ok [Some a; Some b; Some c; Some d; Some e; Some f; Some g; Some h; Some i]
    /\ [a; b; c; d; e; f; g; h; i] = harmonics (V3 x y z)).
  { do 9 eexists. split.
    - unfold computeShBasis. cbn -[ofInt slit f0 f1]. reflexivity.
    - unfold harmonics. cbn [x3 y3 z3]. rewrite !ofIntR, ?f0R, ?f1R. cbn [sadd ssub smul sdiv sneg ScalarR].
      repeat match goal with |- context [IZR ?n] => let v := eval vm_compute in n in progress change (IZR n) with (IZR v) end.
      repeat (apply f_equal2; [field|]). reflexivity. }
  destruct E as (a & b & c & d & e & f & g & h & i & -> & <-). reflexivity.
Qed.

(** ** Rotation *)
Lemma det_sq : forall m, orthonormal m -> det3 m * det3 m = 1.
Proof.
  intros [[a b c] [d e f] [g h i]] (H0 & H1 & H2 & H01 & H02 & H12). unfold det3, inner3 in *. cbn [b0 b1 b2 x3 y3 z3] in *.
  set (G00 := a * a + b * b + c * c) in *. set (G11 := d * d + e * e + f * f) in *. set (G22 := g * g + h * h + i * i) in *.
  set (G01 := a * d + b * e + c * f) in *. set (G02 := a * g + b * h + c * i) in *. set (G12 := d * g + e * h + f * i) in *.
  transitivity (G00 * G11 * G22 + 2 * G01 * G12 * G02 - G00 * G12 * G12 - G11 * G02 * G02 - G22 * G01 * G01).
  - unfold G00, G11, G22, G01, G02, G12. ring.
  - rewrite H0, H1, H2, H01, H02, H12. ring.
Qed.
(** the rows are orthonormal too *)
Lemma rows_orthonormal : forall a b c d e f g h i, orthonormal (M3 (V3 a b c) (V3 d e f) (V3 g h i)) ->
  a * a + d * d + g * g = 1 /\ b * b + e * e + h * h = 1 /\ c * c + f * f + i * i = 1 /\
  a * b + d * e + g * h = 0 /\ a * c + d * f + g * i = 0 /\ b * c + e * f + h * i = 0.
Proof.
  intros a b c d e f g h i H. pose proof (det_sq _ H) as D. destruct H as (H0 & H1 & H2 & H01 & H02 & H12).
  unfold inner3 in *. cbn [b0 b1 b2 x3 y3 z3] in *. set (D0 := det3 _) in D.
  assert (ND : D0 <> 0) by nra.
  set (G00 := a * a + b * b + c * c) in *. set (G11 := d * d + e * e + f * f) in *. set (G22 := g * g + h * h + i * i) in *.
  set (G01 := a * d + b * e + c * f) in *. set (G02 := a * g + b * h + c * i) in *. set (G12 := d * g + e * h + f * i) in *.
  assert (K : forall e k, e * D0 = k -> k = 0 -> e = 0).
  { intros e0 k Hk Hk0. apply (Rmult_eq_reg_r D0); [lra|exact ND]. }
  (* cofactors of row j, and the combination of the Gram matrix minus the identity seen by row i *)
  set (cof := fun j : Z => match j with
     | 0%Z => (e * i - f * h, - (b * i - c * h), b * f - c * e)
     | 1%Z => (- (d * i - f * g), a * i - c * g, - (a * f - c * d))
     | _ => (d * h - e * g, - (a * h - b * g), a * e - b * d) end).
  set (row := fun j : Z => match j with 0%Z => (a, d, g) | 1%Z => (b, e, h) | _ => (c, f, i) end).
  set (term := fun p q : Z => let '(r0, r1, r2) := row p in let '(k0, k1, k2) := cof q in
     k0 * (r0 * (G00 - 1) + r1 * G01 + r2 * G02) + k1 * (r0 * G01 + r1 * (G11 - 1) + r2 * G12)
     + k2 * (r0 * G02 + r1 * G12 + r2 * (G22 - 1))).
  assert (T0 : forall p q, term p q = 0).
  { intros p q. unfold term. destruct (row p) as [[r0 r1] r2]. destruct (cof q) as [[k0 k1] k2].
    rewrite H0, H1, H2, H01, H02, H12. ring. }
  assert (A : forall e p q, e * D0 = term p q -> e = 0) by (intros e0 p q Q; exact (K _ _ Q (T0 p q))).
  repeat split.
  - enough (a * a + d * d + g * g - 1 = 0) by lra. apply (A _ 0%Z 0%Z).
    unfold D0, det3, term, row, cof, G00, G11, G22, G01, G02, G12. cbn [b0 b1 b2 x3 y3 z3]. ring.
  - enough (b * b + e * e + h * h - 1 = 0) by lra. apply (A _ 1%Z 1%Z).
    unfold D0, det3, term, row, cof, G00, G11, G22, G01, G02, G12. cbn [b0 b1 b2 x3 y3 z3]. ring.
  - enough (c * c + f * f + i * i - 1 = 0) by lra. apply (A _ 2%Z 2%Z).
    unfold D0, det3, term, row, cof, G00, G11, G22, G01, G02, G12. cbn [b0 b1 b2 x3 y3 z3]. ring.
  - apply (A _ 0%Z 1%Z).
    unfold D0, det3, term, row, cof, G00, G11, G22, G01, G02, G12. cbn [b0 b1 b2 x3 y3 z3]. ring.
  - apply (A _ 0%Z 2%Z).
    unfold D0, det3, term, row, cof, G00, G11, G22, G01, G02, G12. cbn [b0 b1 b2 x3 y3 z3]. ring.
  - apply (A _ 1%Z 2%Z).
    unfold D0, det3, term, row, cof, G00, G11, G22, G01, G02, G12. cbn [b0 b1 b2 x3 y3 z3]. ring.
Qed.
Lemma nR : (slit (-1) 0 : R) = -1. Proof. apply litR. Qed.
Lemma n2R : (slit (-2) 0 : R) = -2. Proof. apply litR. Qed.
Lemma threeR : (slit 3 0 : R) = 3. Proof. apply litR. Qed.
Lemma sqrt3F_val : (sqrt3F : R) = 14529495 / 8388608.
Proof. unfold sqrt3F. cbn [slit ScalarR]. rewrite Rlit_neg by lia. cbn. lra. Qed.
Lemma project_band2 : forall v, list5 (projectVecToSH2K v) = band2Of sqrt3F v.
Proof.
  intros [x y z]. unfold list5, projectVecToSH2K, band2Of. cbn [u0 u1 u2 u3 u4 x3 y3 z3].
  rewrite f1R, f2R, fhalfR, threeR. cbn [sadd ssub smul sdiv sneg ScalarR].
  assert (K : (sqrt3F : R) <> 0) by (apply Rgt_not_eq; rewrite sqrt3F_val; lra).
  repeat (apply f_equal2; [try ring; field; try exact K|]). reflexivity.
Qed.
(** how far each coefficient is from the rotated one *)
Definition mixed (k : R) (v : vec3 R) (m : mat3 R) : list R :=
  let x := x3 v in let y := y3 v in let z := z3 v in
  let s2 := add3 (b0 m) (b1 m) in let s3 := add3 (b0 m) (b2 m) in let s4 := add3 (b1 m) (b2 m) in
  let comb (q : vec3 R -> R) := 2 * (x * y) * q s2 + 2 * (z * x) * q s3 + 2 * (y * z) * q s4 in
  [comb (fun s => x3 s * y3 s); comb (fun s => - (y3 s * z3 s)); comb (fun s => 3 * z3 s * z3 s / (2 * k));
   comb (fun s => - (x3 s * z3 s)); comb (fun s => (x3 s * x3 s - y3 s * y3 s) / 2)].
Lemma band2_error : forall h v m, unit3 v -> orthonormal m ->
  forall n, (n < 5)%nat ->
  nth n (list5 (rotateBand2With h (projectVecToSH2K v) m)) 0 - nth n (band2Of sqrt3F (applied m v)) 0
  = (h * h - / 2) * nth n (mixed sqrt3F v m) 0.
Proof.
  intros h [x y z] [[a b c] [d e f] [g h' i]] U O n Hn. unfold unit3 in U. cbn [x3 y3 z3] in U.
  destruct (rows_orthonormal _ _ _ _ _ _ _ _ _ O) as (R0 & R1 & R2 & R01 & R02 & R12). clear O.
  assert (K : (sqrt3F : R) <> 0) by (apply Rgt_not_eq; rewrite sqrt3F_val; lra).
  unfold rotateBand2With, multiply5, projectVecToSH2K, applied, band2Of, list5, mixed, scale3, add3, map_3, map2_3.
  cbn [u0 u1 u2 u3 u4 b0 b1 b2 x3 y3 z3 nth].
  rewrite ?f0R, ?f1R, ?f2R, ?fhalfR, ?threeR, ?nR, ?n2R. cbn [sadd ssub smul sdiv sneg ScalarR].
  set (k := (sqrt3F : R)) in *. clearbody k.
  set (kap := x * y + y * z - y * y).
  set (N := x * x + y * y + z * z - 1). assert (N0 : N = 0) by (unfold N; lra).
  destruct n as [|n]; cbn [nth].
  { apply Rminus_diag_uniq. transitivity (kap * (a * b + d * e + g * h') + N / 2 * (g * h')).
    { unfold kap, N. field. exact K. } rewrite R01, N0. lra. }
  destruct n as [|n]; cbn [nth].
  { apply Rminus_diag_uniq. transitivity (- (kap * (b * c + e * f + h' * i) + N / 2 * (h' * i))).
    { unfold kap, N. field. exact K. } rewrite R12, N0. lra. }
  destruct n as [|n]; cbn [nth].
  { apply Rminus_diag_uniq. transitivity (3 * kap / (2 * k) * (c * c + f * f + i * i - 1) + 3 * N / (4 * k) * (i * i - 1)).
    { unfold kap, N. field. exact K. } rewrite R2, N0. field. exact K. }
  destruct n as [|n]; cbn [nth].
  { apply Rminus_diag_uniq. transitivity (- (kap * (a * c + d * f + g * i) + N / 2 * (g * i))).
    { unfold kap, N. field. exact K. } rewrite R02, N0. lra. }
  destruct n as [|n]; cbn [nth]; [|lia].
  { apply Rminus_diag_uniq. transitivity (kap * ((a * a + d * d + g * g) - (b * b + e * e + h' * h')) / 2 + N / 4 * (g * g - h' * h')).
    { unfold kap, N. field. exact K. } rewrite R0, R1, N0. lra. }
Qed.
Lemma band2_exact : forall h v m, h * h = / 2 -> unit3 v -> orthonormal m ->
  list5 (rotateBand2With h (projectVecToSH2K v) m) = band2Of sqrt3F (applied m v).
Proof.
  intros h v m Hh U O. pose proof (band2_error h v m U O) as E. rewrite Hh in E.
  replace (/ 2 - / 2) with 0 in E by ring.
  apply nth_ext with (d := 0) (d' := 0); [reflexivity|]. intros n Hn. specialize (E n Hn). rewrite Rmult_0_l in E. lra.
Qed.
Lemma mixed_bound : forall v m, unit3 v -> orthonormal m -> forall n, Rabs (nth n (mixed sqrt3F v m) 0) <= 6.
Proof.
  intros [x y z] [[a b c] [d e f] [g h i]] U (H0 & H1 & H2 & H01 & H02 & H12) n.
  unfold unit3, inner3 in *. cbn [b0 b1 b2 x3 y3 z3] in *.
  assert (S : forall q, (forall s, x3 s * x3 s + y3 s * y3 s + z3 s * z3 s = 2 -> Rabs (q s) <= 2) ->
    Rabs (2 * (x * y) * q (V3 (a + d) (b + e) (c + f)) + 2 * (z * x) * q (V3 (a + g) (b + h) (c + i)) + 2 * (y * z) * q (V3 (d + g) (e + h) (f + i))) <= 6).
  { intros q Hq.
    assert (A : forall p s, -1 <= 2 * p <= 1 -> Rabs (q s) <= 2 -> -2 <= 2 * p * q s <= 2).
    { intros p s Hp Hs. set (w := q s) in *. clearbody w. unfold Rabs in Hs. destruct (Rcase_abs w); nra. }
    assert (P2 : forall p q r : R, p * p + q * q + r * r = 1 -> -1 <= 2 * (p * q) <= 1).
    { intros p q' r Q. pose proof (Rle_0_sqr (p + q')). pose proof (Rle_0_sqr (p - q')). pose proof (Rle_0_sqr r). unfold Rsqr in *. lra. }
    pose proof (A (x * y) (V3 (a + d) (b + e) (c + f)) (P2 x y z ltac:(lra)) (Hq (V3 (a + d) (b + e) (c + f)) ltac:(cbn [x3 y3 z3]; lra))).
    pose proof (A (z * x) (V3 (a + g) (b + h) (c + i)) (P2 z x y ltac:(lra)) (Hq (V3 (a + g) (b + h) (c + i)) ltac:(cbn [x3 y3 z3]; lra))).
    pose proof (A (y * z) (V3 (d + g) (e + h) (f + i)) (P2 y z x ltac:(lra)) (Hq (V3 (d + g) (e + h) (f + i)) ltac:(cbn [x3 y3 z3]; lra))).
    apply Rabs_le. lra. }
  unfold mixed, add3, map2_3. cbn [b0 b1 b2 x3 y3 z3 sadd ScalarR].
  destruct n as [|n]; cbn [nth]; [apply (S (fun s => x3 s * y3 s)); intros [p q r]; cbn [x3 y3 z3]; intros Q; apply Rabs_le; nra|].
  destruct n as [|n]; cbn [nth]; [apply (S (fun s => - (y3 s * z3 s))); intros [p q r]; cbn [x3 y3 z3]; intros Q; apply Rabs_le; nra|].
  destruct n as [|n]; cbn [nth].
  { apply (S (fun s => 3 * z3 s * z3 s / (2 * sqrt3F))). intros [p q r]; cbn [x3 y3 z3]; intros Q. rewrite sqrt3F_val.
    replace (3 * r * r / (2 * (14529495 / 8388608))) with (r * r * (3 * 8388608 / (2 * 14529495))) by field.
    apply Rabs_le. nra. }
  destruct n as [|n]; cbn [nth]; [apply (S (fun s => - (x3 s * z3 s))); intros [p q r]; cbn [x3 y3 z3]; intros Q; apply Rabs_le; nra|].
  destruct n as [|n]; cbn [nth]; [apply (S (fun s => (x3 s * x3 s - y3 s * y3 s) / 2)); intros [p q r]; cbn [x3 y3 z3]; intros Q; apply Rabs_le; nra|].
  destruct n; rewrite Rabs_R0; lra.
Qed.
Lemma sqrtHalf_err : Rabs (sqrtHalfF * sqrtHalfF - / 2) <= / 50000000.
Proof.
  assert (E : (sqrtHalfF : R) = 11863283 / 16777216) by (unfold sqrtHalfF; cbn [slit ScalarR]; rewrite Rlit_neg; reflexivity).
  rewrite E. apply Rabs_le. lra.
Qed.
Lemma band2_close : forall v m, unit3 v -> orthonormal m -> forall n, (n < 5)%nat ->
  Rabs (nth n (list5 (rotateBand2 (projectVecToSH2K v) m)) 0 - nth n (band2Of sqrt3F (applied m v)) 0) <= / 8000000.
Proof.
  intros v m U O n Hn. unfold rotateBand2. rewrite (band2_error _ _ _ U O n Hn), Rabs_mult.
  pose proof (mixed_bound v m U O n) as B. pose proof sqrtHalf_err as E. pose proof (Rabs_pos (nth n (mixed sqrt3F v m) 0)).
  pose proof (Rabs_pos (sqrtHalfF * sqrtHalfF - / 2)). nra.
Qed.
Lemma band1_actual : forall b m, rotateBand1 b m = V3 (inner3 (b0 m) b) (inner3 (b1 m) b) (inner3 (b2 m) b).
Proof.
  intros [p q r] [[a b c] [d e f] [g h i]]. unfold rotateBand1, rows3, mulv3, inner3, scale3, add3, map_3, map2_3. rewrite f0R, f1R, nR.
  cbn [b0 b1 b2 x3 y3 z3 sadd ssub smul sdiv sneg ScalarR]. f_equal; ring.
Qed.
Definition quarterTurn : mat3 R := M3 (V3 0 1 0) (V3 (-1) 0 0) (V3 0 0 1).
Lemma quarterTurn_rotation : rotation quarterTurn.
Proof. unfold rotation, orthonormal, inner3, det3, quarterTurn. cbn [b0 b1 b2 x3 y3 z3]. repeat split; lra. Qed.
(** the three bands together *)
Lemma bands_all : forall c (b v : vec3 R) m k0 k1 k2 k3 k4, unit3 v -> orthonormal m -> band2Of sqrt3F v = [k0; k1; k2; k3; k4] ->
  let r := rotateSh3Bands (SH c (x3 b) (y3 b) (z3 b) k0 k1 k2 k3 k4) m in
  s0 r = c /\ [s1 r; s2 r; s3 r] = [inner3 (b0 m) b; inner3 (b1 m) b; inner3 (b2 m) b] /\
  forall n, (n < 5)%nat -> Rabs (nth n [s4 r; s5 r; s6 r; s7 r; s8 r] 0 - nth n (band2Of sqrt3F (applied m v)) 0) <= / 8000000.
Proof.
  intros c [p q r] v m k0 k1 k2 k3 k4 U O E w. subst w. rewrite <- project_band2 in E.
  destruct (projectVecToSH2K v) as [j0 j1 j2 j3 j4] eqn:P. unfold list5 in E. cbn [u0 u1 u2 u3 u4] in E. injection E as <- <- <- <- <-.
  unfold rotateSh3Bands. cbv zeta. cbn [s0 s1 s2 s3 s4 s5 s6 s7 s8 x3 y3 z3]. rewrite band1_actual. cbn [x3 y3 z3].
  split; [reflexivity|]. split; [reflexivity|]. intros n Hn. rewrite <- P. exact (band2_close v m U O n Hn).
Qed.

Lemma band1_wrong : exists m v, rotation m /\ unit3 v /\ rotateBand1 (band1Of v) m <> band1Of (applied m v).
Proof.
  exists quarterTurn, (V3 1 0 0). split; [exact quarterTurn_rotation|]. split; [unfold unit3; cbn; lra|].
  rewrite band1_actual. unfold inner3, band1Of, applied, quarterTurn. cbn [b0 b1 b2 x3 y3 z3]. intros E. inversion E. lra.
Qed.

(** ** Windowing *)
Section Window.
  Context {F : Type} {S : Scalar F} {T : Trig F}.
  Lemma windowing_eq : forall A (scale : A -> F -> A) cutoff a0 a1 a2 a3 a4 a5 a6 a7 a8,
    windowing scale cutoff [a0; a1; a2; a3; a4; a5; a6; a7; a8]
    = Ok (let w0 := sincWindow 0 cutoff in let w1 := sincWindow 1 cutoff in let w2 := sincWindow 2 cutoff in
          [scale a0 w0; scale a1 w1; scale a2 w1; scale a3 w1; scale a4 w2; scale a5 w2; scale a6 w2; scale a7 w2; scale a8 w2]).
  Proof. intros. unfold windowing. cbn -[sincWindow]. reflexivity. Qed.
End Window.
