(** C135, C136 in binary32: an endless Newton iteration, and lighting from straight above. *)
From Coq Require Import ZArith Bool List Reals Lia.
From Flocq Require Import Core.Core IEEE754.Binary IEEE754.Bits.
From Verif.Model Require Import Outcome Scalar Vec Matrix Trig Numeric Sh.
From Verif.Proofs Require Import F32Round.
Import ListNotations.

(** ** A light on which the iteration alternates between two values *)
Definition ringing : sh9 f32 := SH f1 f0 (slit (-1) 0) f0 f0 (slit 14902180 (-25)) (slit (-1) (-25)) f0 (slit 1 (-26)).
Lemma by_bits : forall (x : f32) k, bits_of_b32 x = k -> x = b32_of_bits k.
Proof. intros x k <-. symmetry. unfold b32_of_bits, bits_of_b32. apply (binary_float_of_bits_of_binary_float 23 8 eq_refl eq_refl eq_refl). Qed.
Section Loop.
  Context {P : Pow f32}.
  (** std::pow of a number between 0 and 1 with exponent 1.5 is finite *)
  Hypothesis tame : forall x : f32, sle f0 x = true -> sle x f1 = true -> fin (spow x (slit 3 (-1))).
  Let a : f32 := f0.
  Let b : f32 := b32_of_bits 3204065820.
  Let c : f32 := b32_of_bits 1049652923.
  Let d : f32 := b32_of_bits 1056468745.
  (** the fraction's denominator does not depend on the power, since a is zero *)
  Lemma absorbed : forall x y : f32, fin y -> (exists s m e E, x = B754_finite 24 128 s m e E) -> (x - f2 * a * y)%sc = x.
  Proof.
    intros x y Fy (s & m & e & E & ->). destruct y as [t|t|t pl H|t k g H]; try discriminate Fy; destruct t; vm_compute; reflexivity.
  Qed.
  Definition next (z : f32) : f32 :=
    (z - (z * z - f1) * (d - f2 * d * z * z + (b + f2 * a * z) * ssqrt (f1 - z * z)) / (slit 3 0 * d * z - f2 * d * z * z * z))%sc.
  Lemma one_step : forall n z z', let q := ssqrt (f1 - z * z)%sc in let x := (slit 3 0 * d * z - f2 * d * z * z * z)%sc in
    let dz := ((z * z - f1) * (d - f2 * d * z * z + (b + f2 * a * z) * q) / x)%sc in
    sle f0 (f1 - z * z)%sc = true -> sle (f1 - z * z)%sc f1 = true ->
    (exists s m e E, x = B754_finite 24 128 s m e E) -> (z - dz)%sc = z' -> sle (sabs z') f1 = true -> sgt (sabs dz) (slit 2748779 (-38)) = true ->
    newton (Datatypes.S n) a b c d z = newton n a b c d z'.
  Proof.
    intros n z z' q x dz H0 H1 X E L G. cbn [newton]. fold q x. rewrite absorbed; [|exact (tame _ H0 H1)|exact X].
    fold dz. rewrite E, L, G. reflexivity.
  Qed.
  Lemma step_at : forall n k k', let z := b32_of_bits k in let q := ssqrt (f1 - z * z)%sc in let x := (slit 3 0 * d * z - f2 * d * z * z * z)%sc in
    let dz := ((z * z - f1) * (d - f2 * d * z * z + (b + f2 * a * z) * q) / x)%sc in
    sle f0 (f1 - z * z)%sc && sle (f1 - z * z)%sc f1 && is_finite_strict 24 128 x && (bits_of_b32 (z - dz)%sc =? k')%Z
      && sle (sabs (b32_of_bits k')) f1 && sgt (sabs dz) (slit 2748779 (-38)) = true ->
    newton (Datatypes.S n) a b c d (b32_of_bits k) = newton n a b c d (b32_of_bits k').
  Proof.
    intros n k k' z q x dz H. rewrite !andb_true_iff in H. destruct H as (((((A & B) & C) & D) & E) & G).
    apply one_step; [exact A|exact B| |apply by_bits, Z.eqb_eq, D|exact E|exact G].
    fold z x. clear - C. destruct x as [s|s|s pl H|s m e E]; try discriminate C. exists s, m, e, E. reflexivity.
  Qed.
  Lemma alternates : forall n, newton n a b c d (b32_of_bits 3173059264) = OutOfFuel /\ newton n a b c d (b32_of_bits 1025575616) = OutOfFuel.
  Proof.
    induction n as [|n [I J]]; [split; reflexivity|]. split.
    - rewrite (step_at n 3173059264 1025575616); [exact J|vm_compute; reflexivity].
    - rewrite (step_at n 1025575616 3173059264); [exact I|vm_compute; reflexivity].
  Qed.
  Lemma endless : forall n, newton n a b c d (b32_of_bits 3207922931) = OutOfFuel.
  Proof.
    intros [|n]; [reflexivity|]. rewrite (step_at n _ 3202950557) by (vm_compute; reflexivity).
    destruct n as [|n]; [reflexivity|]. rewrite (step_at n _ 3195779069) by (vm_compute; reflexivity).
    destruct n as [|n]; [reflexivity|]. rewrite (step_at n _ 3186617330) by (vm_compute; reflexivity).
    destruct n as [|n]; [reflexivity|]. rewrite (step_at n _ 3173059264) by (vm_compute; reflexivity).
    apply alternates.
  Qed.
  Theorem shmin_endless : forall n, shmin n ringing = OutOfFuel.
  Proof.
    intros n. unfold shmin.
    set (w := rotateSh3Bands ringing (shFrame ringing)).
    set (m2 := (ca8 * ssqrt (s8 w * s8 w + s4 w * s4 w))%sc).
    assert (A : (slit 3 0 * ca6 * s6 w + m2)%sc = a). { rewrite (by_bits (slit 3 0 * ca6 * s6 w + m2)%sc 0) by (vm_compute; reflexivity). symmetry. apply by_bits. reflexivity. }
    assert (B : (ca2 * s2 w)%sc = b) by (apply by_bits; vm_compute; reflexivity).
    assert (C : (ca0 * s0 w - ca6 * s6 w - m2)%sc = c) by (apply by_bits; vm_compute; reflexivity).
    assert (D : (ca4 * ssqrt (s5 w * s5 w + s7 w * s7 w))%sc = d) by (apply by_bits; vm_compute; reflexivity).
    cbv zeta. rewrite A, B, C, D. clear A B C D.
    replace (slt _ f0) with true by (vm_compute; reflexivity).
    replace (sneg sqrtHalfF) with (b32_of_bits 3207922931) by (symmetry; apply by_bits; vm_compute; reflexivity).
    rewrite endless. reflexivity.
  Qed.
End Loop.

(** ** NaN *)
Notation nan x := (is_nan 24 128 x = true).
Lemma nan_add : forall x y : f32, nan x \/ nan y -> nan (x + y)%sc.
Proof. intros [s|s|s pl E|s m e E] [t|t|t pl' E'|t m' e' E'] [H|H]; try discriminate H; reflexivity. Qed.
Lemma nan_sub : forall x y : f32, nan x \/ nan y -> nan (x - y)%sc.
Proof. intros [s|s|s pl E|s m e E] [t|t|t pl' E'|t m' e' E'] [H|H]; try discriminate H; reflexivity. Qed.
Lemma nan_mul : forall x y : f32, nan x \/ nan y -> nan (x * y)%sc.
Proof. intros [s|s|s pl E|s m e E] [t|t|t pl' E'|t m' e' E'] [H|H]; try discriminate H; reflexivity. Qed.
Lemma nan_div : forall x y : f32, nan x \/ nan y -> nan (x / y)%sc.
Proof. intros [s|s|s pl E|s m e E] [t|t|t pl' E'|t m' e' E'] [H|H]; try discriminate H; reflexivity. Qed.
Lemma nan_sqrt : forall x : f32, nan x -> nan (ssqrt x).
Proof. intros [s|s|s pl E|s m e E] H; try discriminate H; reflexivity. Qed.
Lemma nan_neg : forall x : f32, nan x -> nan (sneg x).
Proof. intros [s|s|s pl E|s m e E] H; try discriminate H; reflexivity. Qed.
Lemma nan_lt : forall x y : f32, nan x -> slt x y = false.
Proof. intros [s|s|s pl E|s m e E] y H; try discriminate H; reflexivity. Qed.

(** ** Linear light from straight above or below *)
Notation nil0 x := (exists s, x = B754_zero 24 128 s).
Lemma zero_mul : forall x y : f32, nil0 x -> nan (x * y)%sc \/ nil0 (x * y)%sc.
Proof.
  intros x [t|t|t pl' E'|t m' e' E'] [s ->]; [right; exists (xorb s t); reflexivity|left; reflexivity|left; reflexivity|right; exists (xorb s t); reflexivity].
Qed.
Lemma mul_zero : forall y : f32, nan (y * f0)%sc \/ nil0 (y * f0)%sc.
Proof.
  intros [t|t|t pl' E'|t m' e' E']; [right; exists t; destruct t; reflexivity|left; reflexivity|left; reflexivity|right; exists t; destruct t; reflexivity].
Qed.
Lemma zero_sub : forall x y : f32, nan x \/ nil0 x -> nan y \/ nil0 y -> nan (x - y)%sc \/ nil0 (x - y)%sc.
Proof.
  intros x y [X|[s ->]] [Y|[t ->]]; try (left; apply nan_sub; auto; fail).
  right. destruct s, t; eexists; reflexivity.
Qed.
Lemma zero_neg : forall x : f32, nan x \/ nil0 x -> nan (sneg x) \/ nil0 (sneg x).
Proof. intros x [H|[s ->]]; [left; apply nan_neg, H|right; exists (negb s); reflexivity]. Qed.
Lemma times_one : forall x : f32, nan x \/ nil0 x -> nan (x * f1)%sc \/ nil0 (x * f1)%sc.
Proof. intros x [H|Z]; [left; apply nan_mul; auto|apply zero_mul, Z]. Qed.
Lemma times_zero : forall x : f32, nan (x * f0)%sc \/ nil0 (x * f0)%sc.
Proof. exact mul_zero. Qed.
(** a vector of zeros and NaN does not normalise *)
Lemma normal_nan : forall x y z : f32, (nan x \/ nil0 x) -> (nan y \/ nil0 y) -> (nan z \/ nil0 z) ->
  let v := normalizep3 (V3 x y z) in nan (x3 v) /\ nan (y3 v) /\ nan (z3 v).
Proof.
  intros x y z X Y Z v. unfold v, normalizep3, scale3, lengthp3, dotp3. cbn [x3 y3 z3].
  assert (K : forall i : f32, (nan i \/ i = B754_infinity 24 128 false) -> nan (x * i)%sc /\ nan (y * i)%sc /\ nan (z * i)%sc).
  { assert (J : forall u i : f32, (nan u \/ nil0 u) -> (nan i \/ i = B754_infinity 24 128 false) -> nan (u * i)%sc).
    { intros u i [U|[s ->]] [I| ->]; try (apply nan_mul; auto; fail). reflexivity. }
    intros i I. split; [|split]; apply J; assumption. }
  apply K.
  destruct X as [X|[sx ->]]; [left; apply nan_div; right; apply nan_sqrt, nan_add; left; apply nan_add; left; apply nan_mul; auto|].
  destruct Y as [Y|[sy ->]]; [left; apply nan_div; right; apply nan_sqrt, nan_add; left; apply nan_add; right; apply nan_mul; auto|].
  destruct Z as [Z|[sz ->]]; [left; apply nan_div; right; apply nan_sqrt, nan_add; right; apply nan_mul; auto|].
  right. destruct sx, sy, sz; vm_compute; reflexivity.
Qed.
Lemma side_nan : forall dir : vec3 f32, (nan (x3 dir) \/ nil0 (x3 dir)) -> (nan (z3 dir) \/ nil0 (z3 dir)) ->
  nan (x3 (normalizep3 (crossp (neg3 dir) (V3 f0 f1 f0)))).
Proof.
  intros [a b c] A C. cbn [x3 z3] in A, C.
  assert (Z0 : forall x : f32, nan (x * f0)%sc \/ nil0 (x * f0)%sc) by exact times_zero.
  assert (Z1 : forall x : f32, nan x \/ nil0 x -> nan (x * f1)%sc \/ nil0 (x * f1)%sc) by exact times_one.
  generalize dependent (f0 : f32). intros o Z0. generalize dependent (f1 : f32). intros e Z1.
  unfold crossp, neg3, map_3. cbn [x3 y3 z3].
  apply normal_nan; apply zero_sub; try apply Z0; apply Z1; apply zero_neg; assumption.
Qed.
Lemma above_nan : forall v : vec3 f32, nil0 (x3 v) -> nil0 (z3 v) ->
  nan (x3 (normalizep3 (crossp (neg3 (normalizep3 v)) (V3 f0 f1 f0)))).
Proof.
  intros v A C. apply side_nan; unfold normalizep3, scale3, map_3; cbn [x3 z3]; apply zero_mul; assumption.
Qed.
Lemma band2_nan : forall h q (m : mat3 f32), nan (x3 (b0 m)) -> nan (u0 (rotateBand2With h q m)).
Proof.
  intros h q m X. unfold rotateBand2With. generalize (projectVecToSH2K (scale3 (add3 (b0 m) (b1 m)) h)) (projectVecToSH2K (scale3 (add3 (b0 m) (b2 m)) h))
    (projectVecToSH2K (scale3 (add3 (b1 m) (b2 m)) h)) (projectVecToSH2K (b2 m)).
  intros p2 p3 p4 p1. cbv zeta. generalize (multiply5 (V5 f0 f1 f2 f0 f0) (V5 (slit (-1) 0) f0 f0 f0 (slit (-2) 0)) (V5 f0 sqrt3F f0 f0 f0)
                       (V5 f1 f1 f0 (slit (-2) 0) f0) (V5 f2 f1 f0 f0 f0) q). intros t.
  unfold multiply5. cbn [u0]. apply nan_add. left. apply nan_add. left. apply nan_add. left. apply nan_add. left. apply nan_mul. left.
  unfold projectVecToSH2K. cbn [u0]. apply nan_mul. right. exact X.
Qed.
Lemma rest_nan : forall (P : Pow f32) n (w r : sh9 f32), rotateSh3Bands w (shFrame w) = r -> nan (s4 r) ->
  exists t, shmin n w = Ok (t, r) /\ nan t.
Proof.
  intros P n w r E S4. unfold shmin. rewrite E. cbv zeta.
  generalize (sneg sqrtHalfF : f32). intros z0.
  set (m2 := (ca8 * ssqrt (s8 r * s8 r + s4 r * s4 r))%sc).
  assert (M : nan m2) by (apply nan_mul; right; apply nan_sqrt, nan_add; right; apply nan_mul; auto).
  set (a := (slit 3 0 * ca6 * s6 r + m2)%sc). assert (A : nan a) by (apply nan_add; auto).
  set (c := (ca0 * s0 r - ca6 * s6 r - m2)%sc). assert (C : nan c) by (apply nan_sub; auto).
  set (b := (ca2 * s2 r)%sc). set (d := (ca4 * ssqrt (s5 r * s5 r + s7 r * s7 r))%sc). clearbody a b c d m2.
  assert (G : sgt a f0 = false) by (destruct a as [s|s|s pl H|s m e H]; try discriminate A; reflexivity).
  rewrite G. cbn [andb].
  set (m0 := stdmin (a + b + c)%sc (a - b + c)%sc). assert (N : nan m0).
  { unfold m0, stdmin. destruct (slt _ _); apply nan_add; auto. }
  clearbody m0. set (t := (m0 - fhalf * d)%sc). assert (T : nan t) by (apply nan_sub; auto). clearbody t.
  rewrite (nan_lt t f0 T). exists t. split; [reflexivity|exact T].
Qed.
Theorem vertical : forall (P : Pow f32) n (w : sh9 f32), seq (s2 w) f0 = true -> seq (s3 w) f0 = true ->
  exists t r, shmin n w = Ok (t, r) /\ nan t.
Proof.
  intros P n w H2 H3.
  assert (Z : forall x : f32, seq x f0 = true -> nil0 x).
  { intros [s|s|s pl E|s m e E] H; [exists s; reflexivity|destruct s; discriminate H|discriminate H|destruct s; discriminate H]. }
  apply Z in H2. apply Z in H3.
  assert (X : nan (x3 (b0 (shFrame w)))).
  { change (x3 (b0 (shFrame w))) with (x3 (normalizep3 (crossp (neg3 (normalizep3 (V3 (sneg (s3 w)) (sneg (s1 w)) (s2 w)))) (V3 f0 f1 f0)))).
    apply above_nan; cbn [x3 z3]; [|exact H2]. destruct H3 as [s ->]. exists (negb s). reflexivity. }
  destruct (rest_nan P n w (rotateSh3Bands w (shFrame w)) eq_refl) as (t & E & N).
  { change (s4 (rotateSh3Bands w (shFrame w))) with (u0 (rotateBand2With sqrtHalfF (V5 (s4 w) (s5 w) (s6 w) (s7 w) (s8 w)) (shFrame w))).
    apply band2_nan. exact X. }
  exists t, (rotateSh3Bands w (shFrame w)). split; [exact E|exact N].
Qed.
(** ** The light of C136_missed_refuted in binary32 *)
Lemma missed32 : forall (P : Pow f32) n, exists r w', shmin n (SH f1 f0 f0 f1 f0 f0 f0 f0 f0 : sh9 f32) = Ok (r, w') /\ slt f0 r = true.
Proof.
  intros P n. assert (E : match shmin n (SH f1 f0 f0 f1 f0 f0 f0 f0 f0 : sh9 f32) with Ok (r, _) => slt f0 r | _ => false end = true) by (vm_compute; reflexivity).
  destruct (shmin n _) as [[r w']| | |]; try discriminate E. exists r, w'. split; [reflexivity|exact E].
Qed.
