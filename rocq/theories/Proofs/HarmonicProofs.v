(** Orthogonality of the nine harmonics and the ki constants. *)
From Coq Require Import ZArith Reals Bool List Lia Lra Psatz.
From Coquelicot Require Import Coquelicot.
From Verif.Model Require Import Outcome Scalar Vec Simd Matrix Trig Numeric Sh.
From Verif.Spec Require Import IblSpec ShSpec SphereSpec.
From Verif.Proofs Require Import RealLits Frustum IblProofs GainProofs ShProofs PiBounds.
Import ListNotations.
Local Open Scope R_scope.

(** ** cos^i sin^j over [0, B] where sin vanishes at both ends *)
Section Trig.
  Context (B : R) (HB : sin B = 0).
  Let cs (i j : nat) (t : R) : R := cos t ^ i * sin t ^ j.
  Definition base (i j : nat) : R := match i, j with O, O => B | O, _ => 1 - cos B | _, _ => 0 end.
  Fixpoint sinPart (i j : nat) : R :=
    match j with S (S j') => INR (j' + 1) / INR (i + j' + 2) * sinPart i j' | _ => base i j end.
  Fixpoint trigMoment (i j : nat) : R :=
    match i with S (S i') => INR (i' + 1) / INR (i' + j + 2) * trigMoment i' j | _ => sinPart i j end.
  Lemma bound_term : forall i j, is_RInt (fun t => INR (i + 1) * cs i (j + 2) t - INR (j + 1) * cs (i + 2) j t) 0 B 0.
  Proof.
    intros i j.
    evar_last.
    - apply (is_RInt_derive (fun t => - (cos t ^ (i + 1) * sin t ^ (j + 1)))).
      + intros t _. unfold cs. evar_last.
        * auto_derive; [trivial|reflexivity].
        * replace (i + 1)%nat with (S i) by lia. replace (j + 1)%nat with (S j) by lia.
          replace (i + 2)%nat with (S (S i)) by lia. replace (j + 2)%nat with (S (S j)) by lia.
          cbn [Nat.pred pow]. ring.
      + intros t _. apply (ex_derive_continuous (fun t => INR (i + 1) * cs i (j + 2) t - INR (j + 1) * cs (i + 2) j t)).
        unfold cs. auto_derive. trivial.
    - unfold minus, plus, opp. cbn. rewrite HB, sin_0. replace (j + 1)%nat with (S j) by lia. cbn [pow]. ring.
  Qed.
  Lemma reduce_sin : forall i j v, is_RInt (cs i j) 0 B v -> is_RInt (cs i (S (S j))) 0 B (INR (j + 1) / INR (i + j + 2) * v).
  Proof.
    intros i j v H.
    assert (N : INR (i + j + 2) <> 0) by (apply not_0_INR; lia).
    apply is_RInt_ext with (fun t => / INR (i + j + 2) * (INR (j + 1) * cs i j t + (INR (i + 1) * cs i (j + 2) t - INR (j + 1) * cs (i + 2) j t))).
    { intros t _. unfold cs. replace (i + 2)%nat with (S (S i)) by lia. replace (j + 2)%nat with (S (S j)) by lia. cbn [pow].
      apply Rmult_eq_reg_l with (INR (i + j + 2)); [|exact N]. rewrite <- Rmult_assoc, Rinv_r, Rmult_1_l by exact N.
      assert (E : INR (i + j + 2) = INR (i + 1) + INR (j + 1)) by (rewrite <- plus_INR; f_equal; lia). rewrite E.
      pose proof (sin2_cos2 t) as Q. unfold Rsqr in Q.
      replace (cos t ^ i * sin t ^ j) with (cos t ^ i * sin t ^ j * (sin t * sin t + cos t * cos t)) by (rewrite Q; ring). ring. }
    evar_last.
    - apply (is_RInt_scal (fun t => INR (j + 1) * cs i j t + (INR (i + 1) * cs i (j + 2) t - INR (j + 1) * cs (i + 2) j t)) _ _ (/ INR (i + j + 2))).
      apply (is_RInt_plus (fun t => INR (j + 1) * cs i j t)); [apply (is_RInt_scal (cs i j) _ _ (INR (j + 1))); exact H|apply bound_term].
    - unfold scal, plus; cbn. unfold mult; cbn. field. exact N.
  Qed.
  Lemma reduce_cos : forall i j v, is_RInt (cs i j) 0 B v -> is_RInt (cs (S (S i)) j) 0 B (INR (i + 1) / INR (i + j + 2) * v).
  Proof.
    intros i j v H.
    assert (N : INR (i + j + 2) <> 0) by (apply not_0_INR; lia).
    apply is_RInt_ext with (fun t => / INR (i + j + 2) * (INR (i + 1) * cs i j t + -1 * (INR (i + 1) * cs i (j + 2) t - INR (j + 1) * cs (i + 2) j t))).
    { intros t _. unfold cs. replace (i + 2)%nat with (S (S i)) by lia. replace (j + 2)%nat with (S (S j)) by lia. cbn [pow].
      apply Rmult_eq_reg_l with (INR (i + j + 2)); [|exact N]. rewrite <- Rmult_assoc, Rinv_r, Rmult_1_l by exact N.
      assert (E : INR (i + j + 2) = INR (i + 1) + INR (j + 1)) by (rewrite <- plus_INR; f_equal; lia). rewrite E.
      pose proof (sin2_cos2 t) as Q. unfold Rsqr in Q.
      replace (cos t ^ i * sin t ^ j) with (cos t ^ i * sin t ^ j * (sin t * sin t + cos t * cos t)) by (rewrite Q; ring). ring. }
    evar_last.
    - apply (is_RInt_scal (fun t => INR (i + 1) * cs i j t + -1 * (INR (i + 1) * cs i (j + 2) t - INR (j + 1) * cs (i + 2) j t)) _ _ (/ INR (i + j + 2))).
      apply (is_RInt_plus (fun t => INR (i + 1) * cs i j t)); [apply (is_RInt_scal (cs i j) _ _ (INR (i + 1))); exact H|].
      apply (is_RInt_scal (fun t => INR (i + 1) * cs i (j + 2) t - INR (j + 1) * cs (i + 2) j t) _ _ (-1)). apply bound_term.
    - unfold scal, plus; cbn. unfold mult; cbn. field. exact N.
  Qed.
  Lemma by_derive : forall (f F : R -> R) v, (forall t, is_derive F t (f t)) -> (forall t, ex_derive f t) -> F B - F 0 = v -> is_RInt f 0 B v.
  Proof.
    intros f F v D C E. rewrite <- E. apply (is_RInt_derive F f).
    - intros t _. apply D.
    - intros t _. apply (ex_derive_continuous f), C.
  Qed.
  Lemma base_ok : forall i j, (i < 2)%nat -> (j < 2)%nat -> is_RInt (cs i j) 0 B (base i j).
  Proof.
    intros i j Hi Hj. destruct i as [|[|i]]; [| |lia]; destruct j as [|[|j]]; try lia; unfold cs, base.
    - apply (by_derive _ (fun t => t)); [intros t; evar_last; [auto_derive; trivial|cbn; ring]|intros t; auto_derive; trivial|lra].
    - apply (by_derive _ (fun t => - cos t)); [intros t; evar_last; [auto_derive; trivial|cbn; ring]|intros t; auto_derive; trivial|rewrite cos_0; lra].
    - apply (by_derive _ sin); [intros t; evar_last; [auto_derive; trivial|cbn; ring]|intros t; auto_derive; trivial|rewrite sin_0; lra].
    - apply (by_derive _ (fun t => sin t * sin t / 2)); [intros t; evar_last; [auto_derive; trivial|cbn; field]|intros t; auto_derive; trivial|rewrite sin_0, HB; lra].
  Qed.
  Lemma pair_ind : forall P : nat -> Prop, P 0%nat -> P 1%nat -> (forall n, P n -> P (S (S n))) -> forall n, P n.
  Proof. intros P P0 P1 PS n. enough (P n /\ P (S n)) by tauto. induction n as [|n IH]; [tauto|]. split; [tauto|]. apply PS. tauto. Qed.
  Lemma sinPart_ok : forall i, (i < 2)%nat -> forall j, is_RInt (cs i j) 0 B (sinPart i j).
  Proof.
    intros i Hi. apply pair_ind.
    - cbn [sinPart]. apply base_ok; lia.
    - cbn [sinPart]. apply base_ok; lia.
    - intros j H. cbn [sinPart]. apply reduce_sin, H.
  Qed.
  Lemma trigMoment_ok : forall j i, is_RInt (cs i j) 0 B (trigMoment i j).
  Proof.
    intros j. apply pair_ind.
    - cbn [trigMoment]. apply sinPart_ok; lia.
    - cbn [trigMoment]. apply sinPart_ok; lia.
    - intros i H. cbn [trigMoment]. apply reduce_cos, H.
  Qed.
End Trig.

Ltac ringR := match goal with |- ?a = ?b => change (@eq R a b) end; ring.
(** ** Monomials over the sphere *)
Definition mono (i j k : nat) (d : vec3 R) : R := x3 d ^ i * y3 d ^ j * z3 d ^ k.
Definition sphereMoment (i j k : nat) : R := trigMoment (2 * PI) i j * trigMoment PI k (i + j + 1).
Lemma mono_int : forall i j k, hasSphereIntegral (mono i j k) (sphereMoment i j k).
Proof.
  intros i j k. exists (fun th => sin th ^ (i + j) * cos th ^ k * trigMoment (2 * PI) i j). split.
  - intros th. apply is_RInt_ext with (fun t => (sin th ^ (i + j) * cos th ^ k) * (cos t ^ i * sin t ^ j)).
    { intros t _. unfold mono, sphereDir. cbn [x3 y3 z3]. rewrite !Rpow_mult_distr, Rfunctions.pow_add. ringR. }
    apply (is_RInt_scal (fun t => cos t ^ i * sin t ^ j)). apply trigMoment_ok. apply sin_2PI.
  - apply is_RInt_ext with (fun t => trigMoment (2 * PI) i j * (cos t ^ k * sin t ^ (i + j + 1))).
    { intros t _. rewrite (Rfunctions.pow_add _ (i + j)). ringR. }
    apply (is_RInt_scal (fun t => cos t ^ k * sin t ^ (i + j + 1))). apply trigMoment_ok. apply sin_PI.
Qed.
Lemma int_ext : forall f g v, (forall d, f d = g d) -> hasSphereIntegral f v -> hasSphereIntegral g v.
Proof.
  intros f g v E (h & H1 & H2). exists h. split; [|exact H2]. intros th.
  apply is_RInt_ext with (fun phi => f (sphereDir th phi)); [intros t _; apply E|apply H1].
Qed.
Lemma int_lin : forall c f g u v, hasSphereIntegral f u -> hasSphereIntegral g v -> hasSphereIntegral (fun d => c * f d + g d) (c * u + v).
Proof.
  intros c f g u v (h & H1 & H2) (h' & H1' & H2'). exists (fun th => c * h th + h' th). split.
  - intros th. apply (is_RInt_plus (fun phi => c * f (sphereDir th phi)) (fun phi => g (sphereDir th phi))); [|apply H1'].
    apply (is_RInt_scal (fun phi => f (sphereDir th phi))). apply H1.
  - apply is_RInt_ext with (fun th => c * (h th * sin th) + h' th * sin th); [intros t _; ringR|].
    apply (is_RInt_plus (fun th => c * (h th * sin th)) (fun th => h' th * sin th)); [|exact H2'].
    apply (is_RInt_scal (fun th => h th * sin th)). exact H2.
Qed.
Lemma int_zero : hasSphereIntegral (fun _ => 0) 0.
Proof.
  exists (fun _ => 0). split.
  - intros th. evar_last; [apply (is_RInt_const 0 (2 * PI) 0)|]. unfold scal; cbn. unfold mult; cbn. ring.
  - apply is_RInt_ext with (fun _ => 0); [intros; ringR|]. evar_last; [apply (is_RInt_const 0 PI 0)|]. unfold scal; cbn. unfold mult; cbn. ring.
Qed.

(** ** Polynomials *)
Definition poly := list (R * (nat * nat * nat)).
Definition monoOf (e : nat * nat * nat) : vec3 R -> R := mono (fst (fst e)) (snd (fst e)) (snd e).
Fixpoint peval (p : poly) (d : vec3 R) : R := match p with [] => 0 | (c, e) :: p' => c * monoOf e d + peval p' d end.
Fixpoint pint (p : poly) : R := match p with [] => 0 | (c, e) :: p' => c * sphereMoment (fst (fst e)) (snd (fst e)) (snd e) + pint p' end.
Lemma peval_int : forall p, hasSphereIntegral (peval p) (pint p).
Proof. induction p as [|[c e] p IH]; cbn [peval pint]; [apply int_zero|]. apply (int_lin c (monoOf e) (peval p)); [apply mono_int|exact IH]. Qed.
Definition pmul1 (a b : R * (nat * nat * nat)) : R * (nat * nat * nat) :=
  (fst a * fst b, (fst (fst (snd a)) + fst (fst (snd b)), snd (fst (snd a)) + snd (fst (snd b)), snd (snd a) + snd (snd b))%nat).
Definition pmul (p q : poly) : poly := flat_map (fun a => map (pmul1 a) q) p.
Lemma peval_app : forall p q d, peval (p ++ q) d = peval p d + peval q d.
Proof. induction p as [|[c e] p IH]; intros q d; cbn [app peval]; [ring|rewrite IH; ring]. Qed.
Lemma peval_pmul1 : forall a q d, peval (map (pmul1 a) q) d = fst a * monoOf (snd a) d * peval q d.
Proof.
  intros a q d. induction q as [|b q IH]; cbn [map peval]; [ring|]. destruct b as [c [[i j] k]].
  rewrite IH. unfold monoOf, mono. cbn [pmul1 fst snd]. rewrite !Rfunctions.pow_add. ring.
Qed.
Lemma peval_pmul : forall p q d, peval (pmul p q) d = peval p d * peval q d.
Proof.
  induction p as [|a p IH]; intros q d; cbn [pmul flat_map peval]; [ring|]. destruct a as [c e].
  rewrite peval_app, peval_pmul1. fold (pmul p q). rewrite IH. cbn [fst snd]. ring.
Qed.
Definition harmonicPoly (i : nat) : poly :=
  nth i [[(1, (0, 0, 0)%nat)]; [(-1, (0, 1, 0)%nat)]; [(1, (0, 0, 1)%nat)]; [(-1, (1, 0, 0)%nat)]; [(6, (1, 1, 0)%nat)]; [(-3, (0, 1, 1)%nat)];
         [(3/2, (0, 0, 2)%nat); (-/2, (0, 0, 0)%nat)]; [(-3, (1, 0, 1)%nat)]; [(3, (2, 0, 0)%nat); (-3, (0, 2, 0)%nat)]] [].
Lemma harmonicPoly_ok : forall i d, peval (harmonicPoly i) d = nth i (harmonics d) 0.
Proof.
  intros i [x y z]. unfold harmonicPoly, harmonics. cbn [x3 y3 z3].
  do 9 (destruct i as [|i]; [cbn [nth peval]; unfold monoOf, mono; cbn [fst snd x3 y3 z3 pow]; field|]).
  destruct i; reflexivity.
Qed.
Lemma orthogonal : forall i j, (i < 9)%nat -> (j < 9)%nat ->
  hasSphereIntegral (fun d => nth i (harmonics d) 0 * nth j (harmonics d) 0)
    (if Nat.eqb i j then 4 * PI * nth i squaredNorms 0 else 0).
Proof.
  intros i j Hi Hj. apply int_ext with (peval (pmul (harmonicPoly i) (harmonicPoly j))).
  { intros d. rewrite peval_pmul, !harmonicPoly_ok. reflexivity. }
  replace (if Nat.eqb i j then _ else _) with (pint (pmul (harmonicPoly i) (harmonicPoly j))); [apply peval_int|].
  do 9 (destruct i as [|i]; [do 9 (destruct j as [|j];
    [unfold harmonicPoly, pmul, squaredNorms; cbn [nth flat_map map app pmul1 fst snd Nat.add Nat.eqb pint]; unfold sphereMoment;
     cbn [trigMoment sinPart base Nat.add INR]; rewrite ?cos_2PI, ?cos_PI; field|]); lia|]); lia.
Qed.


(** ** Constants *)
Lemma lobe_ok : forall l, (l < 3)%nat -> cosineLobe l (lobes l).
Proof.
  intros l Hl. unfold cosineLobe.
  assert (D : forall (f F : R -> R) v, (forall t, is_derive F t (f t)) -> (forall t, ex_derive f t) -> F 1 - F 0 = v -> is_RInt f 0 1 v).
  { intros f F v D C E. rewrite <- E. apply (is_RInt_derive F f); [intros t _; apply D|intros t _; apply (ex_derive_continuous f), C]. }
  destruct l as [|[|[|l]]]; [| | |lia]; cbn [legendre lobes].
  - apply (D _ (fun z => PI * (z * z))); [intros t; evar_last; [auto_derive; trivial|cbn; ring]|intros t; auto_derive; trivial|lra].
  - apply (D _ (fun z => 2 * PI / 3 * (z * z * z))); [intros t; evar_last; [auto_derive; trivial|cbn; field]|intros t; auto_derive; trivial|lra].
  - apply (D _ (fun z => 2 * PI * (3 / 8 * (z * z * z * z) - z * z / 4))); [intros t; evar_last; [auto_derive; trivial|cbn; field]|intros t; auto_derive; trivial|lra].
Qed.
Lemma pi_box : 31415926535 / 10000000000 < PI < 31415926536 / 10000000000 /\ 98696044 / 10000000 < PI * PI < 986960441 / 100000000 /\
  310062766 / 10000000 < PI * PI * PI < 310062768 / 10000000.
Proof. pose proof PI_upper. pose proof PI_lower. repeat split; nra. Qed.
(** t^2 close to a^2 and both on the same side of 0 *)
Lemma close_root : forall t a s e, 0 < s -> 0 < a -> 0 < t -> Rabs (t * t * s - a * a) <= e ->
  Rabs (t - a / sqrt s) <= e / (a * sqrt s).
Proof.
  intros t a s e Hs Ha Ht H. pose proof (sqrt_lt_R0 _ Hs) as Q. pose proof (sqrt_sqrt s (Rlt_le _ _ Hs)) as QQ.
  set (r := sqrt s) in *. assert (E : t - a / r = (t * t * s - a * a) / (r * (t * r + a))).
  { rewrite <- QQ. field. split; nra. }
  rewrite E. unfold Rdiv. rewrite Rabs_mult. rewrite (Rabs_pos_eq (/ _)) by (left; apply Rinv_0_lt_compat; apply Rmult_lt_0_compat; nra).
  pose proof (Rabs_pos (t * t * s - a * a)).
  apply Rmult_le_compat; [lra|left; apply Rinv_0_lt_compat; apply Rmult_lt_0_compat; nra|exact H|].
  apply Rinv_le_contravar; nra.
Qed.
Lemma norms_low : forall i, (i < 9)%nat -> / 5 <= nth i squaredNorms 0 <= 12 / 5.
Proof. intros i Hi. unfold squaredNorms. do 9 (destruct i as [|i]; [cbn [nth]; lra|]). lia. Qed.
Lemma sqrt_low : forall i, (i < 9)%nat -> 3 / 2 <= normOf i.
Proof.
  intros i Hi. unfold normOf. rewrite <- (sqrt_square (3 / 2)) by lra. apply sqrt_le_1_alt.
  pose proof (norms_low i Hi) as N. destruct pi_box as (A & _). apply Rle_trans with (4 * PI * / 5); [lra|]. apply Rmult_le_compat_l; lra.
Qed.
Ltac lit := repeat match goal with |- context [@slit R _ ?m (Zneg ?p)] => change (slit m (Zneg p) : R) with (Rlit m (Zneg p)); rewrite (Rlit_neg m p) end; cbn [Z.pow Z.pow_pos Pos.iter Z.mul Pos.mul].
Lemma ki_sq : forall i, (i < 9)%nat -> 0 < nth i (ki : list R) 0 /\
  Rabs (nth i ki 0 * nth i ki 0 * (4 * PI * nth i squaredNorms 0) - lobes (bandOf i) * lobes (bandOf i)) <= / 500000.
Proof.
  intros i Hi. destruct pi_box as (A & B & C). unfold ki, squaredNorms.
  do 9 (destruct i as [|i]; [cbn [nth bandOf lobes]; lit; split; [lra|apply Rabs_le; lra]|]). lia.
Qed.
Lemma ki_close : forall i, (i < 9)%nat -> Rabs (nth i ki 0 - lobes (bandOf i) / normOf i) <= / 500000.
Proof.
  intros i Hi. destruct (ki_sq i Hi) as [P E]. destruct pi_box as (A & _).
  assert (L : 3 / 4 <= lobes (bandOf i)). { destruct (bandOf i) as [|[|n]]; cbn [lobes]; lra. }
  pose proof (norms_low i Hi) as N. pose proof (sqrt_low i Hi) as SL.
  assert (S : 0 < 4 * PI * nth i squaredNorms 0) by (apply Rmult_lt_0_compat; lra).
  pose proof (close_root (nth i ki 0) (lobes (bandOf i)) (4 * PI * nth i squaredNorms 0) (/ 500000) S ltac:(lra) P E) as K. fold (normOf i) in K.
  apply Rle_trans with (1 := K). unfold Rdiv. rewrite <- (Rmult_1_r (/ 500000)) at 2. apply Rmult_le_compat_l; [lra|].
  rewrite <- Rinv_1. apply Rinv_le_contravar; [lra|]. nra.
Qed.
Definition lacks : list R := [1; -1; 1; -1; 6; -3; /2; -3; 3].
Lemma lacks_ok : forall i d, nth i (harmonics d) 0 = nth i lacks 0 * nth i (shaderPolys d) 0.
Proof.
  intros i [x y z]. unfold harmonics, lacks, shaderPolys. cbn [x3 y3 z3].
  do 9 (destruct i as [|i]; [cbn [nth]; field|]). destruct i; cbn [nth]; ring.
Qed.
Lemma shader_sq : forall i, (i < 9)%nat -> 0 < nth i (caShader : list R) 0 * nth i lacks 0 /\
  Rabs (nth i caShader 0 * nth i caShader 0 * (PI * PI * (4 * PI * nth i squaredNorms 0)) - nth i lacks 0 * nth i lacks 0) <= / 500000.
Proof.
  intros i Hi. destruct pi_box as (A & B & C). unfold caShader, squaredNorms, lacks.
  do 9 (destruct i as [|i]; [cbn [nth]; lit; split; [lra|apply Rabs_le; lra]|]). lia.
Qed.
Lemma polys_bound : forall i d, unit3 d -> Rabs (nth i (shaderPolys d) 0) <= 2.
Proof.
  intros i [x y z] U. unfold unit3 in U. unfold shaderPolys. cbn [x3 y3 z3] in *.
  assert (P2 : forall p q r : R, p * p + q * q + r * r = 1 -> -1 <= 2 * (p * q) <= 1 /\ 0 <= p * p <= 1 /\ -1 <= p <= 1).
  { intros p q r Q. pose proof (Rle_0_sqr (p + q)). pose proof (Rle_0_sqr (p - q)). pose proof (Rle_0_sqr r). pose proof (Rle_0_sqr p). pose proof (Rle_0_sqr q). unfold Rsqr in *. repeat split; nra. }
  pose proof (P2 x y z U). pose proof (P2 y z x ltac:(lra)). pose proof (P2 z x y ltac:(lra)).
  do 9 (destruct i as [|i]; [cbn [nth]; apply Rabs_le; lra|]). destruct i; cbn [nth]; rewrite Rabs_R0; lra.
Qed.
Lemma shader_close : forall i d, (i < 9)%nat -> unit3 d ->
  Rabs (nth i caShader 0 * nth i (shaderPolys d) 0 - nth i (harmonics d) 0 / normOf i / PI) <= / 500000.
Proof.
  intros i d Hi U. destruct (shader_sq i Hi) as [P E]. destruct pi_box as (A & B & _).
  rewrite lacks_ok. pose proof (polys_bound i d U) as Q. pose proof (norms_low i Hi) as N. pose proof (sqrt_low i Hi) as SL.
  assert (L : / 2 <= Rabs (nth i lacks 0)).
  { clear - Hi. unfold lacks. do 9 (destruct i as [|i]; [cbn [nth]; unfold Rabs; destruct (Rcase_abs _); lra|]). lia. }
  set (t := nth i caShader 0) in *. set (a := nth i lacks 0) in *. set (q := nth i (shaderPolys d) 0) in *.
  set (s := 4 * PI * nth i squaredNorms 0) in *. assert (S : 0 < s) by (unfold s; apply Rmult_lt_0_compat; lra).
  assert (S' : 0 < PI * PI * s) by (apply Rmult_lt_0_compat; lra).
  assert (T : 0 < Rabs t). { apply Rabs_pos_lt. intros Z. rewrite Z in P. lra. }
  assert (E' : Rabs (Rabs t * Rabs t * (PI * PI * s) - Rabs a * Rabs a) <= / 500000).
  { replace (Rabs t * Rabs t) with (t * t) by (unfold Rabs; destruct (Rcase_abs t); ring).
    replace (Rabs a * Rabs a) with (a * a) by (unfold Rabs; destruct (Rcase_abs a); ring). exact E. }
  pose proof (close_root (Rabs t) (Rabs a) (PI * PI * s) (/ 500000) S' ltac:(lra) T E') as K.
  rewrite sqrt_mult in K by nra. rewrite sqrt_square in K by lra. change (sqrt s) with (normOf i) in K.
  set (n := normOf i) in *. clearbody n.
  replace (t * q - a * q / n / PI) with (q * (t - a / (PI * n))) by (field; lra).
  assert (E2 : Rabs (t - a / (PI * n)) = Rabs (Rabs t - Rabs a / (PI * n))).
  { destruct (Rlt_dec t 0) as [Ht|Ht].
    - assert (Ha : a < 0) by nra. rewrite (Rabs_left t), (Rabs_left a) by lra.
      rewrite <- (Rabs_Ropp (t - a / (PI * n))). f_equal. field. lra.
    - assert (Ha : 0 <= a) by nra. rewrite (Rabs_pos_eq t), (Rabs_pos_eq a) by lra. reflexivity. }
  rewrite Rabs_mult, E2.
  assert (K2 : / 500000 / (Rabs a * (PI * n)) <= / 1000000).
  { unfold Rdiv. replace (/ 1000000) with (/ 500000 * / 2) by lra. apply Rmult_le_compat_l; [lra|]. apply Rinv_le_contravar; [lra|].
    assert (4 <= PI * n) by nra. nra. }
  pose proof (Rabs_pos q). pose proof (Rabs_pos (Rabs t - Rabs a / (PI * n))). nra.
Qed.
