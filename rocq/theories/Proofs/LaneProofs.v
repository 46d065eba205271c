(** Lane-wise min, max, clamp, select; horizontal extremes; sign; rounding. *)
From Coq Require Import ZArith Reals Bool List Lia Lra.
From Flocq Require Import Core.Core IEEE754.BinarySingleNaN IEEE754.Binary IEEE754.Bits.
From Verif.Model Require Import Outcome Scalar Vec Simd Lanes.
From Verif.Spec Require Import VecSpec LaneSpec.
From Verif.Proofs Require Import OrdScalar F32Round F32Err.
Import ListNotations.
Local Open Scope R_scope.

Section Generic.
  Context {F : Type} {S : Scalar F} {O : OrdScalar F}.

  Lemma stdmin_simd : forall a b : F, stdmin a b = simdmin GEN a b. Proof. reflexivity. Qed.
  Lemma stdmax_simd : forall a b : F, stdmax a b = simdmax GEN a b. Proof. reflexivity. Qed.

  Lemma least2 : forall p (a b : F), num a -> num b -> isLeast [a; b] (simdmin p a b).
  Proof.
    intros p a b A B. destruct (simdmin_cases p a b A B) as [[-> H]|[-> H]]; (split; [cbn; auto|]);
      repeat (apply Forall_cons; [lra|]); apply Forall_nil.
  Qed.
  Lemma greatest2 : forall p (a b : F), num a -> num b -> isGreatest [a; b] (simdmax p a b).
  Proof.
    intros p a b A B. destruct (simdmax_cases p a b A B) as [[-> H]|[-> H]]; (split; [cbn; auto|]);
      repeat (apply Forall_cons; [lra|]); apply Forall_nil.
  Qed.

  Ltac inv H := inversion H; clear H; subst.
  Ltac invs := repeat match goal with H : nums (_ :: _) |- _ => inv H | H : Forall _ (_ :: _) |- _ => inv H | H : nums [] |- _ => clear H | H : Forall _ [] |- _ => clear H end.

  Lemma min_lanes : forall p a b, nums (l4 a) -> nums (l4 b) ->
    lanewise (fun x y r => isLeast [x; y] r) (l4 a) (l4 b) (l4 (vmin p a b)).
  Proof.
    intros p [a0 a1 a2 a3] [b0 b1 b2 b3] A B. cbn in *. unfold l4 in *; cbn in *. invs.
    repeat (constructor; [apply least2; assumption|]). constructor.
  Qed.
  Lemma max_lanes : forall p a b, nums (l4 a) -> nums (l4 b) ->
    lanewise (fun x y r => isGreatest [x; y] r) (l4 a) (l4 b) (l4 (vmax p a b)).
  Proof.
    intros p [a0 a1 a2 a3] [b0 b1 b2 b3] A B. unfold l4 in *; cbn in *. invs.
    repeat (constructor; [apply greatest2; assumption|]). constructor.
  Qed.
  Lemma plain_min : forall (a b : vec4 F) (c d : vec3 F) (e f : vec2 F),
    nums (l4 a ++ l4 b ++ l3 c ++ l3 d ++ l2 e ++ l2 f) ->
    lanewise (fun x y r => isLeast [x; y] r) (l4 a) (l4 b) (l4 (minp4 a b)) /\
    lanewise (fun x y r => isLeast [x; y] r) (l3 c) (l3 d) (l3 (minp3 c d)) /\
    lanewise (fun x y r => isLeast [x; y] r) (l2 e) (l2 f) (l2 (minp2 e f)).
  Proof.
    intros [a0 a1 a2 a3] [b0 b1 b2 b3] [c0 c1 c2] [d0 d1 d2] [e0 e1] [g0 g1] H. unfold l4, l3, l2 in *; cbn in *. invs.
    split; [|split]; (repeat (constructor; [rewrite stdmin_simd; apply least2; assumption|]); constructor).
  Qed.
  Lemma plain_max : forall (a b : vec4 F) (c d : vec3 F) (e f : vec2 F),
    nums (l4 a ++ l4 b ++ l3 c ++ l3 d ++ l2 e ++ l2 f) ->
    lanewise (fun x y r => isGreatest [x; y] r) (l4 a) (l4 b) (l4 (maxp4 a b)) /\
    lanewise (fun x y r => isGreatest [x; y] r) (l3 c) (l3 d) (l3 (maxp3 c d)) /\
    lanewise (fun x y r => isGreatest [x; y] r) (l2 e) (l2 f) (l2 (maxp2 e f)).
  Proof.
    intros [a0 a1 a2 a3] [b0 b1 b2 b3] [c0 c1 c2] [d0 d1 d2] [e0 e1] [g0 g1] H. unfold l4, l3, l2 in *; cbn in *. invs.
    split; [|split]; (repeat (constructor; [rewrite stdmax_simd; apply greatest2; assumption|]); constructor).
  Qed.

  (** *** Horizontal *)
  Lemma least_app : forall xs ys x y p, num x -> num y -> isLeast xs x -> isLeast ys y ->
    isLeast (xs ++ ys) (simdmin p x y).
  Proof.
    intros xs ys x y p Nx Ny [Ix Fx] [Iy Fy]. destruct (simdmin_cases p x y Nx Ny) as [[-> H]|[-> H]]; split.
    - apply in_or_app; auto.
    - apply Forall_app. split; [exact Fx|]. eapply Forall_impl; [|exact Fy]. cbn. intros; lra.
    - apply in_or_app; auto.
    - apply Forall_app. split; [|exact Fy]. eapply Forall_impl; [|exact Fx]. cbn. intros; lra.
  Qed.
  Lemma greatest_app : forall xs ys x y p, num x -> num y -> isGreatest xs x -> isGreatest ys y ->
    isGreatest (xs ++ ys) (simdmax p x y).
  Proof.
    intros xs ys x y p Nx Ny [Ix Fx] [Iy Fy]. destruct (simdmax_cases p x y Nx Ny) as [[-> H]|[-> H]]; split.
    - apply in_or_app; auto.
    - apply Forall_app. split; [exact Fx|]. eapply Forall_impl; [|exact Fy]. cbn. intros; lra.
    - apply in_or_app; auto.
    - apply Forall_app. split; [|exact Fy]. eapply Forall_impl; [|exact Fx]. cbn. intros; lra.
  Qed.
  Lemma least_set : forall xs ys r, (forall x, In x xs <-> In x ys) -> isLeast xs r -> isLeast ys r.
  Proof.
    intros xs ys r E [I Fa]. split; [apply E, I|]. rewrite Forall_forall in *. intros x Hx. apply Fa, E, Hx.
  Qed.
  Lemma greatest_set : forall xs ys r, (forall x, In x xs <-> In x ys) -> isGreatest xs r -> isGreatest ys r.
  Proof.
    intros xs ys r E [I Fa]. split; [apply E, I|]. rewrite Forall_forall in *. intros x Hx. apply Fa, E, Hx.
  Qed.
  Lemma least1 : forall x, isLeast [x] x. Proof. intros x. split; [cbn; auto|]. apply Forall_cons; [lra|apply Forall_nil]. Qed.
  Lemma greatest1 : forall x, isGreatest [x] x. Proof. intros x. split; [cbn; auto|]. apply Forall_cons; [lra|apply Forall_nil]. Qed.

  Lemma min4_least : forall p v, nums (l4 v) -> isLeast (l4 v) (vmin4 p v).
  Proof.
    intros p [a b c d] N. unfold l4 in *; cbn in *. invs. unfold vmin4. cbn.
    apply (least_set ([a; b] ++ [c; d])); [cbn; tauto|].
    apply least_app; try apply simdmin_num; auto using least2.
  Qed.
  Lemma max4_greatest : forall p v, nums (l4 v) -> isGreatest (l4 v) (vmax4 p v).
  Proof.
    intros p [a b c d] N. unfold l4 in *; cbn in *. invs. unfold vmax4. cbn.
    apply (greatest_set ([a; b] ++ [c; d])); [cbn; tauto|].
    apply greatest_app; try apply simdmax_num; auto using greatest2.
  Qed.
  Lemma min3_least : forall p v, nums (l43 v) -> isLeast (l43 v) (vmin3 p v).
  Proof.
    intros p [a b c d] N. unfold l43 in *; cbn in *. invs. unfold vmin3. cbn.
    apply (least_set ([a; b] ++ [c; c])); [cbn; tauto|].
    apply least_app; try apply simdmin_num; auto using least2.
  Qed.
  Lemma max3_greatest : forall p v, nums (l43 v) -> isGreatest (l43 v) (vmax3 p v).
  Proof.
    intros p [a b c d] N. unfold l43 in *; cbn in *. invs. unfold vmax3. cbn.
    apply (greatest_set ([a; b] ++ [c; c])); [cbn; tauto|].
    apply greatest_app; try apply simdmax_num; auto using greatest2.
  Qed.
  Lemma scalar3 : forall a b c : F, num a -> num b -> num c ->
    isLeast [a; b; c] (min3f a b c) /\ isGreatest [a; b; c] (max3f a b c).
  Proof.
    intros a b c A B C. unfold min3f, max3f. rewrite !stdmin_simd, !stdmax_simd. split.
    - apply (least_app [a; b] [c]); auto using least2, least1, simdmin_num.
    - apply (greatest_app [a; b] [c]); auto using greatest2, greatest1, simdmax_num.
  Qed.

  (** *** Clamp *)
  Lemma clamp_lane : forall p (v lo hi : F), num v -> num lo -> num hi -> ext lo <= ext hi ->
    clamped v lo hi (simdmax p (simdmin p v hi) lo).
  Proof.
    intros p v lo hi V L H LH. pose proof (simdmin_num p v hi V H) as N.
    destruct (simdmin_cases p v hi V H) as [[E G]|[E G]]; rewrite E in *;
      (destruct (simdmax_cases p _ lo N L) as [[-> K]|[-> K]]); unfold clamped; cbn [In];
      (split; [auto|]); repeat split; intros; lra.
  Qed.
  Lemma clamp_lanes : forall p v lo hi, nums (l4 v) -> nums (l4 lo) -> nums (l4 hi) -> ordered (l4 lo) (l4 hi) ->
    lanewise4 clamped (l4 v) (l4 lo) (l4 hi) (l4 (vclamp p v lo hi)).
  Proof.
    intros p [a0 a1 a2 a3] [b0 b1 b2 b3] [c0 c1 c2 c3] A B C Or. unfold l4 in *; cbn in *. invs.
    repeat match goal with H : ordered (_ :: _) _ |- _ => inv H | H : Forall2 _ (_ :: _) _ |- _ => inv H end.
    repeat (constructor; [apply clamp_lane; assumption|]). constructor.
  Qed.
  Lemma clampS_ok : forall v lo hi : F, num v -> num lo -> num hi ->
    (ext lo <= ext hi -> exists r, clampS v lo hi = Ok r /\ clamped v lo hi r) /\
    (ext hi < ext lo -> clampS v lo hi = UB).
  Proof.
    intros v lo hi V L H. unfold clampS, stdclamp. split; intros G.
    - rewrite (proj2 (slt_false hi lo H L)) by exact G. eexists. split; [reflexivity|].
      rewrite !slt_ext by assumption.
      destruct (Rlt_bool_spec (ext v) (ext lo)), (Rlt_bool_spec (ext hi) (ext v)); unfold clamped; cbn [In];
        (split; [auto|]); repeat split; intros; lra.
    - rewrite (proj2 (slt_iff hi lo H L)) by exact G. reflexivity.
  Qed.
  Lemma clampS_idem : forall v lo hi r : F, num v -> num lo -> num hi ->
    clampS v lo hi = Ok r -> clampS r lo hi = Ok r.
  Proof.
    intros v lo hi r V L H. unfold clampS, stdclamp. rewrite !(slt_ext hi lo) by assumption.
    destruct (Rlt_bool_spec (ext hi) (ext lo)); [discriminate|]. intros E. injection E as <-.
    rewrite !(slt_ext v lo), !(slt_ext hi v) by assumption.
    destruct (Rlt_bool_spec (ext v) (ext lo)), (Rlt_bool_spec (ext hi) (ext v));
      rewrite ?slt_ext by assumption;
      repeat match goal with |- context [Rlt_bool ?a ?b] => destruct (Rlt_bool_spec a b); try lra end; reflexivity.
  Qed.
  Lemma clamp_vectors : forall v lo hi : vec4 F, nums (l4 v) -> nums (l4 lo) -> nums (l4 hi) -> ordered (l4 lo) (l4 hi) ->
    exists r, clamp4 v lo hi = Ok r /\ lanewise4 clamped (l4 v) (l4 lo) (l4 hi) (l4 r).
  Proof.
    intros [a0 a1 a2 a3] [b0 b1 b2 b3] [c0 c1 c2 c3] A B C Or. unfold l4 in *; cbn in *. invs.
    repeat match goal with H : ordered (_ :: _) _ |- _ => inv H | H : Forall2 _ (_ :: _) _ |- _ => inv H end.
    unfold clamp4; cbn.
    repeat match goal with |- context [clampS ?v ?l ?h] =>
      let r := fresh "r" in let E := fresh "E" in let K := fresh "K" in
      destruct (proj1 (clampS_ok v l h ltac:(assumption) ltac:(assumption) ltac:(assumption)) ltac:(assumption)) as (r & E & K);
      rewrite E; cbn [bind] end.
    eexists. split; [reflexivity|]. cbn. repeat (constructor; [assumption|]). constructor.
  Qed.
  Lemma clamp_vectors3 : forall v lo hi : vec3 F, nums (l3 v) -> nums (l3 lo) -> nums (l3 hi) -> ordered (l3 lo) (l3 hi) ->
    exists r, clamp3 v lo hi = Ok r /\ lanewise4 clamped (l3 v) (l3 lo) (l3 hi) (l3 r).
  Proof.
    intros [a0 a1 a2] [b0 b1 b2] [c0 c1 c2] A B C Or. unfold l3 in *; cbn in *. invs.
    repeat match goal with H : ordered (_ :: _) _ |- _ => inv H | H : Forall2 _ (_ :: _) _ |- _ => inv H end.
    unfold clamp3; cbn.
    repeat match goal with |- context [clampS ?v ?l ?h] =>
      let r := fresh "r" in let E := fresh "E" in let K := fresh "K" in
      destruct (proj1 (clampS_ok v l h ltac:(assumption) ltac:(assumption) ltac:(assumption)) ltac:(assumption)) as (r & E & K);
      rewrite E; cbn [bind] end.
    eexists. split; [reflexivity|]. cbn. repeat (constructor; [assumption|]). constructor.
  Qed.
  Lemma clamp_vectors2 : forall v lo hi : vec2 F, nums (l2 v) -> nums (l2 lo) -> nums (l2 hi) -> ordered (l2 lo) (l2 hi) ->
    exists r, clamp2 v lo hi = Ok r /\ lanewise4 clamped (l2 v) (l2 lo) (l2 hi) (l2 r).
  Proof.
    intros [a0 a1] [b0 b1] [c0 c1] A B C Or. unfold l2 in *; cbn in *. invs.
    repeat match goal with H : ordered (_ :: _) _ |- _ => inv H | H : Forall2 _ (_ :: _) _ |- _ => inv H end.
    unfold clamp2; cbn.
    repeat match goal with |- context [clampS ?v ?l ?h] =>
      let r := fresh "r" in let E := fresh "E" in let K := fresh "K" in
      destruct (proj1 (clampS_ok v l h ltac:(assumption) ltac:(assumption) ltac:(assumption)) ltac:(assumption)) as (r & E & K);
      rewrite E; cbn [bind] end.
    eexists. split; [reflexivity|]. cbn. repeat (constructor; [assumption|]). constructor.
  Qed.
End Generic.

(** *** Bit-exact idempotence in binary32 *)
Lemma ext_sign_inj : forall a b : f32, num a -> num b -> ext a = ext b -> ssign a = ssign b -> a = b.
Proof.
  intros a b A B E Sg. cbn [num OrdF32 ssign ScalarF32 ext] in *.
  destruct (is_finite 24 128 a) eqn:Fa, (is_finite 24 128 b) eqn:Fb.
  - rewrite !ext32_finite in E by assumption. apply B2R_Bsign_inj; assumption.
  - destruct b as [s|s|s pl H|s m e H]; try discriminate. rewrite (ext32_finite a) in E by assumption.
    pose proof (B2R_bound a). destruct s; cbn [ext32] in E; lra.
  - destruct a as [s|s|s pl H|s m e H]; try discriminate. rewrite (ext32_finite b) in E by assumption.
    pose proof (B2R_bound b). destruct s; cbn [ext32] in E; lra.
  - destruct a as [s|s|s pl H|s m e H]; try discriminate. destruct b as [s'|s'|s' pl' H'|s' m' e' H']; try discriminate.
    cbn in Sg. congruence.
Qed.
Lemma clamp_lane_idem : forall p (v lo hi : f32), num v -> num lo -> num hi -> ext lo <= ext hi ->
  let r := simdmax p (simdmin p v hi) lo in simdmax p (simdmin p r hi) lo = r.
Proof.
  intros p v lo hi V L H LH r. subst r.
  destruct p; unfold simdmin, simdmax, stdmin, stdmax;
  repeat (match goal with
    | A : num ?a, B : num ?b |- context [slt ?a ?b] => rewrite (slt_ext a b A B); destruct (Rlt_bool_spec (ext a) (ext b))
    | A : num ?a |- context [slt ?a ?a] => rewrite (slt_ext a a A A); destruct (Rlt_bool_spec (ext a) (ext a))
    | A : num ?a |- context [snan ?a] => rewrite (num_snan a A)
    | H1 : ssign ?a = _ |- context [ssign ?a] => rewrite H1
    | A : num ?a |- context [ssign ?a] => destruct (ssign a) eqn:?
    end; cbv iota; try lra; try reflexivity).
  all: apply ext_sign_inj; (assumption || lra || congruence).
Qed.
Lemma clamp_idem : forall p (v lo hi : vec4 f32), nums (l4 v) -> nums (l4 lo) -> nums (l4 hi) -> ordered (l4 lo) (l4 hi) ->
  vclamp p (vclamp p v lo hi) lo hi = vclamp p v lo hi.
Proof.
  intros p [a0 a1 a2 a3] [b0 b1 b2 b3] [c0 c1 c2 c3] A B C Or. unfold l4 in *; cbn [vx vy vz vw] in *.
  repeat match goal with H : nums (_ :: _) |- _ => inversion H; clear H; subst | H : Forall _ (_ :: _) |- _ => inversion H; clear H; subst end.
  repeat match goal with H : ordered (_ :: _) _ |- _ => inversion H; clear H; subst | H : Forall2 _ (_ :: _) _ |- _ => inversion H; clear H; subst end.
  unfold vclamp, vmax, vmin, map2_4; cbn [vx vy vz vw]. f_equal; apply clamp_lane_idem; assumption.
Qed.

(** *** Select *)
Lemma select_lanes : forall A (c : vec4 Z) (t f : vec4 A) i, (0 <= i < 4)%Z ->
  lane (select4 c t f) i = if Z.testbit (lane c i) 31 then lane t i else lane f i.
Proof.
  intros A c t f i Hi. assert (E : (i = 0 \/ i = 1 \/ i = 2 \/ i = 3)%Z) by lia.
  destruct E as [->|[->|[->| ->]]]; reflexivity.
Qed.
Lemma select_compare : forall A (b0 b1 b2 b3 : bool) (t f : vec4 A),
  select4 (V4 (maskOf b0) (maskOf b1) (maskOf b2) (maskOf b3)) t f =
  V4 (if b0 then vx t else vx f) (if b1 then vy t else vy f) (if b2 then vz t else vz f) (if b3 then vw t else vw f).
Proof. intros. unfold select4; cbn [vx vy vz vw]. rewrite !sel_mask. reflexivity. Qed.
Lemma select_short : forall A (b0 b1 b2 : bool) (t f : vec3 A) (t2 f2 : vec2 A),
  select3 (V3 (maskOf b0) (maskOf b1) (maskOf b2)) t f =
    V3 (if b0 then x3 t else x3 f) (if b1 then y3 t else y3 f) (if b2 then z3 t else z3 f) /\
  select2 (V2 (maskOf b0) (maskOf b1)) t2 f2 = V2 (if b0 then x2 t2 else x2 f2) (if b1 then y2 t2 else y2 f2).
Proof. intros. unfold select3, select2; cbn [x3 y3 z3 x2 y2]. rewrite !sel_mask. split; reflexivity. Qed.

(** ** Sign bits *)
Lemma bits_range : forall v : f32, (0 <= bits_of_b32 v < 2 ^ 32)%Z.
Proof. intros v. apply (bits_of_binary_float_range 23 8 eq_refl eq_refl v). Qed.
Lemma bits_sign : forall v : f32, (2 ^ 31 <=? bits_of_b32 v)%Z = Bsign 24 128 v.
Proof.
  intros v. pose proof (split_bits_of_binary_float_correct 23 8 eq_refl eq_refl v) as H.
  unfold split_bits in H. unfold bits_of_b32.
  assert (K : fst (fst (split_bits_of_binary_float 23 8 v)) = Bsign 24 128 v).
  { destruct v as [s|s|s pl E|s m e E]; try reflexivity. cbn [split_bits_of_binary_float Bsign]. destruct (0 <=? _)%Z; reflexivity. }
  rewrite <- K, <- H. reflexivity.
Qed.
Lemma top_bit : forall b, (0 <= b < 2 ^ 32)%Z -> Z.testbit b 31 = (2 ^ 31 <=? b)%Z.
Proof.
  intros b B. rewrite Z.testbit_odd, Z.shiftr_div_pow2 by lia.
  destruct (2 ^ 31 <=? b)%Z eqn:E.
  - apply Z.leb_le in E. replace (b / 2 ^ 31)%Z with 1%Z; [reflexivity|]. apply Z.div_unique with (b - 2 ^ 31)%Z; lia.
  - apply Z.leb_gt in E. rewrite Z.div_small by lia. reflexivity.
Qed.
Lemma bits_top : forall v : f32, Z.testbit (bits_of_b32 v) 31 = Bsign 24 128 v.
Proof. intros v. rewrite top_bit by apply bits_range. apply bits_sign. Qed.
Lemma bits_shift : forall v : f32, Z.shiftr (bits_of_b32 v) 31 = Z.b2z (Bsign 24 128 v).
Proof.
  intros v. rewrite Z.shiftr_div_pow2 by lia. rewrite <- bits_sign. pose proof (bits_range v) as B.
  destruct (2 ^ 31 <=? bits_of_b32 v)%Z eqn:E.
  - apply Z.leb_le in E. symmetry. apply Z.div_unique with (bits_of_b32 v - 2 ^ 31)%Z; cbn [Z.b2z]; lia.
  - apply Z.leb_gt in E. rewrite Z.div_small by lia. reflexivity.
Qed.
Lemma sign_lane : forall p (v : f32), signLane p v = if Bsign 24 128 v then slit (-1) 0 else f1.
Proof.
  intros p v. assert (G : b32_of_bits (Z.lor (Z.land (bits_of_b32 v) minusOneBits) oneBits) = if Bsign 24 128 v then slit (-1) 0 else f1).
  { assert (E : Z.lor (Z.land (bits_of_b32 v) minusOneBits) oneBits = Z.lor (Z.land (bits_of_b32 v) (2 ^ 31)) oneBits).
    { change minusOneBits with (Z.lor (2 ^ 31) oneBits). apply Z.bits_inj'. intros n Hn.
      rewrite !Z.lor_spec, !Z.land_spec, !Z.lor_spec.
      destruct (Z.testbit (bits_of_b32 v) n), (Z.testbit (2 ^ 31) n), (Z.testbit oneBits n); reflexivity. }
    assert (L : Z.land (bits_of_b32 v) (2 ^ 31) = if Bsign 24 128 v then (2 ^ 31)%Z else 0%Z).
    { rewrite <- bits_top. apply Z.bits_inj'. intros n Hn. rewrite Z.land_spec, (Z.pow2_bits_eqb 31) by lia.
      destruct (Z.eqb_spec 31 n) as [<-|Ne].
      - destruct (Z.testbit (bits_of_b32 v) 31); reflexivity.
      - rewrite andb_false_r. destruct (Z.testbit (bits_of_b32 v) 31); [|now rewrite Z.bits_0].
        rewrite Z.pow2_bits_eqb by lia. symmetry. apply Z.eqb_neq. exact Ne. }
    rewrite E, L. destruct (Bsign 24 128 v); apply Binary.B2FF_inj; vm_compute; reflexivity. }
  destruct p; try exact G. reflexivity.
Qed.
Lemma sign_plain : forall v : f32, signS v = if Bsign 24 128 v then slit (-1) 0 else f1. Proof. reflexivity. Qed.
Lemma one_values : val (f1 : f32) = 1 /\ val (slit (-1) 0 : f32) = -1.
Proof. split; [exact (proj2 (lit_Z 1 ltac:(cbn; lia)))|exact (proj2 (lit_Z (-1) ltac:(cbn; lia)))]. Qed.
Lemma sign_vectors : forall p (v : vec4 f32) (v3 : vec3 f32) (v2 : vec2 f32),
  l4 (signV p v) = map (fun x => if Bsign 24 128 x then slit (-1) 0 else f1) (l4 v) /\
  l4 (sign4 v) = map (fun x => if Bsign 24 128 x then slit (-1) 0 else f1) (l4 v) /\
  l3 (sign3 v3) = map (fun x => if Bsign 24 128 x then slit (-1) 0 else f1) (l3 v3) /\
  l2 (sign2 v2) = map (fun x => if Bsign 24 128 x then slit (-1) 0 else f1) (l2 v2).
Proof.
  intros p v v3 v2. split; [|repeat split].
  unfold signV, map_4, l4; cbn [vx vy vz vw map]. rewrite !sign_lane. reflexivity.
Qed.
Lemma pack4 : forall p (v : vec4 f32), signBitsV p v = signBits4 v.
Proof.
  intros p v. unfold signBitsV, signBits4, getTrues4, map_4. cbn [vx vy vz vw]. rewrite !bits_shift, !bits_top.
  assert (G : forall a b c d, (Z.b2z a + 2 * Z.b2z b + 4 * Z.b2z c + 8 * Z.b2z d =
    Z.lor (Z.lor (Z.lor (bitIf a 1) (bitIf b 2)) (bitIf c 4)) (bitIf d 8))%Z) by (intros [] [] [] []; reflexivity).
  assert (G2 : forall a b c d, (Z.b2z a + Z.shiftl (Z.b2z b) 1 + Z.shiftl (Z.b2z c) 2 + Z.shiftl (Z.b2z d) 3 =
    Z.lor (Z.lor (Z.lor (bitIf a 1) (bitIf b 2)) (bitIf c 4)) (bitIf d 8))%Z) by (intros [] [] [] []; reflexivity).
  destruct p; first [apply G | apply G2 | reflexivity].
Qed.
Lemma sign_bits_spec : forall (v : vec4 f32) (v3 : vec3 f32) (v2 : vec2 f32),
  packedBits (map (Bsign 24 128) (l4 v)) (signBits4 v) /\
  packedBits (map (Bsign 24 128) (l3 v3)) (signBits3 v3) /\
  packedBits (map (Bsign 24 128) (l2 v2)) (signBits2 v2).
Proof.
  intros [a b c d] [e f g] [h k]. unfold l4, l3, l2, packedBits, signBits4, signBits3, signBits2. cbn [vx vy vz vw x3 y3 z3 x2 y2 map length ssign ScalarF32].
  split; [|split].
  - destruct (Bsign 24 128 a), (Bsign 24 128 b), (Bsign 24 128 c), (Bsign 24 128 d); (split; [cbn; lia|]);
      intros i Hi; do 4 (destruct i as [|i]; [reflexivity|]); lia.
  - destruct (Bsign 24 128 e), (Bsign 24 128 f), (Bsign 24 128 g); (split; [cbn; lia|]);
      intros i Hi; do 3 (destruct i as [|i]; [reflexivity|]); lia.
  - destruct (Bsign 24 128 h), (Bsign 24 128 k); (split; [cbn; lia|]);
      intros i Hi; do 2 (destruct i as [|i]; [reflexivity|]); lia.
Qed.
Lemma sign_bits_simd : forall p (v : vec4 f32), packedBits (map (Bsign 24 128) (l4 v)) (signBitsV p v).
Proof. intros p v. rewrite pack4. apply (sign_bits_spec v (V3 f0 f0 f0) (V2 f0 f0)). Qed.

(** ** Absolute value by masking *)
Lemma abs_mask : forall v : f32, num v -> absSse v = sabs v.
Proof.
  intros v N. unfold absSse.
  assert (E : Z.land (bits_of_b32 v) 2147483647 = bits_of_b32 (b32_abs v)).
  { change 2147483647%Z with (Z.ones 31). rewrite Z.land_ones by lia.
    assert (R : (0 <= bits_of_b32 (b32_abs v) < 2 ^ 31)%Z).
    { pose proof (bits_range (b32_abs v)). pose proof (bits_sign (b32_abs v)) as Sg.
      replace (Bsign 24 128 (b32_abs v)) with false in Sg by (destruct v as [s|s|s pl E|s m e E]; (reflexivity || discriminate)).
      apply Z.leb_gt in Sg. lia. }
    assert (D : (bits_of_b32 v = bits_of_b32 (b32_abs v) \/ bits_of_b32 v = bits_of_b32 (b32_abs v) + 1 * 2 ^ 31)%Z).
    { destruct v as [s|s|s pl E|s m e E]; try discriminate; destruct s; auto; right; try reflexivity.
      unfold bits_of_b32, b32_abs, Babs, bits_of_binary_float, join_bits. destruct (0 <=? _)%Z; rewrite !Z.shiftl_mul_pow2 by lia; lia. }
    destruct D as [->| ->]; [|rewrite Z.mod_add by lia]; apply Z.mod_small; exact R. }
  rewrite E. unfold b32_of_bits, bits_of_b32. apply (binary_float_of_bits_of_binary_float 23 8 eq_refl eq_refl eq_refl).
Qed.
Lemma abs_value : forall v : f32, num v -> ext (absSse v) = Rabs (ext v) /\ Bsign 24 128 (absSse v) = false.
Proof.
  intros v N. rewrite (abs_mask v N). pose proof (bpow_gt_0 radix2 128) as P.
  destruct v as [s|s|s pl E|s m e E]; try discriminate; (split; [|reflexivity]).
  - cbn. rewrite Rabs_R0. reflexivity.
  - destruct s; cbn [ext OrdF32 sabs ScalarF32 b32_abs Babs ext32].
    + rewrite Rabs_Ropp, Rabs_right by lra. reflexivity.
    + rewrite Rabs_right by lra. reflexivity.
  - change (val (b32_abs (B754_finite 24 128 s m e E)) = Rabs (val (B754_finite 24 128 s m e E))). apply B2R_Babs.
Qed.

(** ** Rounding *)
Lemma FIX0 : forall rndm x, round radix2 (FIX_exp 0) rndm x = IZR (rndm x).
Proof.
  intros rndm x. unfold round, F2R, scaled_mantissa, cexp, FIX_exp. cbn [Fnum Fexp bpow].
  rewrite Z.opp_0. cbn [bpow]. rewrite !Rmult_1_r. reflexivity.
Qed.
Lemma nearby : forall md (v : f32), fin v ->
  let r := Bnearbyint 24 128 eq_refl unop_nan_pl32 md v in
  fin r /\ val r = IZR (round_mode md (val v)) /\ Bsign 24 128 r = Bsign 24 128 v.
Proof.
  intros md v Fv r. destruct (Binary.Bnearbyint_correct 24 128 eq_refl unop_nan_pl32 md v) as (A & B & C).
  fold r in A, B, C. assert (Fr : fin r) by (rewrite B; exact Fv).
  split; [exact Fr|]. split; [rewrite A; apply FIX0|]. apply C. destruct r; (reflexivity || discriminate).
Qed.
Lemma nearby_special : forall md (v : f32), is_finite 24 128 v = false ->
  Bnearbyint 24 128 eq_refl unop_nan_pl32 md v = v.
Proof. intros md [s|s|s pl E|s m e E] H; try discriminate; reflexivity. Qed.
Lemma floor_ceil_trunc : forall p (v : f32), fin v ->
  (fin (floorLane p v) /\ val (floorLane p v) = IZR (Zfloor (val v))) /\
  (fin (ceilLane p v) /\ val (ceilLane p v) = IZR (Zceil (val v))) /\
  (fin (truncLane p v) /\ val (truncLane p v) = IZR (Ztrunc (val v))) /\
  (Bsign 24 128 (floorLane p v) = Bsign 24 128 v /\ Bsign 24 128 (ceilLane p v) = Bsign 24 128 v /\ Bsign 24 128 (truncLane p v) = Bsign 24 128 v).
Proof.
  intros p v Fv. unfold floorLane, ceilLane, truncLane, floorS, ceilS, truncS.
  destruct (nearby mode_DN v Fv) as (A & B & C), (nearby mode_UP v Fv) as (A' & B' & C'), (nearby mode_ZR v Fv) as (A2 & B2 & C2).
  auto 10.
Qed.
Lemma round_nearest : forall p (v : f32), fin v ->
  exists n, nearestInt (val v) n /\ fin (roundLane p v) /\ val (roundLane p v) = IZR n.
Proof.
  intros p v Fv.
  assert (G : forall md, (md = mode_NE \/ md = mode_NA) -> nearestInt (val v) (round_mode md (val v))).
  { intros md Hm. unfold nearestInt. rewrite Rabs_minus_sym. destruct Hm as [->| ->]; cbn [round_mode]; rewrite Rabs_minus_sym; apply Znearest_half. }
  destruct (nearby mode_NA v Fv) as (A & B & _). destruct (nearby mode_NE v Fv) as (A' & B' & _).
  destruct p; cbn [roundLane]; unfold roundS; eexists; (split; [|split]); try exact B; try exact B'; try exact A; try exact A'; apply G; auto.
Qed.
Lemma round_ties : forall p (v : f32), fin v ->
  val (roundLane p v) = IZR (match p with SSE2 | GEN => Znearest (Z.leb 0) (val v) | _ => Znearest (fun x => negb (Z.even x)) (val v) end).
Proof.
  intros p v Fv. destruct (nearby mode_NA v Fv) as (_ & B & _). destruct (nearby mode_NE v Fv) as (_ & B' & _).
  destruct p; cbn [roundLane]; unfold roundS; (exact B || exact B').
Qed.
Lemma round_plain : forall v : f32, fin v -> val (roundS v) = IZR (Znearest (Z.leb 0) (val v)).
Proof. intros v Fv. apply (nearby mode_NA v Fv). Qed.
Lemma round_agree_off_half : forall p q (v : f32), fin v -> val v - IZR (Zfloor (val v)) <> / 2 ->
  roundLane p v = roundLane q v.
Proof.
  intros p q v Fv H.
  assert (G : Bnearbyint 24 128 eq_refl unop_nan_pl32 mode_NE v = roundS v).
  { destruct (nearby mode_NA v Fv) as (A & B & C). destruct (nearby mode_NE v Fv) as (A' & B' & C').
    unfold roundS. apply B2R_Bsign_inj; try assumption; [|congruence]. rewrite B, B'. f_equal. cbn [round_mode].
    unfold ZnearestE, ZnearestA, Znearest. destruct (Rcompare_spec (val v - IZR (Zfloor (val v))) (/ 2)); auto; contradiction. }
  destruct p, q; cbn [roundLane]; congruence.
Qed.
Lemma round_disagree : exists v : f32, fin v /\
  (seq (roundLane SSE41 v) f0 = true /\ seq (roundLane NEON v) f0 = true /\
   seq (roundLane SSE2 v) f1 = true /\ seq (roundLane GEN v) f1 = true /\ seq (roundS v) f1 = true).
Proof. exists fhalf. split; [apply half_val|]. repeat split; vm_compute; reflexivity. Qed.
Lemma special_rounds : forall p (v : f32), is_finite 24 128 v = false ->
  floorLane p v = v /\ ceilLane p v = v /\ truncLane p v = v /\ roundLane p v = v.
Proof. intros p v H. repeat split; try apply (nearby_special _ v H). destruct p; apply (nearby_special _ v H). Qed.
