(** Size, scale, trySet, the constant boxes and the slab ray test. *)
From Coq Require Import ZArith Bool List Reals Lra Btauto.
From Flocq Require Import Core.Core IEEE754.Binary IEEE754.Bits.
From Verif.Model Require Import Scalar Vec Simd Aabb.
From Verif.Spec Require Import GeomSpec BvhGeomSpec RaySpec.
From Verif.Proofs Require Import OrdScalar F32Round Frustum RealLits.
Local Open Scope R_scope.

Ltac simpl_vec := cbn [vx vy vz vw x2 y2 bmin bmax rdir rparallel rorigin dup4 map2_4 map_4
  vadd vsub vmul vdiv vneg vscale withW sadd ssub smul sdiv sneg ScalarR ext OrdR] in *.

(** ** C15 *)

Lemma vscale_half : forall v : vec4 R, vscale v fhalf = V4 (vx v / 2) (vy v / 2) (vz v / 2) (vw v / 2).
Proof. intros v. unfold vscale, vmul, map2_4. cbn [dup4 vx vy vz vw]. rewrite fhalfR. reflexivity. Qed.

Lemma vec4_eq : forall a b c d a' b' c' d' : R, a = a' -> b = b' -> c = c' -> d = d' ->
  V4 a b c d = V4 a' b' c' d'.
Proof. congruence. Qed.

Theorem size_round_trip : forall size pos : vec4 R,
  getSize (setSize size pos) = size /\ getPosition (setSize size pos) = pos /\
  getSize (setSize1 size) = size /\ getPosition (setSize1 size) = V4 0 0 0 0.
Proof.
  intros [a b c d] [x y z w]. unfold getSize, getPosition, setSize, setSize1. rewrite !vscale_half.
  cbv [vsub vadd vneg map2_4 map_4 vx vy vz vw bmin bmax sadd ssub sneg ScalarR].
  split; [|split; [|split]]; apply vec4_eq; field.
Qed.
Theorem extent_round_trip : forall extent pos : vec4 R,
  getExtent (setExtent extent pos) = extent /\ getPosition (setExtent extent pos) = pos /\
  getExtentPos (setExtent extent pos) = (extent, pos) /\
  getExtent (setExtent1 extent) = extent /\ getPosition (setExtent1 extent) = V4 0 0 0 0.
Proof.
  intros [a b c d] [x y z w]. unfold getExtentPos, getExtent, getPosition, setExtent, setExtent1. rewrite !vscale_half.
  cbv [vsub vadd vneg map2_4 map_4 vx vy vz vw bmin bmax sadd ssub sneg ScalarR].
  repeat split; try apply (f_equal2 pair); apply vec4_eq; field.
Qed.
Theorem translate_size : forall (b : aabb R) t,
  getSize (translateBox b t) = getSize b /\ getPosition (translateBox b t) = vadd (getPosition b) t /\
  (forall q, inBox (translateBox b t) (vadd q t) <-> inBox b q).
Proof.
  intros [[a b c d] [a' b' c' d']] [x y z w]. unfold getSize, getPosition, translateBox. rewrite !vscale_half.
  cbv [vsub vadd vneg map2_4 map_4 vx vy vz vw bmin bmax sadd ssub sneg ScalarR].
  split; [apply vec4_eq; ring|]. split; [apply vec4_eq; field|].
  intros [q0 q1 q2 q3]. unfold inBox, in3. cbn [vx vy vz bmin bmax ext OrdR]. lra.
Qed.
Theorem area_volume : forall p (b : aabb R), let s := getSize b in
  calcArea p b = 2 * (vx s * vy s) + 2 * (vx s * vz s) + 2 * (vy s * vz s) /\
  calcVolume b = vx s * vy s * vz s.
Proof.
  intros p b s. unfold calcArea, calcVolume. rewrite dot3R, f2R. cbn [vx vy vz smul ScalarR].
  fold (getSize b). split; [|reflexivity]. fold s. ring.
Qed.

(** ** C16 *)
Theorem scale_positive : forall (b : aabb R) s, 0 < vx s -> 0 < vy s -> 0 < vz s -> nonEmpty b ->
  nonEmpty (scaleBox b s) /\
  (forall q, inBox (scaleBox b s) (vmul q s) <-> inBox b q) /\
  (forall q', inBox (scaleBox b s) q' -> exists q, inBox b q /\ eq3 (vmul q s) q').
Proof.
  intros [mn mx] s Hx Hy Hz (N1 & N2 & N3). simpl_vec.
  assert (M : forall a b c, 0 < c -> a <= b <-> a * c <= b * c).
  { intros a b c Hc. split; intros H; [apply Rmult_le_compat_r; lra|]. apply Rmult_le_reg_r with c; lra. }
  assert (E : forall q, inBox (scaleBox (mkAabb mn mx) s) (vmul q s) <-> inBox (mkAabb mn mx) q).
  { intros q. unfold inBox, in3, scaleBox. simpl_vec. rewrite <- !M by assumption. reflexivity. }
  split; [|split].
  - unfold nonEmpty, scaleBox. simpl_vec. rewrite <- !M by assumption. auto.
  - exact E.
  - intros q' Hq'. set (q := V4 (vx q' / vx s) (vy q' / vy s) (vz q' / vz s) 0).
    assert (Q : eq3 (vmul q s) q').
    { unfold eq3, q. simpl_vec. repeat split; field; lra. }
    exists q. split; [|exact Q]. apply E. destruct Q as (Q1 & Q2 & Q3).
    unfold inBox, in3 in *. rewrite Q1, Q2, Q3. exact Hq'.
Qed.

Theorem scale_keeps_valid_F32 : forall (b : aabb f32) s, finiteBox3 b -> finite3 s -> validBox b ->
  0 <= ext (vx s) -> 0 <= ext (vy s) -> 0 <= ext (vz s) -> validBox (scaleBox b s).
Proof.
  intros [mn mx] s ((A1 & A2 & A3) & (B1 & B2 & B3)) (S1 & S2 & S3) ((_ & V1) & (_ & V2) & (_ & V3)) H1 H2 H3.
  cbn [bmin bmax] in *. rewrite !fin_ext in * by assumption.
  assert (M : forall a b c : f32, fin a -> fin b -> fin c -> val a <= val b -> 0 <= val c -> ext (a * c)%sc <= ext (b * c)%sc).
  { intros a b c Ha Hb Hc Hab H0. destruct (mul_fin a c Ha Hc) as (_ & ->). destruct (mul_fin b c Hb Hc) as (_ & ->).
    apply RX_le, Rmult_le_compat_r; assumption. }
  unfold validBox, in3, scaleBox. cbn [bmin bmax]. unfold vmul, map2_4. cbn [vx vy vz].
  assert (X := M _ _ _ A1 B1 S1 V1 H1). assert (Y := M _ _ _ A2 B2 S2 V2 H2). assert (Z := M _ _ _ A3 B3 S3 V3 H3).
  repeat split; (apply Rle_refl || assumption).
Qed.

(** ** C18 *)
Lemma not_one_lt_zero32 : sgt (f0 : f32) f1 = false.
Proof. reflexivity. Qed.
Theorem trySet_actual : forall p (b : aabb f32) mn mx, trySet p b mn mx = (true, mkAabb mn mx).
Proof.
  intros p b mn mx. unfold trySet, vgt, map2_4, withW. cbn [vx vy vz vw]. rewrite not_one_lt_zero32.
  rewrite areAllTrue_masks, andb_false_r. reflexivity.
Qed.

(** ** C19 *)
Lemma fltMin_num : num (fltMin : f32). Proof. reflexivity. Qed.
Lemma fltMax_num : num (fltMax : f32). Proof. reflexivity. Qed.

(** ** C20 *)
Section Slab.
  Variables (mn mx o rd d : R) (par : bool).
  Definition axLo : R := if par then - maxFinite else Rmin ((mn - o) * rd) ((mx - o) * rd).
  Definition axHi : R := if par then maxFinite else Rmax ((mn - o) * rd) ((mx - o) * rd).
  Definition axOut : bool := par && (Rlt_bool o mn || Rlt_bool mx o).
  Hypothesis Hne : mn <= mx.
  Hypothesis Hinv : invertedAxis (maskOf par) rd d.

  Lemma ax_cases : (par = true /\ d = 0) \/ (par = false /\ d <> 0 /\ rd = / d).
  Proof.
    destruct Hinv as [(E & ?)|(E & ? & ?)]; destruct par; try discriminate E; auto.
  Qed.

  Lemma ax_in : forall t, axOut = false -> axLo <= t <= axHi -> mn <= o + t * d <= mx.
  Proof.
    intros t Ho. destruct ax_cases as [(E & Hd)|(E & Hd & Hrd)]; unfold axLo, axHi, axOut in *; rewrite E in *.
    - subst d. intros _. cbn in Ho. apply orb_false_iff in Ho. destruct Ho as (H1 & H2).
      destruct (Rlt_bool_spec o mn); [discriminate|]. destruct (Rlt_bool_spec mx o); [discriminate|]. lra.
    - subst rd. intros (L & H).
      assert (Em : (mn - o) * / d * d = mn - o) by (field; exact Hd).
      assert (Ex : (mx - o) * / d * d = mx - o) by (field; exact Hd).
      destruct (Rtotal_order d 0) as [Hn|[Hz|Hp]]; [|contradiction|].
      + assert (Hi : / d < 0) by (apply Rinv_lt_0_compat; exact Hn).
        assert (Hle : (mx - o) * / d <= (mn - o) * / d) by nra.
        rewrite Rmin_right in L by lra. rewrite Rmax_left in H by lra. nra.
      + assert (Hi : 0 < / d) by (apply Rinv_0_lt_compat; exact Hp).
        assert (Hle : (mn - o) * / d <= (mx - o) * / d) by nra.
        rewrite Rmin_left in L by lra. rewrite Rmax_right in H by lra. nra.
  Qed.

  Lemma ax_out : forall t, 0 <= t <= maxFinite -> mn <= o + t * d <= mx -> axOut = false /\ axLo <= t <= axHi.
  Proof.
    intros t Ht Hin. pose proof maxFinite_pos.
    destruct ax_cases as [(E & Hd)|(E & Hd & Hrd)]; unfold axLo, axHi, axOut in *; rewrite E in *.
    - subst d. split; [|lra]. cbn. rewrite !Rlt_bool_false by lra. reflexivity.
    - subst rd. split; [reflexivity|].
      assert (Em : (mn - o) * / d * d = mn - o) by (field; exact Hd).
      assert (Ex : (mx - o) * / d * d = mx - o) by (field; exact Hd).
      destruct (Rtotal_order d 0) as [Hn|[Hz|Hp]]; [|contradiction|].
      + split; [eapply Rle_trans; [apply Rmin_r|]|eapply Rle_trans; [|apply Rmax_l]]; nra.
      + split; [eapply Rle_trans; [apply Rmin_l|]|eapply Rle_trans; [|apply Rmax_r]]; nra.
  Qed.
End Slab.

Definition slabs (b : aabb R) (r : ray R) (px py pz : bool) : bool * R * R :=
  let lo := Rmax (Rmax (axLo (vx (bmin b)) (vx (bmax b)) (vx (rorigin r)) (vx (rdir r)) px)
                       (axLo (vy (bmin b)) (vy (bmax b)) (vy (rorigin r)) (vy (rdir r)) py))
                 (axLo (vz (bmin b)) (vz (bmax b)) (vz (rorigin r)) (vz (rdir r)) pz) in
  let hi := Rmin (Rmin (axHi (vx (bmin b)) (vx (bmax b)) (vx (rorigin r)) (vx (rdir r)) px)
                       (axHi (vy (bmin b)) (vy (bmax b)) (vy (rorigin r)) (vy (rdir r)) py))
                 (axHi (vz (bmin b)) (vz (bmax b)) (vz (rorigin r)) (vz (rdir r)) pz) in
  let miss := Rlt_bool hi lo || Rlt_bool hi 0 ||
              (axOut (vx (bmin b)) (vx (bmax b)) (vx (rorigin r)) px ||
               axOut (vy (bmin b)) (vy (bmax b)) (vy (rorigin r)) py ||
               axOut (vz (bmin b)) (vz (bmax b)) (vz (rorigin r)) pz) in
  (miss, lo, hi).

Lemma Rmax3 : forall a b c, Rmax (Rmax a b) (Rmax c a) = Rmax (Rmax a b) c /\
  Rmax (Rmax b c) (Rmax a b) = Rmax (Rmax a b) c /\ Rmax (Rmax c a) (Rmax b c) = Rmax (Rmax a b) c.
Proof. intros. unfold Rmax. repeat (destruct Rle_dec; try lra). all: repeat split; lra. Qed.
Lemma Rmin3 : forall a b c, Rmin (Rmin a b) (Rmin c a) = Rmin (Rmin a b) c /\
  Rmin (Rmin b c) (Rmin a b) = Rmin (Rmin a b) c /\ Rmin (Rmin c a) (Rmin b c) = Rmin (Rmin a b) c.
Proof. intros. unfold Rmin. repeat (destruct Rle_dec; try lra). all: repeat split; lra. Qed.

(** The source's two statements of each horizontal reduction, named. *)
Definition hmax {F} {S : Scalar F} (p : path) (v : vec4 F) : vec4 F :=
  let m := vmax p v (swYZX v) in vmax p m (swZXY m).
Definition hmin {F} {S : Scalar F} (p : path) (v : vec4 F) : vec4 F :=
  let m := vmin p v (swYZX v) in vmin p m (swZXY m).
Definition hor (v : u32x4) : u32x4 := let m := uor v (splatY v) in uor m (splatZ m).
Definition slabLo p (b : aabb R) (r : ray R) : vec4 R :=
  select4 (rparallel r) (dup4 (- fltMax)%sc)
    (vmin p (vmul (vsub (bmin b) (rorigin r)) (rdir r)) (vmul (vsub (bmax b) (rorigin r)) (rdir r))).
Definition slabHi p (b : aabb R) (r : ray R) : vec4 R :=
  select4 (rparallel r) (dup4 fltMax)
    (vmax p (vmul (vsub (bmin b) (rorigin r)) (rdir r)) (vmul (vsub (bmax b) (rorigin r)) (rdir r))).
Definition noHitOf (b : aabb R) (r : ray R) (lo hi : vec4 R) : u32x4 :=
  hor (uor (uor (vgt lo hi) (vlt hi (dup4 f0)))
           (uand (rparallel r) (uor (vlt (rorigin r) (bmin b)) (vgt (rorigin r) (bmax b))))).

Lemma raycast2I_named : forall p (b : aabb R) r,
  raycast2I p b r =
  let lo := hmax p (slabLo p b r) in let hi := hmin p (slabHi p b r) in
  let n := noHitOf b r lo hi in
  V2 (vx (select4 n (dup4 fltMax) lo)) (vx (select4 n (dup4 (- fltMax)%sc) hi)).
Proof. reflexivity. Qed.
Lemma raycast1I_named : forall p (b : aabb R) r,
  raycast1I p b r =
  let lo := hmax p (slabLo p b r) in let hi := hmin p (slabHi p b r) in
  vx (select4 (noHitOf b r lo hi) (dup4 fltMax) lo).
Proof. reflexivity. Qed.

Lemma hmaxR : forall p (a b c w : R), exists w', hmax p (V4 a b c w) =
  V4 (Rmax (Rmax a b) c) (Rmax (Rmax a b) c) (Rmax (Rmax a b) c) w'.
Proof.
  intros p a b c w. eexists. unfold hmax, vmax, swYZX, swZXY, map2_4. cbn [vx vy vz vw].
  rewrite !simdmaxR. destruct (Rmax3 a b c) as (-> & -> & ->). reflexivity.
Qed.
Lemma hminR : forall p (a b c w : R), exists w', hmin p (V4 a b c w) =
  V4 (Rmin (Rmin a b) c) (Rmin (Rmin a b) c) (Rmin (Rmin a b) c) w'.
Proof.
  intros p a b c w. eexists. unfold hmin, vmin, swYZX, swZXY, map2_4. cbn [vx vy vz vw].
  rewrite !simdminR. destruct (Rmin3 a b c) as (-> & -> & ->). reflexivity.
Qed.

Lemma raycast2I_slabs : forall p b r px py pz,
  vx (rparallel r) = maskOf px -> vy (rparallel r) = maskOf py -> vz (rparallel r) = maskOf pz ->
  let '(miss, lo, hi) := slabs b r px py pz in
  raycast2I p b r = (if miss then V2 maxFinite (- maxFinite) else V2 lo hi) /\
  raycast1I p b r = (if miss then maxFinite else lo).
Proof.
  intros p b r px py pz E1 E2 E3. rewrite raycast2I_named, raycast1I_named.
  assert (L : exists w, slabLo p b r =
    V4 (axLo (vx (bmin b)) (vx (bmax b)) (vx (rorigin r)) (vx (rdir r)) px)
       (axLo (vy (bmin b)) (vy (bmax b)) (vy (rorigin r)) (vy (rdir r)) py)
       (axLo (vz (bmin b)) (vz (bmax b)) (vz (rorigin r)) (vz (rdir r)) pz) w).
  { eexists. unfold slabLo, select4, vmin, vmul, vsub, map2_4. cbn [vx vy vz vw dup4].
    rewrite E1, E2, E3, !sel_mask, !simdminR, fltMaxR. reflexivity. }
  assert (H : exists w, slabHi p b r =
    V4 (axHi (vx (bmin b)) (vx (bmax b)) (vx (rorigin r)) (vx (rdir r)) px)
       (axHi (vy (bmin b)) (vy (bmax b)) (vy (rorigin r)) (vy (rdir r)) py)
       (axHi (vz (bmin b)) (vz (bmax b)) (vz (rorigin r)) (vz (rdir r)) pz) w).
  { eexists. unfold slabHi, select4, vmax, vmul, vsub, map2_4. cbn [vx vy vz vw dup4].
    rewrite E1, E2, E3, !sel_mask, !simdmaxR, fltMaxR. reflexivity. }
  destruct L as (wl & ->), H as (wh & ->). unfold slabs.
  match goal with |- context [hmax p (V4 ?a ?b ?c ?w)] => destruct (hmaxR p a b c w) as (wl' & ->);
    set (lo := Rmax (Rmax a b) c) end.
  match goal with |- context [hmin p (V4 ?a ?b ?c ?w)] => destruct (hminR p a b c w) as (wh' & ->);
    set (hi := Rmin (Rmin a b) c) end.
  assert (N : vx (noHitOf b r (V4 lo lo lo wl') (V4 hi hi hi wh')) =
    maskOf (Rlt_bool hi lo || Rlt_bool hi 0 ||
              (axOut (vx (bmin b)) (vx (bmax b)) (vx (rorigin r)) px ||
               axOut (vy (bmin b)) (vy (bmax b)) (vy (rorigin r)) py ||
               axOut (vz (bmin b)) (vz (bmax b)) (vz (rorigin r)) pz))).
  { unfold noHitOf, hor, uor, uand, vlt, vgt, sgt, splatY, splatZ, map2_4. cbn [vx vy vz vw dup4].
    rewrite E1, E2, E3, f0R, !lor_masks, !land_masks, !lor_masks. f_equal. unfold axOut. cbn [slt ScalarR].
    repeat match goal with |- context [Rlt_bool ?a ?b] => let x := fresh "q" in set (x := Rlt_bool a b); clearbody x end.
    destruct px, py, pz; cbn; btauto. }
  cbv zeta. unfold select4. cbn [vx]. rewrite N, !sel_mask, fltMaxR. cbn [dup4 vx sneg ScalarR].
  match goal with |- context [if ?c then _ else _] => destruct c end; split; reflexivity.
Qed.

Lemma flag_cases : forall q rd d, invertedAxis q rd d -> exists par, q = maskOf par.
Proof. intros q rd d [(-> & _)|(-> & _)]; [exists true|exists false]; reflexivity. Qed.

Theorem raycast2I_exact : forall p b r d, nonEmpty b -> invertedRay r d ->
  let tt := raycast2I p b r in
  (forall t, Rmax 0 (x2 tt) <= t <= y2 tt -> inBox b (pointAt (rorigin r) d t)) /\
  (forall t, 0 <= t <= maxFinite -> inBox b (pointAt (rorigin r) d t) -> Rmax 0 (x2 tt) <= t <= y2 tt) /\
  (isHit tt = true -> exists t, 0 <= t /\ inBox b (pointAt (rorigin r) d t)) /\
  (isHit tt = false -> tt = V2 maxFinite (- maxFinite) /\
     forall t, 0 <= t <= maxFinite -> ~ inBox b (pointAt (rorigin r) d t)) /\
  raycast1I p b r = x2 tt.
Proof.
  intros p b r d (N1 & N2 & N3) (I1 & I2 & I3) tt.
  destruct (flag_cases _ _ _ I1) as (px & E1), (flag_cases _ _ _ I2) as (py & E2), (flag_cases _ _ _ I3) as (pz & E3).
  pose proof (raycast2I_slabs p b r px py pz E1 E2 E3) as HS.
  rewrite E1 in I1. rewrite E2 in I2. rewrite E3 in I3.
  pose proof (ax_in _ _ (vx (rorigin r)) _ _ _ N1 I1) as A1. pose proof (ax_in _ _ (vy (rorigin r)) _ _ _ N2 I2) as A2. pose proof (ax_in _ _ (vz (rorigin r)) _ _ _ N3 I3) as A3.
  pose proof (ax_out (vx (bmin b)) (vx (bmax b)) (vx (rorigin r)) _ _ _ I1) as B1. pose proof (ax_out (vy (bmin b)) (vy (bmax b)) (vy (rorigin r)) _ _ _ I2) as B2. pose proof (ax_out (vz (bmin b)) (vz (bmax b)) (vz (rorigin r)) _ _ _ I3) as B3.
  destruct (slabs b r px py pz) as ((miss, lo), hi) eqn:Es. unfold slabs in Es. injection Es as Em El Eh.
  set (lx := axLo (vx (bmin b)) _ _ _ _) in *. set (ly := axLo (vy (bmin b)) _ _ _ _) in *. set (lz := axLo (vz (bmin b)) _ _ _ _) in *.
  set (hx := axHi (vx (bmin b)) _ _ _ _) in *. set (hy := axHi (vy (bmin b)) _ _ _ _) in *. set (hz := axHi (vz (bmin b)) _ _ _ _) in *.
  set (ox := axOut (vx (bmin b)) _ _ _) in *. set (oy := axOut (vy (bmin b)) _ _ _) in *. set (oz := axOut (vz (bmin b)) _ _ _) in *.
  assert (Lx : lx <= lo) by (subst lo; eapply Rle_trans; [apply Rmax_l|apply Rmax_l]).
  assert (Ly : ly <= lo) by (subst lo; eapply Rle_trans; [apply Rmax_r|apply Rmax_l]).
  assert (Lz : lz <= lo) by (subst lo; apply Rmax_r).
  assert (Hx : hi <= hx) by (subst hi; eapply Rle_trans; [apply Rmin_l|apply Rmin_l]).
  assert (Hy : hi <= hy) by (subst hi; eapply Rle_trans; [apply Rmin_l|apply Rmin_r]).
  assert (Hz : hi <= hz) by (subst hi; apply Rmin_r).
  assert (Lub : forall t, lx <= t -> ly <= t -> lz <= t -> lo <= t) by (intros; subst lo; repeat apply Rmax_lub; assumption).
  assert (Glb : forall t, t <= hx -> t <= hy -> t <= hz -> t <= hi) by (intros; subst hi; repeat apply Rmin_glb; assumption).
  rewrite ?El, ?Eh in Em. clear El Eh. destruct HS as (H2 & H1). pose proof maxFinite_pos as Hpos.
  destruct miss.
  - assert (No : forall t, 0 <= t <= maxFinite -> ~ inBox b (pointAt (rorigin r) d t)).
    { intros t Ht (X & Y & Z). cbn [ext OrdR pointAt vx vy vz] in *.
      destruct (B1 t Ht X) as (O1 & W1), (B2 t Ht Y) as (O2 & W2), (B3 t Ht Z) as (O3 & W3).
      rewrite O1, O2, O3 in Em. rewrite orb_false_r in Em.
      assert (lo <= t) by (apply Lub; lra). assert (t <= hi) by (apply Glb; lra).
      rewrite !Rlt_bool_false in Em by lra. discriminate. }
    unfold tt. rewrite H2. cbn [x2 y2]. split; [|split; [|split; [|split]]].
    + intros t (Ht & Ht'). pose proof (Rmax_l 0 maxFinite). lra.
    + intros t Ht Hin. elim (No t Ht Hin).
    + unfold isHit, sge. cbn [x2 y2]. intros Hh. apply andb_true_iff in Hh. destruct Hh as (Hh & _). apply sleR in Hh. lra.
    + intros _. split; [reflexivity|exact No].
    + exact H1.
  - symmetry in Em. symmetry in Em. apply orb_false_iff in Em. destruct Em as (Em & Eo). apply orb_false_iff in Em. destruct Em as (Em1 & Em2).
    apply orb_false_iff in Eo. destruct Eo as (Eo & O3). apply orb_false_iff in Eo. destruct Eo as (O1 & O2).
    destruct (Rlt_bool_spec hi lo) as [|C1]; [discriminate|]. destruct (Rlt_bool_spec hi 0) as [|C2]; [discriminate|].
    assert (In : forall t, lo <= t <= hi -> inBox b (pointAt (rorigin r) d t)).
    { intros t Ht. unfold inBox, in3. cbn [ext OrdR pointAt vx vy vz].
      split; [apply A1; [exact O1|lra]|]. split; [apply A2; [exact O2|lra]|apply A3; [exact O3|lra]]. }
    assert (Hh : isHit (V2 lo hi) = true).
    { unfold isHit, sge. cbn [x2 y2]. apply andb_true_iff. rewrite f0R. split; apply sleR; lra. }
    unfold tt. rewrite H2. cbn [x2 y2]. split; [|split; [|split; [|split]]].
    + intros t Ht. apply In. pose proof (Rmax_r 0 lo). lra.
    + intros t Ht (X & Y & Z). cbn [ext OrdR pointAt vx vy vz] in *.
      destruct (B1 t Ht X) as (_ & W1), (B2 t Ht Y) as (_ & W2), (B3 t Ht Z) as (_ & W3).
      split; [apply Rmax_lub; [lra|apply Lub; lra]|apply Glb; lra].
    + intros _. exists (Rmax 0 lo). split; [apply Rmax_l|]. apply In. split; [apply Rmax_r|apply Rmax_lub; lra].
    + rewrite Hh. discriminate.
    + exact H1.
Qed.
