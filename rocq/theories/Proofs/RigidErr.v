(** The rigid inverse brings points back, in binary32. *)
From Coq Require Import ZArith Bool List Reals Lra Lia Psatz.
From Flocq Require Import Core.Core IEEE754.Binary.
From Verif.Model Require Import Scalar Vec Simd Lanes Quaternion Matrix Transform.
From Verif.Spec Require Import NormSpec MatErrSpec RotSpec QuatErrSpec QuatMatSpec RigidSpec.
From Verif.Proofs Require Import OrdScalar F32Round F32Err NormProofs NumericProofs MatErrProofs QuatErr QuatMat YxyErr YxyRgb.
Import ListNotations.
Local Open Scope R_scope.

(** ** Real algebra *)
Lemma absprod : forall a x A X, Rabs a <= A -> Rabs x <= X -> Rabs (a * x) <= A * X.
Proof. intros a x A X HA HX. rewrite Rabs_mult. apply Rmult_le_compat; try apply Rabs_pos; assumption. Qed.
Lemma abs3 : forall a b c A B C, Rabs a <= A -> Rabs b <= B -> Rabs c <= C -> Rabs (a + b + c) <= A + B + C.
Proof. intros a b c A B C HA HB HC. apply Rabs_le_inv in HA, HB, HC. apply Rabs_le. lra. Qed.
(** one lane back: column [a] of the matrix, transformed point [w] = exact [W] + [e] *)
Section Lane.
  Variables (a1 a2 a3 w1 w2 w3 W1 W2 W3 t1 t2 t3 tau w4 r x V T eta q : R).
  Let U := / 16777216.
  Hypothesis HV : 0 <= V. Hypothesis Heta : 0 <= eta <= / 1000000000000.
  Hypothesis HT : T = Rabs t1 + Rabs t2 + Rabs t3.
  Hypothesis A1 : Rabs a1 <= 1.005. Hypothesis A2 : Rabs a2 <= 1.005. Hypothesis A3 : Rabs a3 <= 1.005.
  Hypothesis B1 : Rabs (W1 - t1) <= 1.005 * V. Hypothesis B2 : Rabs (W2 - t2) <= 1.005 * V. Hypothesis B3 : Rabs (W3 - t3) <= 1.005 * V.
  Hypothesis E1 : Rabs (w1 - W1) <= 4.01 * U * (1.005 * V + Rabs t1) + eta.
  Hypothesis E2 : Rabs (w2 - W2) <= 4.01 * U * (1.005 * V + Rabs t2) + eta.
  Hypothesis E3 : Rabs (w3 - W3) <= 4.01 * U * (1.005 * V + Rabs t3) + eta.
  Hypothesis D : Rabs (a1 * (W1 - t1) + a2 * (W2 - t2) + a3 * (W3 - t3) - x) <= q.
  Hypothesis Ft : Rabs (tau + (a1 * t1 + a2 * t2 + a3 * t3)) <= 3.01 * U * (1.005 * T) + eta.
  Hypothesis H4 : Rabs (w4 - 1) <= 4.01 * U + eta.
  Hypothesis G : Rabs (r - (a1 * w1 + a2 * w2 + a3 * w3 + tau * w4)) <= 4.01 * U * (Rabs (a1 * w1) + Rabs (a2 * w2) + Rabs (a3 * w3) + Rabs (tau * w4)) + eta.
  Lemma sizes : Rabs w1 <= 1.0051 * V + 1.0001 * Rabs t1 + eta /\ Rabs w2 <= 1.0051 * V + 1.0001 * Rabs t2 + eta /\ Rabs w3 <= 1.0051 * V + 1.0001 * Rabs t3 + eta.
  Proof.
    unfold U in *. clear - HV Heta B1 B2 B3 E1 E2 E3. pose proof (Rabs_pos t1). pose proof (Rabs_pos t2). pose proof (Rabs_pos t3).
    assert (K : forall w W t, Rabs (W - t) <= 1.005 * V -> Rabs (w - W) <= 4.01 * / 16777216 * (1.005 * V + Rabs t) + eta -> 0 <= Rabs t -> Rabs w <= 1.0051 * V + 1.0001 * Rabs t + eta).
    { intros w W t P Q S. replace w with ((w - W) + (W - t) + t) by ring. eapply Rle_trans; [apply abs3; [exact Q|exact P|apply Rle_refl]|]. lra. }
    split; [|split]; eapply K; eassumption.
  Qed.
  Lemma tau_size : Rabs tau <= 1.0051 * T + eta.
  Proof.
    assert (P : Rabs (a1 * t1 + a2 * t2 + a3 * t3) <= 1.005 * T).
    { rewrite HT. replace (1.005 * (Rabs t1 + Rabs t2 + Rabs t3)) with (1.005 * Rabs t1 + 1.005 * Rabs t2 + 1.005 * Rabs t3) by ring.
      apply abs3; (apply absprod; [assumption|apply Rle_refl]). }
    assert (0 <= T) by (rewrite HT; pose proof (Rabs_pos t1); pose proof (Rabs_pos t2); pose proof (Rabs_pos t3); lra).
    clear - P Ft H. unfold U in *. apply Rabs_le_inv in P, Ft. apply Rabs_le. lra.
  Qed.
  Lemma lane_back : Rabs (r - x) <= q + 25 * U * V + 20 * U * T + 20 * eta.
  Proof.
    destruct sizes as (S1 & S2 & S3). pose proof tau_size as ST.
    assert (T0 : 0 <= T) by (rewrite HT; pose proof (Rabs_pos t1); pose proof (Rabs_pos t2); pose proof (Rabs_pos t3); lra).
    pose proof (absprod _ _ _ _ A1 E1) as X1. pose proof (absprod _ _ _ _ A2 E2) as X2. pose proof (absprod _ _ _ _ A3 E3) as X3.
    pose proof (absprod _ _ _ _ A1 S1) as Y1. pose proof (absprod _ _ _ _ A2 S2) as Y2. pose proof (absprod _ _ _ _ A3 S3) as Y3.
    assert (Z4 : Rabs w4 <= 1.0001) by (unfold U in H4; clear - H4 Heta; apply Rabs_le_inv in H4; apply Rabs_le; lra).
    assert (Y4 : Rabs (w4 - 1) <= 4.02 * U) by (unfold U in *; clear - H4 Heta; lra).
    pose proof (absprod _ _ _ _ ST Z4) as X4. pose proof (absprod _ _ _ _ ST Y4) as X5.
    replace (r - x) with ((r - (a1 * w1 + a2 * w2 + a3 * w3 + tau * w4)) + (a1 * (W1 - t1) + a2 * (W2 - t2) + a3 * (W3 - t3) - x)
      + (a1 * (w1 - W1) + a2 * (w2 - W2) + a3 * (w3 - W3) + (tau + (a1 * t1 + a2 * t2 + a3 * t3)) + tau * (w4 - 1))) by ring.
    unfold U in *. clear - G D X1 X2 X3 X4 X5 Y1 Y2 Y3 Ft HV T0 Heta HT. 
    eapply Rle_trans; [apply abs3; [exact G|exact D|]|].
    { eapply Rle_trans; [apply Rabs_triang|]. apply Rplus_le_compat; [|exact X5].
      eapply Rle_trans; [apply Rabs_triang|]. apply Rplus_le_compat; [|exact Ft]. apply abs3; eassumption. }
    lra.
  Qed.
End Lane.

(** ** Lists *)
Lemma four_of : forall (A B : Type) (P : A -> B -> Prop) a b c d x y z w, Forall2 P [a; b; c; d] [x; y; z; w] -> P a x /\ P b y /\ P c z /\ P d w.
Proof.
  intros A B P a b c d x y z w H. inversion H as [|? ? ? ? H1 HT]; subst. apply three in HT. tauto.
Qed.
Lemma rows_inverse : forall p (m : mat4 f32), let t := multiply3x3v p (transpose4x4 p m) (c3 m) in
  rowsOf4 (inverseTransRot p m) =
  [[vx (c0 m); vy (c0 m); vz (c0 m); (- vx t)%sc]; [vx (c1 m); vy (c1 m); vz (c1 m); (- vy t)%sc];
   [vx (c2 m); vy (c2 m); vz (c2 m); (- vz t)%sc]; [vx (c3 m); vy (c3 m); vz (c3 m); vw (c3 m)]].
Proof. intros p [[] [] [] []] t. unfold inverseTransRot, setTranslation, getTranslation. fold t. clearbody t. destruct t. destruct p; reflexivity. Qed.
Lemma rows43_transpose : forall p (m : mat4 f32), rowsOf43 (transpose4x4 p m) = colsOf43 m.
Proof. intros p [[] [] [] []]. destruct p; reflexivity. Qed.
Lemma unit_entry : forall a b c d, d <= 0.01 -> Rabs (a * a + (b * b + (c * c + 0)) - 1) <= d -> Rabs a <= 1.005 /\ Rabs b <= 1.005 /\ Rabs c <= 1.005.
Proof.
  intros a b c d D H. apply Rabs_le_inv in H.
  assert (K : forall x, x * x <= 1.01 -> Rabs x <= 1.005) by (intros x X; apply Rabs_le; nra).
  split; [|split]; apply K; nra.
Qed.
Lemma defect : forall g1 g2 g3 x y z d, Rabs g1 <= d -> Rabs g2 <= d -> Rabs g3 <= d ->
  Rabs (g1 * x + g2 * y + g3 * z) <= d * (Rabs x + Rabs y + Rabs z).
Proof.
  intros g1 g2 g3 x y z d A B C. replace (d * (Rabs x + Rabs y + Rabs z)) with (d * Rabs x + d * Rabs y + d * Rabs z) by ring.
  apply abs3; (apply absprod; [assumption|apply Rle_refl]).
Qed.
Lemma e140 : 20 * (10 * bpow radix2 (-150)) <= bpow radix2 (-140).
Proof. change (-140)%Z with (-150 + 10)%Z. rewrite bpow_plus. change (bpow radix2 10) with 1024. pose proof (bpow_ge_0 radix2 (-150)). lra. Qed.
Lemma e150 : 0 <= 10 * bpow radix2 (-150) <= / 1000000000000.
Proof. pose proof tenE as T. pose proof (bpow_ge_0 radix2 (-150)). split; [lra|]. eapply Rle_trans; [exact T|]. lra. Qed.
Lemma row_size : forall a b c x y z, Rabs a <= 1.005 -> Rabs b <= 1.005 -> Rabs c <= 1.005 ->
  Rabs (a * x) + Rabs (b * y) + Rabs (c * z) <= 1.005 * (Rabs x + Rabs y + Rabs z).
Proof.
  intros a b c x y z A B C. pose proof (absprod a x _ _ A (Rle_refl _)). pose proof (absprod b y _ _ B (Rle_refl _)). pose proof (absprod c z _ _ C (Rle_refl _)). lra.
Qed.

Section Back.
  Variables (p : path) (d : R) (m : mat4 f32) (v : vec4 f32).
  Hypothesis (Hd : d <= 0.01) (Hm : nearRigid d m) (Hv : point1 v).
  Let w := mulV p m v.
  Let inv := inverseTransRot p m.
  Let r := mulV p inv w.
  Lemma comes_back : returned d (vx r) (vx v) v (c3 m) /\ returned d (vy r) (vy v) v (c3 m) /\ returned d (vz r) (vz v) v (c3 m).
  Proof.
    unfold r, inv. pose proof (rows_inverse p m) as RI. pose proof (rows43_transpose p m) as RT.
    pose proof (mulV_err p m v) as K1. fold w in K1.
    pose proof (multiply3x3v_err p (transpose4x4 p m) (c3 m)) as K2. rewrite RT in K2.
    pose proof (mulV_err p (inverseTransRot p m) w) as K3. rewrite RI in K3.
    set (t := multiply3x3v p (transpose4x4 p m) (c3 m)) in *. set (o := mulV p (inverseTransRot p m) w) in *. clearbody t o w. clear RI RT.
    destruct m as [[xa xb xc xd] [ya yb yc yd] [za zb zc zd] [ta tb tc td]]. destruct v as [va vb vc vd].
    destruct Hm as (M0 & M1 & M2 & M3 & G00 & G11 & G22 & G01 & G02 & G12). clear Hm.
    destruct M0 as (M0 & Fxd & Vxd), M1 as (M1 & Fyd & Vyd), M2 as (M2 & Fzd & Vzd), M3 as ((M3 & N3) & Ftd & Vtd), Hv as ((P & Q) & Fvd & Vvd). clear Hv.
    unfold rowsOf4, colsOf43, under, actionErr in *. unfold l43, l4 in *. cbn [c0 c1 c2 c3 vx vy vz vw] in *.
    inversion M0 as [|? ? F1 M0']; subst; inversion M0' as [|? ? F2 M0'']; subst; inversion M0'' as [|? ? F3 _]; subst.
    inversion M1 as [|? ? F4 M1']; subst; inversion M1' as [|? ? F5 M1'']; subst; inversion M1'' as [|? ? F6 _]; subst.
    inversion M2 as [|? ? F7 M2']; subst; inversion M2' as [|? ? F8 M2'']; subst; inversion M2'' as [|? ? F9 _]; subst.
    inversion M3 as [|? ? F10 M3']; subst; inversion M3' as [|? ? F11 M3'']; subst; inversion M3'' as [|? ? F12 _]; subst.
    inversion P as [|? ? F13 P']; subst; inversion P' as [|? ? F14 P'']; subst; inversion P'' as [|? ? F15 _]; subst.
    inversion N3 as [|? ? T1 N3']; subst; inversion N3' as [|? ? T2 N3'']; subst; inversion N3'' as [|? ? T3 _]; subst.
    inversion Q as [|? ? Q1 Q']; subst; inversion Q' as [|? ? Q2 Q'']; subst; inversion Q'' as [|? ? Q3 _]; subst.
    clear M0 M0' M0'' M1 M1' M1'' M2 M2' M2'' M3 M3' M3'' P P' P'' N3 N3' N3'' Q Q' Q''.
    change (bpow radix2 50) with 1125899906842624 in *.
    cbn [inner] in G00, G11, G22, G01, G02, G12.
    destruct (unit_entry _ _ _ d Hd G00) as (A1 & A2 & A3). destruct (unit_entry _ _ _ d Hd G11) as (A4 & A5 & A6). destruct (unit_entry _ _ _ d Hd G22) as (A7 & A8 & A9).
    pose proof e150 as E0. pose proof e140 as E140. pose proof lim as LM.
    unfold returned, taxi. cbn [vx vy vz].
    set (V := Rabs (val va) + Rabs (val vb) + Rabs (val vc)). set (T := Rabs (val ta) + Rabs (val tb) + Rabs (val tc)).
    assert (HV : 0 <= V <= 4000000000000000) by (unfold V; pose proof (Rabs_pos (val va)); pose proof (Rabs_pos (val vb)); pose proof (Rabs_pos (val vc)); lra).
    assert (HT : 0 <= T <= 4000000000000000) by (unfold T; pose proof (Rabs_pos (val ta)); pose proof (Rabs_pos (val tb)); pose proof (Rabs_pos (val tc)); lra).
    pose proof (row_size _ _ _ (val va) (val vb) (val vc) A1 A4 A7) as R1. pose proof (row_size _ _ _ (val va) (val vb) (val vc) A2 A5 A8) as R2.
    pose proof (row_size _ _ _ (val va) (val vb) (val vc) A3 A6 A9) as R3. fold V in R1, R2, R3.
    pose proof (row_size _ _ _ (val ta) (val tb) (val tc) A1 A2 A3) as R4. pose proof (row_size _ _ _ (val ta) (val tb) (val tc) A4 A5 A6) as R5.
    pose proof (row_size _ _ _ (val ta) (val tb) (val tc) A7 A8 A9) as R6. fold T in R4, R5, R6.
    set (eta := 10 * bpow radix2 (-150)) in *.
    (* the point transformed *)
    specialize (K1 ltac:(repeat constructor; assumption) ltac:(repeat constructor; assumption)).
    assert (L0 : forall x, Rabs (0 * x) = 0) by (intros x; rewrite Rmult_0_l; apply Rabs_R0).
    assert (L1 : Rabs (1 * 1) = 1) by (rewrite Rmult_1_l; apply Rabs_R1).
    assert (LM' : 100000000000000000000 <= limit) by lra.
    match type of K1 with ?X -> _ => assert (U1 : X) end.
    { repeat constructor; cbn [innerAbs]; rewrite ?Vxd, ?Vyd, ?Vzd, ?Vtd, ?Vvd, ?L0, ?L1, ?Rmult_1_r; lra. }
    specialize (K1 U1). clear U1. apply four_of in K1. destruct K1 as ((W1 & E1) & (W2 & E2) & (W3 & E3) & (W4 & E4)).
    cbn [inner innerAbs] in E1, E2, E3, E4. rewrite Vxd, Vyd, Vzd, Vtd, Vvd, ?L0, ?L1 in E4. rewrite Vvd, Rmult_1_r in E1, E2, E3. fold eta in E1, E2, E3, E4.
    (* the translation *)
    specialize (K2 ltac:(repeat constructor; assumption) ltac:(repeat constructor; assumption)).
    match type of K2 with ?X -> _ => assert (U1 : X) end.
    { repeat constructor; cbn [innerAbs]; lra. }
    specialize (K2 U1). clear U1. apply three in K2. destruct K2 as ((X1 & D1) & (X2 & D2) & (X3 & D3)). cbn [inner innerAbs] in D1, D2, D3. fold eta in D1, D2, D3.
    destruct (neg_fin _ X1) as [Y1 Z1], (neg_fin _ X2) as [Y2 Z2], (neg_fin _ X3) as [Y3 Z3].
    set (W1' := val xa * val va + val ya * val vb + val za * val vc + val ta).
    set (W2' := val xb * val va + val yb * val vb + val zb * val vc + val tb).
    set (W3' := val xc * val va + val yc * val vb + val zc * val vc + val tc).
    assert (B1 : Rabs (W1' - val ta) <= 1.005 * V) by (unfold W1'; replace (_ - _) with (val xa * val va + val ya * val vb + val za * val vc) by ring; eapply Rle_trans; [apply abs3; apply Rle_refl|exact R1]).
    assert (B2 : Rabs (W2' - val tb) <= 1.005 * V) by (unfold W2'; replace (_ - _) with (val xb * val va + val yb * val vb + val zb * val vc) by ring; eapply Rle_trans; [apply abs3; apply Rle_refl|exact R2]).
    assert (B3 : Rabs (W3' - val tc) <= 1.005 * V) by (unfold W3'; replace (_ - _) with (val xc * val va + val yc * val vb + val zc * val vc) by ring; eapply Rle_trans; [apply abs3; apply Rle_refl|exact R3]).
    assert (C1 : Rabs (val (vx w) - W1') <= 4.01 * / 16777216 * (1.005 * V + Rabs (val ta)) + eta).
    { unfold W1'. match type of E1 with Rabs (_ - ?e) <= _ => replace (val xa * val va + val ya * val vb + val za * val vc + val ta) with e by ring end. eapply Rle_trans; [exact E1|]. lra. }
    assert (C2 : Rabs (val (vy w) - W2') <= 4.01 * / 16777216 * (1.005 * V + Rabs (val tb)) + eta).
    { unfold W2'. match type of E2 with Rabs (_ - ?e) <= _ => replace (val xb * val va + val yb * val vb + val zb * val vc + val tb) with e by ring end. eapply Rle_trans; [exact E2|]. lra. }
    assert (C3 : Rabs (val (vz w) - W3') <= 4.01 * / 16777216 * (1.005 * V + Rabs (val tc)) + eta).
    { unfold W3'. match type of E3 with Rabs (_ - ?e) <= _ => replace (val xc * val va + val yc * val vb + val zc * val vc + val tc) with e by ring end. eapply Rle_trans; [exact E3|]. lra. }
    assert (C4 : Rabs (val (vw w) - 1) <= 4.01 * / 16777216 + eta).
    { match type of E4 with Rabs (_ - ?e) <= _ => replace e with 1 in E4 by ring end. lra. }
    assert (O1 : Rabs (val (- vx t)%sc + (val xa * val ta + val xb * val tb + val xc * val tc)) <= 3.01 * / 16777216 * (1.005 * T) + eta).
    { rewrite Z1, <- Rabs_Ropp. match type of D1 with Rabs ?e <= _ => replace (- _) with e by ring end. eapply Rle_trans; [exact D1|]. lra. }
    assert (O2 : Rabs (val (- vy t)%sc + (val ya * val ta + val yb * val tb + val yc * val tc)) <= 3.01 * / 16777216 * (1.005 * T) + eta).
    { rewrite Z2, <- Rabs_Ropp. match type of D2 with Rabs ?e <= _ => replace (- _) with e by ring end. eapply Rle_trans; [exact D2|]. lra. }
    assert (O3 : Rabs (val (- vz t)%sc + (val za * val ta + val zb * val tb + val zc * val tc)) <= 3.01 * / 16777216 * (1.005 * T) + eta).
    { rewrite Z3, <- Rabs_Ropp. match type of D3 with Rabs ?e <= _ => replace (- _) with e by ring end. eapply Rle_trans; [exact D3|]. lra. }
    (* the point brought back *)
    pose proof (sizes _ _ _ _ _ _ _ _ _ V eta (proj1 HV) B1 B2 B3 C1 C2 C3) as SS.
    destruct SS as (S1 & S2 & S3).
    pose proof (tau_size _ _ _ _ _ _ _ T eta eq_refl A1 A2 A3 O1) as S4.
    pose proof (tau_size _ _ _ _ _ _ _ T eta eq_refl A4 A5 A6 O2) as S5.
    pose proof (tau_size _ _ _ _ _ _ _ T eta eq_refl A7 A8 A9 O3) as S6.
    assert (S7 : Rabs (val (vw w)) <= 2) by (apply Rabs_le_inv in C4; apply Rabs_le; lra).
    assert (WS : Rabs (val (vx w)) + Rabs (val (vy w)) + Rabs (val (vz w)) <= 20000000000000000) by (unfold T in HT; lra).
    pose proof (row_size _ _ _ (val (vx w)) (val (vy w)) (val (vz w)) A1 A2 A3) as R7. pose proof (row_size _ _ _ (val (vx w)) (val (vy w)) (val (vz w)) A4 A5 A6) as R8.
    pose proof (row_size _ _ _ (val (vx w)) (val (vy w)) (val (vz w)) A7 A8 A9) as R9.
    pose proof (absprod _ _ _ _ S4 S7) as R10. pose proof (absprod _ _ _ _ S5 S7) as R11. pose proof (absprod _ _ _ _ S6 S7) as R12.
    assert (BT : forall x y, Rabs x <= 1125899906842624 -> Rabs y <= 20000000000000000 -> Rabs (x * y) <= 22517998136852480000000000000000) by (intros x y HX HY; eapply Rle_trans; [apply absprod; eassumption|lra]).
    pose proof (BT _ (val (vx w)) T1) as R13. pose proof (BT _ (val (vy w)) T2) as R14. pose proof (BT _ (val (vz w)) T3) as R15.
    assert (L2 : Rabs (1 * val (vw w)) <= 2) by (rewrite Rmult_1_l; exact S7).
    pose proof (Rabs_pos (val (vx w))). pose proof (Rabs_pos (val (vy w))). pose proof (Rabs_pos (val (vz w))).
    specialize (R13 ltac:(lra)). specialize (R14 ltac:(lra)). specialize (R15 ltac:(lra)).
    specialize (K3 ltac:(repeat constructor; assumption) ltac:(repeat constructor; assumption)).
    match type of K3 with ?X -> _ => assert (U1 : X) end.
    { repeat constructor; cbn [innerAbs]; rewrite ?Vtd; lra. }
    specialize (K3 U1). clear U1. apply four_of in K3. destruct K3 as ((I1 & J1) & (I2 & J2) & (I3 & J3) & _). cbn [inner innerAbs] in J1, J2, J3. fold eta in J1, J2, J3.
    split; [|split]; (split; [assumption|]).
    - eapply Rle_trans; [apply (lane_back (val xa) (val xb) (val xc) (val (vx w)) (val (vy w)) (val (vz w)) W1' W2' W3' (val ta) (val tb) (val tc) (val (- vx t)%sc) (val (vw w)) _ _ V T eta (d * V)); try assumption; try reflexivity; try lra|].
      + unfold W1', W2', W3', V. match goal with |- Rabs ?e <= _ => replace e with ((val xa * val xa + (val xb * val xb + (val xc * val xc + 0)) - 1) * val va + (val xa * val ya + (val xb * val yb + (val xc * val yc + 0))) * val vb + (val xa * val za + (val xb * val zb + (val xc * val zc + 0))) * val vc) by ring end. apply defect; assumption.
      + match type of J1 with Rabs (_ - ?e) <= _ => match goal with |- Rabs (_ - ?g) <= _ => replace g with e by ring end end. eapply Rle_trans; [exact J1|]. lra.
      + lra.
    - eapply Rle_trans; [apply (lane_back (val ya) (val yb) (val yc) (val (vx w)) (val (vy w)) (val (vz w)) W1' W2' W3' (val ta) (val tb) (val tc) (val (- vy t)%sc) (val (vw w)) _ _ V T eta (d * V)); try assumption; try reflexivity; try lra|].
      + unfold W1', W2', W3', V. match goal with |- Rabs ?e <= _ => replace e with ((val xa * val ya + (val xb * val yb + (val xc * val yc + 0))) * val va + (val ya * val ya + (val yb * val yb + (val yc * val yc + 0)) - 1) * val vb + (val ya * val za + (val yb * val zb + (val yc * val zc + 0))) * val vc) by ring end. apply defect; assumption.
      + match type of J2 with Rabs (_ - ?e) <= _ => match goal with |- Rabs (_ - ?g) <= _ => replace g with e by ring end end. eapply Rle_trans; [exact J2|]. lra.
      + lra.
    - eapply Rle_trans; [apply (lane_back (val za) (val zb) (val zc) (val (vx w)) (val (vy w)) (val (vz w)) W1' W2' W3' (val ta) (val tb) (val tc) (val (- vz t)%sc) (val (vw w)) _ _ V T eta (d * V)); try assumption; try reflexivity; try lra|].
      + unfold W1', W2', W3', V. match goal with |- Rabs ?e <= _ => replace e with ((val xa * val za + (val xb * val zb + (val xc * val zc + 0))) * val va + (val ya * val za + (val yb * val zb + (val yc * val zc + 0))) * val vb + (val za * val za + (val zb * val zb + (val zc * val zc + 0)) - 1) * val vc) by ring end. apply defect; assumption.
      + match type of J3 with Rabs (_ - ?e) <= _ => match goal with |- Rabs (_ - ?g) <= _ => replace g with e by ring end end. eapply Rle_trans; [exact J3|]. lra.
      + lra.
  Qed.
End Back.

(** ** Matrices of rotations are nearly rigid *)
Lemma gram : forall a1 a2 a3 b1 b2 b3 x1 x2 x3 y1 y2 y3 e, 0 <= e <= / 1000 ->
  x1 * x1 + x2 * x2 + x3 * x3 = 1 -> y1 * y1 + y2 * y2 + y3 * y3 = 1 ->
  Rabs (a1 - x1) <= e -> Rabs (a2 - x2) <= e -> Rabs (a3 - x3) <= e -> Rabs (b1 - y1) <= e -> Rabs (b2 - y2) <= e -> Rabs (b3 - y3) <= e ->
  Rabs (a1 * b1 + (a2 * b2 + (a3 * b3 + 0)) - (x1 * y1 + x2 * y2 + x3 * y3)) <= 6.01 * e.
Proof.
  intros a1 a2 a3 b1 b2 b3 x1 x2 x3 y1 y2 y3 e He X Y A1 A2 A3 B1 B2 B3.
  assert (K : forall x, x * x <= 1 -> Rabs x <= 1) by (intros x H; apply Rabs_le; nra).
  assert (L : forall a b x y, Rabs x <= 1 -> Rabs y <= 1 -> Rabs (a - x) <= e -> Rabs (b - y) <= e -> Rabs (a * b - x * y) <= 2.003 * e).
  { intros a b x y HX HY HA HB. replace (a * b - x * y) with ((a - x) * (b - y) + x * (b - y) + (a - x) * y) by ring.
    eapply Rle_trans; [apply abs3; (apply absprod; eassumption)|]. assert (e * e <= / 1000 * e) by (apply Rmult_le_compat_r; lra). lra. }
  pose proof (Rle_0_sqr x1) as P1. pose proof (Rle_0_sqr x2) as P2. pose proof (Rle_0_sqr x3) as P3. unfold Rsqr in P1, P2, P3.
  pose proof (Rle_0_sqr y1) as Q1. pose proof (Rle_0_sqr y2) as Q2. pose proof (Rle_0_sqr y3) as Q3. unfold Rsqr in Q1, Q2, Q3.
  pose proof (L a1 b1 x1 y1 (K x1 ltac:(lra)) (K y1 ltac:(lra)) A1 B1) as R1. pose proof (L a2 b2 x2 y2 (K x2 ltac:(lra)) (K y2 ltac:(lra)) A2 B2) as R2.
  pose proof (L a3 b3 x3 y3 (K x3 ltac:(lra)) (K y3 ltac:(lra)) A3 B3) as R3.
  match goal with |- Rabs ?g <= _ => replace g with ((a1 * b1 - x1 * y1) + (a2 * b2 - x2 * y2) + (a3 * b3 - x3 * y3)) by ring end.
  eapply Rle_trans; [apply abs3; eassumption|]. lra.
Qed.
Lemma axes_gram : forall u, unitQ u -> let a := turned u axisX in let b := turned u axisY in let c := turned u axisZ in
  (vx a * vx a + vy a * vy a + vz a * vz a = 1 /\ vx b * vx b + vy b * vy b + vz b * vz b = 1 /\ vx c * vx c + vy c * vy c + vz c * vz c = 1) /\
  (vx a * vx b + vy a * vy b + vz a * vz b = 0 /\ vx a * vx c + vy a * vy c + vz a * vz c = 0 /\ vx b * vx c + vy b * vy c + vz b * vz c = 0).
Proof.
  intros [x y z w] H. unfold unitQ in H.
  assert (N : norm2 (V4 x y z w) = x * x + y * y + z * z + w * w) by (unfold norm2; cbn [vx vy vz vw]; ring). rewrite N in H. clear N.
  cbn [turned ham axisX axisY axisZ vx vy vz vw].
  set (n := x * x + y * y + z * z + w * w) in H.
  repeat split; first [ring | transitivity (n * n); [unfold n; ring|rewrite H; ring]].
Qed.
Lemma rot_rigid : forall e (m : mat4 f32) u, 0 <= e <= / 1000 -> nearRot e m u ->
  (fin (vw (c0 m)) /\ val (vw (c0 m)) = 0) -> (fin (vw (c1 m)) /\ val (vw (c1 m)) = 0) -> (fin (vw (c2 m)) /\ val (vw (c2 m)) = 0) ->
  point1 (c3 m) -> nearRigid (6.01 * e) m.
Proof.
  intros e m u He [Hu H] W0 W1 W2 P. destruct (axes_gram u Hu) as ((X & Y & Z) & (XY & XZ & YZ)). unfold colsOf43, turnedAxes in H. apply three in H.
  destruct H as (H0 & H1 & H2). unfold l43 in H0, H1, H2. apply three in H0, H1, H2.
  destruct H0 as ((F1 & E1) & (F2 & E2) & (F3 & E3)), H1 as ((F4 & E4) & (F5 & E5) & (F6 & E6)), H2 as ((F7 & E7) & (F8 & E8) & (F9 & E9)).
  unfold nearRigid, axis0, l43. cbn [inner].
  pose proof (gram _ _ _ _ _ _ _ _ _ _ _ _ e He X X E1 E2 E3 E1 E2 E3) as G0. rewrite X in G0.
  pose proof (gram _ _ _ _ _ _ _ _ _ _ _ _ e He Y Y E4 E5 E6 E4 E5 E6) as G1. rewrite Y in G1.
  pose proof (gram _ _ _ _ _ _ _ _ _ _ _ _ e He Z Z E7 E8 E9 E7 E8 E9) as G2. rewrite Z in G2.
  pose proof (gram _ _ _ _ _ _ _ _ _ _ _ _ e He X Y E1 E2 E3 E4 E5 E6) as G3. rewrite XY, Rminus_0_r in G3.
  pose proof (gram _ _ _ _ _ _ _ _ _ _ _ _ e He X Z E1 E2 E3 E7 E8 E9) as G4. rewrite XZ, Rminus_0_r in G4.
  pose proof (gram _ _ _ _ _ _ _ _ _ _ _ _ e He Y Z E4 E5 E6 E7 E8 E9) as G5. rewrite YZ, Rminus_0_r in G5.
  destruct W0, W1, W2. split; [split; [repeat constructor; assumption|split; assumption]|]. split; [split; [repeat constructor; assumption|split; assumption]|].
  split; [split; [repeat constructor; assumption|split; assumption]|]. split; [exact P|]. tauto.
Qed.
Lemma model_rigid : forall p (pos q : vec4 f32), reachable pos -> moderate (l4 q) ->
  let m := calcModel p pos q (V4 f1 f1 f1 f1) in nearRigid (172 / 16777216) m /\ taxi (c3 m) = taxi pos.
Proof.
  intros p pos q [Fp Bp] Mq m. unfold m, calcModel, allEq, dup4. cbn [vx vy vz vw]. rewrite one_eq. cbn [andb].
  pose proof (qnormalize_near p q Mq) as N. destruct (rotate_near (5.2 / 16777216) _ _ ltac:(lra) N) as [NR (W0 & W1 & W2 & C3)].
  set (rt := rotate (qnormalize p q)) in *. clearbody rt.
  destruct (lit_Z 0 ltac:(lia)) as [Z0 V0]. destruct (lit_Z 1 ltac:(lia)) as [Z1 V1].
  change (slit 0 0 : f32) with (f0 : f32) in Z0, V0. change (slit 1 0 : f32) with (f1 : f32) in Z1, V1.
  unfold allFin, boundedBy, l43 in Fp, Bp. inversion Fp as [|? ? Fx F1]; subst. inversion F1 as [|? ? Fy F2]; subst. inversion F2 as [|? ? Fz _]; subst.
  destruct (zero_plus _ Fx) as [Gx Hx]. destruct (zero_plus _ Fy) as [Gy Hy]. destruct (zero_plus _ Fz) as [Gz Hz].
  inversion Bp as [|? ? Bx B1]; subst. inversion B1 as [|? ? By B2]; subst. inversion B2 as [|? ? Bz _]; subst.
  split.
  - assert (K : nearRigid (6.01 * (4.04 * (5.2 / 16777216) + 7.5 / 16777216)) (translateOf pos rt)).
    { apply (rot_rigid _ _ (unitized (valQ q))); [lra|exact NR|cbn [translateOf c0]; rewrite W0; split; assumption|cbn [translateOf c1]; rewrite W1; split; assumption|cbn [translateOf c2]; rewrite W2; split; assumption|].
      unfold translateOf. cbn [c3]. rewrite C3. unfold point1, reachable, withW, vadd, map2_4, l43, allFin, boundedBy. cbn [vx vy vz vw].
      split; [split|split; [exact Z1|exact V1]].
      - repeat constructor; assumption.
      - constructor; [rewrite Hx; exact Bx|constructor; [rewrite Hy; exact By|constructor; [rewrite Hz; exact Bz|constructor]]]. }
    destruct K as (K0 & K1 & K2 & K3 & G0 & G1 & G2 & G3 & G4 & G5). unfold nearRigid.
    split; [exact K0|]. split; [exact K1|]. split; [exact K2|]. split; [exact K3|].
    repeat split; (eapply Rle_trans; [eassumption|lra]).
  - unfold translateOf, taxi. cbn [c3]. rewrite C3. unfold withW, vadd, map2_4. cbn [vx vy vz vw]. rewrite Hx, Hy, Hz. reflexivity.
Qed.
Theorem model_undone : forall p (pos q v : vec4 f32), reachable pos -> moderate (l4 q) -> point1 v ->
  let m := calcModel p pos q (V4 f1 f1 f1 f1) in let r := mulV p (inverseTransRot p m) (mulV p m v) in
  returned (172 / 16777216) (vx r) (vx v) v pos /\ returned (172 / 16777216) (vy r) (vy v) v pos /\ returned (172 / 16777216) (vz r) (vz v) v pos.
Proof.
  intros p pos q v Hp Hq Hv m r. destruct (model_rigid p pos q Hp Hq) as [N T]. fold m in N, T.
  pose proof (comes_back p (172 / 16777216) m v ltac:(lra) N Hv) as K. unfold returned in *. rewrite T in K. exact K.
Qed.
(** a quarter turn about z moved by (5, -2, 7) is rigid without defect *)
Definition quarter : mat4 f32 := M4 (V4 f0 f1 f0 f0) (V4 (slit (-1) 0) f0 f0 f0) (V4 f0 f0 f1 f0) (V4 (slit 5 0) (slit (-2) 0) (slit 7 0) f1).
Lemma ex_quarter : nearRigid 0 quarter /\ point1 (c3 quarter) /\ taxi (c3 quarter) = 14.
Proof.
  destruct (lit_Z 0 ltac:(lia)) as [Z0 V0]. destruct (lit_Z 1 ltac:(lia)) as [Z1 V1].
  change (slit 0 0 : f32) with (f0 : f32) in Z0, V0. change (slit 1 0 : f32) with (f1 : f32) in Z1, V1.
  destruct (lit_Z (-1) ltac:(lia)) as [Zm Vm]. destruct (lit_Z 5 ltac:(lia)) as [Z5 V5]. destruct (lit_Z (-2) ltac:(lia)) as [Z2 V2]. destruct (lit_Z 7 ltac:(lia)) as [Z7 V7].
  assert (P : point1 (c3 quarter)).
  { unfold point1, reachable, quarter, l43, allFin, boundedBy. cbn [c3 vx vy vz vw]. change (bpow radix2 50) with 1125899906842624.
    split; [split|split; assumption]; repeat (apply Forall_cons; [first [assumption|rewrite ?V5, ?V2, ?V7; apply Rabs_le; lra]|]); apply Forall_nil. }
  split; [|split; [exact P|]].
  - unfold nearRigid. assert (A : forall x, x = 0 -> Rabs x <= 0) by (intros x ->; rewrite Rabs_R0; lra).
    split; [|split; [|split; [|split; [exact P|]]]]; unfold quarter, axis0, l43, allFin; cbn [c0 c1 c2 vx vy vz vw inner].
    + split; [repeat constructor; assumption|split; assumption].
    + split; [repeat constructor; assumption|split; assumption].
    + split; [repeat constructor; assumption|split; assumption].
    + rewrite V0, V1, Vm. repeat split; apply A; ring.
  - unfold taxi, quarter. cbn [c3 vx vy vz]. rewrite V5, V2, V7, (Rabs_right 5), (Rabs_left (-2)), (Rabs_right 7) by lra. lra.
Qed.
