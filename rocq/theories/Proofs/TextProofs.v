(** C133: toString read back. *)
From Coq Require Import ZArith List Bool Ascii Reals Lra Lia Psatz.
From Flocq Require Import Core.Core IEEE754.Binary IEEE754.Bits.
From Verif.Model Require Import Scalar Vec Color Version Text.
From Verif.Spec Require Import TextSpec.
From Verif.Proofs Require Import OrdScalar F32Round.
Import ListNotations.
Local Open Scope Z_scope.

Lemma digit_back : forall n, 0 <= n <= 9 -> digitOf (decDigit n) = Some n.
Proof.
  intros n H. assert (forallb (fun k => match digitOf (decDigit k) with Some m => m =? k | None => false end) [0;1;2;3;4;5;6;7;8;9] = true) by reflexivity.
  rewrite forallb_forall in H0. specialize (H0 n). assert (In n [0;1;2;3;4;5;6;7;8;9]) by (cbn; lia).
  specialize (H0 H1). destruct (digitOf (decDigit n)); [apply Z.eqb_eq in H0; subst; reflexivity|discriminate].
Qed.
Definition isDigit (c : ascii) : Prop := exists n, 0 <= n <= 9 /\ c = decDigit n.
Lemma digit_not : forall c x, isDigit c -> In x [" "; "."; "-"]%char -> Ascii.eqb c x = false.
Proof.
  intros c x (n & H & E) Hx. subst c.
  assert (forallb (fun k => forallb (fun y => negb (Ascii.eqb (decDigit k) y)) [" "; "."; "-"]%char) [0;1;2;3;4;5;6;7;8;9] = true) by reflexivity.
  rewrite forallb_forall in H0. specialize (H0 n ltac:(cbn; lia)). rewrite forallb_forall in H0. apply negb_true_iff, H0, Hx.
Qed.
Lemma mod10 : forall n, isDigit (decDigit (n mod 10)).
Proof. intros n. exists (n mod 10). pose proof (Z.mod_pos_bound n 10). split; [lia|reflexivity]. Qed.
Lemma digits_read : forall fuel n rest, 0 <= n < 10 ^ Z.of_nat fuel -> readDigits 0 (digits fuel n rest) = readDigits n rest.
Proof.
  induction fuel as [|k IH]; intros n rest H.
  - cbn in H. assert (n = 0) by lia. subst. reflexivity.
  - cbn [digits]. destruct (n <? 10) eqn:E.
    + apply Z.ltb_lt in E. rewrite Z.mod_small by lia. cbn [readDigits]. rewrite digit_back by lia. f_equal.
    + rewrite Nat2Z.inj_succ, Z.pow_succ_r in H by lia. rewrite IH by (split; [apply Z.div_pos; lia|apply Z.div_lt_upper_bound; lia]).
      cbn [readDigits]. rewrite digit_back by (pose proof (Z.mod_pos_bound n 10); lia). f_equal. pose proof (Z.div_mod n 10). lia.
Qed.
Lemma digits_only : forall fuel n rest, Forall isDigit rest -> Forall isDigit (digits fuel n rest).
Proof.
  induction fuel as [|k IH]; intros n rest H; cbn [digits]; [exact H|].
  destruct (n <? 10); [|apply IH]; (apply Forall_cons; [apply mod10|exact H]).
Qed.
Lemma fuel_enough : forall n, 0 <= n -> n < 10 ^ Z.of_nat (S (Z.to_nat (Z.log2 n))).
Proof.
  intros n H. rewrite Nat2Z.inj_succ, Z2Nat.id by apply Z.log2_nonneg.
  apply Z.lt_le_trans with (2 ^ Z.succ (Z.log2 n)).
  - destruct (Z.eq_dec n 0); [subst; reflexivity|apply Z.log2_spec; lia].
  - apply Z.pow_le_mono_l. lia.
Qed.
Lemma digits_nonempty : forall k n rest, digits (S k) n rest <> [].
Proof.
  assert (G : forall k n rest, rest <> [] -> digits k n rest <> []).
  { induction k as [|k IH]; intros n rest H; cbn [digits]; [exact H|]. destruct (n <? 10); [discriminate|apply IH; discriminate]. }
  intros k n rest. cbn [digits]. destruct (n <? 10); [discriminate|apply G; discriminate].
Qed.
Lemma showUint_digits : forall n, Forall isDigit (showUint n).
Proof. intros n. apply digits_only. constructor. Qed.
Lemma readNat_some : forall s, s <> [] -> readNat s = readDigits 0 s.
Proof. intros [|c s] H; [contradiction|reflexivity]. Qed.
Lemma showUint_read : forall n, 0 <= n -> readNat (showUint n) = Some n.
Proof.
  intros n H. rewrite readNat_some by apply digits_nonempty. unfold showUint. rewrite digits_read; [reflexivity|].
  split; [exact H|apply fuel_enough, H].
Qed.
Lemma readInt_digits : forall s, Forall isDigit s -> readInt s = readNat s.
Proof. intros [|c s] H; [reflexivity|]. inversion H; subst. cbn [readInt]. rewrite digit_not by (auto; cbn; auto). reflexivity. Qed.
Theorem showInt_read : forall n, readInt (showInt n) = Some n.
Proof.
  intros n. unfold showInt. destruct (n <? 0) eqn:E.
  - apply Z.ltb_lt in E. cbn [readInt]. change (Ascii.eqb "-" "-") with true. cbn [option_map].
    rewrite showUint_read by lia. cbn. f_equal. lia.
  - apply Z.ltb_ge in E. rewrite readInt_digits by apply showUint_digits. apply showUint_read, E.
Qed.
(** the first digit is zero only for zero *)
Lemma digits_first : forall fuel n rest, 0 < n < 10 ^ Z.of_nat fuel -> exists c s, digits fuel n rest = c :: s /\ c <> "0"%char.
Proof.
  induction fuel as [|k IH]; intros n rest H; [cbn in H; lia|].
  cbn [digits]. destruct (n <? 10) eqn:E.
  - apply Z.ltb_lt in E. rewrite Z.mod_small by lia. exists (decDigit n), rest. split; [reflexivity|].
    intros Z0. apply (f_equal digitOf) in Z0. rewrite digit_back in Z0 by lia. cbn in Z0. injection Z0 as Z1. lia.
  - apply Z.ltb_ge in E. rewrite Nat2Z.inj_succ, Z.pow_succ_r in H by lia. apply IH.
    split; [apply Z.div_str_pos; lia|apply Z.div_lt_upper_bound; lia].
Qed.
Theorem showInt_canonical : forall n, canonical (showInt n).
Proof.
  intros n. unfold showInt. destruct (n <? 0) eqn:E.
  - apply Z.ltb_lt in E. destruct (digits_first (S (Z.to_nat (Z.log2 (-n)))) (-n) []) as (c & s & Ec & Hc).
    { split; [lia|apply fuel_enough; lia]. }
    unfold showUint. rewrite Ec. cbn [canonical]. split; [discriminate|intros _; exact Hc].
  - apply Z.ltb_ge in E. destruct (Z.eq_dec n 0) as [->|Hn]; [exact I|].
    destruct (digits_first (S (Z.to_nat (Z.log2 n))) n []) as (c & s & Ec & Hc); [split; [lia|apply fuel_enough; lia]|].
    pose proof (showUint_digits n) as D. unfold showUint in *. rewrite Ec in *. destruct s as [|d s]; [exact I|].
    cbn [canonical]. split; [exact Hc|]. intros ->. inversion D as [|? ? D1 D2]; subst.
    pose proof (digit_not _ "-"%char D1 ltac:(cbn; auto)) as X. discriminate X.
Qed.
(** ** Splitting *)
Lemma split_piece : forall c w r, Forall (fun a => Ascii.eqb a c = false) w -> splitAt c (w ++ c :: r) = w :: splitAt c r.
Proof.
  induction w as [|a w IH]; intros r H; cbn [app splitAt].
  - rewrite Ascii.eqb_refl. reflexivity.
  - inversion H; subst. rewrite H2, IH by assumption. reflexivity.
Qed.
Lemma split_last : forall c w, Forall (fun a => Ascii.eqb a c = false) w -> splitAt c w = [w].
Proof. induction w as [|a w IH]; intros H; cbn [splitAt]; [reflexivity|]. inversion H; subst. rewrite H2, IH by assumption. reflexivity. Qed.
Definition noSpace (w : text) : Prop := Forall (fun a => Ascii.eqb a " " = false) w.
Lemma spaced_cons : forall a b r, spaced (a :: b :: r) = a ++ " "%char :: spaced (b :: r).
Proof.
  intros a b r. cbn [spaced fold_left]. revert a b. induction r as [|d r IH]; intros a b; cbn [fold_left]; [reflexivity|].
  rewrite (IH (a ++ [" "%char] ++ b) d), (IH b d), <- !app_assoc. reflexivity.
Qed.
Lemma spaced_split : forall l, l <> [] -> Forall noSpace l -> splitAt " "%char (spaced l) = l.
Proof.
  induction l as [|a l IH]; intros N H; [contradiction|]. inversion H; subst. destruct l as [|b r].
  - apply split_last. assumption.
  - rewrite spaced_cons, split_piece by assumption. f_equal. apply IH; [discriminate|assumption].
Qed.
Lemma digits_noSpace : forall w, Forall isDigit w -> noSpace w.
Proof. intros w H. eapply Forall_impl; [|exact H]. intros a Ha. apply digit_not; [exact Ha|cbn; auto]. Qed.
Lemma showInt_noSpace : forall n, noSpace (showInt n).
Proof.
  intros n. unfold showInt. destruct (n <? 0); [apply Forall_cons; [reflexivity|]|]; apply digits_noSpace, showUint_digits.
Qed.
Lemma allSome_map : forall {A} (l : list A), allSome (map Some l) = Some l.
Proof. induction l as [|a l IH]; [reflexivity|]. cbn. rewrite IH. reflexivity. Qed.
Lemma ints_back : forall l, l <> [] -> readInts (spaced (map showInt l)) = Some l.
Proof.
  intros l H. unfold readInts. rewrite spaced_split.
  - rewrite map_map, (map_ext _ Some) by apply showInt_read. apply allSome_map.
  - destruct l; [contradiction|discriminate].
  - apply Forall_map, Forall_forall. intros x _. apply showInt_noSpace.
Qed.
Lemma show_same : forall n, 0 <= n -> showInt n = showUint n.
Proof. intros n H. unfold showInt. replace (n <? 0) with false by (symmetry; apply Z.ltb_ge; lia). reflexivity. Qed.
(** ** Integer vectors and colours *)
Theorem ints_text : (forall v, readInts (toStringI2 v) = Some [x2 v; y2 v]) /\ (forall v, readInts (toStringI3 v) = Some [x3 v; y3 v; z3 v]) /\
  (forall v, readInts (toStringI4 v) = Some [vx v; vy v; vz v; vw v]).
Proof.
  split; [|split]; intros v.
  - apply (ints_back [x2 v; y2 v]). discriminate.
  - apply (ints_back [x3 v; y3 v; z3 v]). discriminate.
  - apply (ints_back [vx v; vy v; vz v; vw v]). discriminate.
Qed.
Theorem uints_text : (forall v, 0 <= x2 v -> 0 <= y2 v -> readInts (toStringU2 v) = Some [x2 v; y2 v]) /\
  (forall v, 0 <= x3 v -> 0 <= y3 v -> 0 <= z3 v -> readInts (toStringU3 v) = Some [x3 v; y3 v; z3 v]) /\
  (forall v, 0 <= vx v -> 0 <= vy v -> 0 <= vz v -> 0 <= vw v -> readInts (toStringU4 v) = Some [vx v; vy v; vz v; vw v]).
Proof.
  split; [|split]; intros v **.
  - unfold toStringU2. rewrite <- !show_same by assumption. apply (ints_back [x2 v; y2 v]). discriminate.
  - unfold toStringU3. rewrite <- !show_same by assumption. apply (ints_back [x3 v; y3 v; z3 v]). discriminate.
  - unfold toStringU4. rewrite <- !show_same by assumption. apply (ints_back [vx v; vy v; vz v; vw v]). discriminate.
Qed.
Theorem colors_text : forall c, readInts (colorToString4 c) = Some [cr c; cg c; cb c; ca c] /\ readInts (colorToString3 c) = Some [cr c; cg c; cb c] /\
  readInts (colorToString2 c) = Some [cr c; cg c] /\ readInts (colorToString1 c) = Some [cr c].
Proof.
  intros c. split; [|split; [|split]].
  - apply (ints_back [cr c; cg c; cb c; ca c]). discriminate.
  - apply (ints_back [cr c; cg c; cb c]). discriminate.
  - apply (ints_back [cr c; cg c]). discriminate.
  - apply (ints_back [cr c]). discriminate.
Qed.
(** ** Floats *)
Lemma fixed_read : forall k a n rest, readDigits a (fixedDigits k n rest) = readDigits (a * 10 ^ Z.of_nat k + n mod 10 ^ Z.of_nat k) rest.
Proof.
  induction k as [|k IH]; intros a n rest; cbn [fixedDigits].
  - cbn. rewrite Z.mod_1_r. f_equal. lia.
  - rewrite IH. cbn [readDigits]. rewrite digit_back by (pose proof (Z.mod_pos_bound n 10); lia). f_equal.
    rewrite Nat2Z.inj_succ, Z.pow_succ_r by lia. rewrite (Z.rem_mul_r n 10) by (try lia; apply Z.pow_pos_nonneg; lia). ring.
Qed.
Lemma fixed_digits : forall k n rest, Forall isDigit rest -> Forall isDigit (fixedDigits k n rest).
Proof. induction k as [|k IH]; intros n rest H; cbn [fixedDigits]; [exact H|]. apply IH. apply Forall_cons; [apply mod10|exact H]. Qed.
Lemma fixed_length : forall k n rest, length (fixedDigits k n rest) = (k + length rest)%nat.
Proof. induction k as [|k IH]; intros n rest; cbn [fixedDigits]; [reflexivity|]. rewrite IH. cbn. lia. Qed.
Lemma digits_noDot : forall w, Forall isDigit w -> Forall (fun a => Ascii.eqb a "." = false) w.
Proof. intros w H. eapply Forall_impl; [|exact H]. intros a Ha. apply digit_not; [exact Ha|cbn; auto]. Qed.
Lemma dec_read : forall n, 0 <= n -> readUnsignedDec (showUint (n / 1000000) ++ ["."%char] ++ fixedDigits 6 (n mod 1000000) []) = Some (IZR n / 1000000)%R.
Proof.
  intros n H. unfold readUnsignedDec. cbn [app].
  assert (D : Forall isDigit (fixedDigits 6 (n mod 1000000) [])) by (apply fixed_digits; constructor).
  rewrite split_piece by (apply digits_noDot, showUint_digits). rewrite split_last by (apply digits_noDot, D).
  rewrite showUint_read by (apply Z.div_pos; lia).
  rewrite readNat_some by (intros E; apply (f_equal (@length ascii)) in E; rewrite fixed_length in E; discriminate E).
  rewrite fixed_read, fixed_length. cbn [readDigits length Nat.add]. change (10 ^ Z.of_nat 6) with 1000000. rewrite Z.mod_mod by lia. cbn [Z.mul Z.add].
  f_equal. rewrite (Z.div_mod n 1000000) at 3 by lia. rewrite plus_IZR, mult_IZR. replace (10 ^ 6)%R with 1000000%R by (cbn; lra). lra.
Qed.
Lemma round_quot : forall num den, 0 <= num -> 0 < den -> 0 <= roundQuot num den /\ (Rabs (IZR (roundQuot num den) - IZR num / IZR den) <= / 2)%R.
Proof.
  intros num den Hn Hd. unfold roundQuot. pose proof (Z.div_mod num den ltac:(lia)) as E. pose proof (Z.mod_pos_bound num den Hd) as B.
  pose proof (Z.div_pos num den Hn Hd) as Q. set (q := num / den) in *. set (r := num mod den) in *. clearbody q r.
  assert (Dp : (0 < IZR den)%R) by (apply IZR_lt; lia).
  assert (X : (IZR num / IZR den = IZR q + IZR r / IZR den)%R) by (rewrite E, plus_IZR, mult_IZR; field; lra).
  assert (Y : (0 <= IZR r / IZR den)%R) by (apply Rmult_le_pos; [apply IZR_le; lia|left; apply Rinv_0_lt_compat; lra]).
  assert (Lo : 2 * r <= den -> (IZR r / IZR den <= / 2)%R).
  { intros L. apply IZR_le in L. rewrite mult_IZR in L. apply Rmult_le_reg_r with (IZR den); [exact Dp|]. unfold Rdiv. rewrite Rmult_assoc, Rinv_l by lra. lra. }
  assert (Hi : den <= 2 * r -> (/ 2 <= IZR r / IZR den <= 1)%R).
  { intros L. apply IZR_le in L. rewrite mult_IZR in L. assert (IZR r <= IZR den)%R by (apply IZR_le; lia).
    split; (apply Rmult_le_reg_r with (IZR den); [exact Dp|]); unfold Rdiv; rewrite Rmult_assoc, Rinv_l by lra; lra. }
  rewrite X. destruct (2 * r <? den) eqn:C1; [|destruct (den <? 2 * r) eqn:C2; [|destruct (Z.even q)]].
  - apply Z.ltb_lt in C1. specialize (Lo ltac:(lia)). split; [exact Q|]. apply Rabs_le. lra.
  - apply Z.ltb_lt in C2. specialize (Hi ltac:(lia)). split; [lia|]. rewrite plus_IZR. apply Rabs_le. lra.
  - apply Z.ltb_ge in C1. apply Z.ltb_ge in C2. specialize (Lo ltac:(lia)). split; [exact Q|]. apply Rabs_le. lra.
  - apply Z.ltb_ge in C1. apply Z.ltb_ge in C2. specialize (Hi ltac:(lia)). split; [lia|]. rewrite plus_IZR. apply Rabs_le. lra.
Qed.
(** the number printed, in millionths *)
Lemma float_text : forall v : f32, fin v -> exists n, 0 <= n /\ (Rabs (IZR n - Rabs (val v) * 1000000) <= / 2)%R /\
  showFloat v = (if Bsign 24 128 v then ["-"%char] else []) ++ showUint (n / 1000000) ++ ["."%char] ++ fixedDigits 6 (n mod 1000000) [].
Proof.
  intros [s|s|s pl H|s m e H] F; try discriminate F.
  - exists 0. split; [lia|]. split; [cbn; rewrite Rabs_R0, Rmult_0_l, Rminus_0_r, Rabs_R0; lra|reflexivity].
  - cbn [showFloat Bsign].
    set (n := if 0 <=? e then Z.pos m * 2 ^ e * 1000000 else roundQuot (Z.pos m * 1000000) (2 ^ (- e))).
    exists n.
    assert (V : (Rabs (val (B754_finite 24 128 s m e H : f32)) = IZR (Z.pos m) * bpow radix2 e)%R).
    { change (val (B754_finite 24 128 s m e H)) with (F2R (Float radix2 (cond_Zopp s (Z.pos m)) e)).
      rewrite <- F2R_Zabs. unfold F2R. cbn [Fnum Fexp]. destruct s; reflexivity. }
    assert (G : 0 <= n /\ (Rabs (IZR n - Rabs (val (B754_finite 24 128 s m e H : f32)) * 1000000) <= / 2)%R).
    { rewrite V. unfold n. destruct (0 <=? e) eqn:E.
      - apply Z.leb_le in E. split; [apply Z.mul_nonneg_nonneg; [apply Z.mul_nonneg_nonneg; [lia|apply Z.pow_nonneg; lia]|lia]|].
        rewrite !mult_IZR. rewrite <- (IZR_Zpower radix2) by exact E. change (Zpower radix2 e) with (2 ^ e).
        rewrite Rminus_diag_eq by ring. rewrite Rabs_R0. lra.
      - apply Z.leb_gt in E. assert (P : 0 < 2 ^ (- e)) by (apply Z.pow_pos_nonneg; lia).
        destruct (round_quot (Z.pos m * 1000000) (2 ^ (- e)) ltac:(lia) P) as [A B]. split; [exact A|].
        replace (IZR (Z.pos m) * bpow radix2 e * 1000000)%R with (IZR (Z.pos m * 1000000) / IZR (2 ^ (- e)))%R; [exact B|].
        rewrite mult_IZR. change (2 ^ (- e)) with (Zpower radix2 (- e)). rewrite IZR_Zpower by lia. rewrite (bpow_opp radix2 e).
        unfold Rdiv. rewrite Rinv_inv. ring. }
    split; [apply G|]. split; [apply G|]. reflexivity.
Qed.
Lemma sign_value : forall v : f32, fin v -> val v = (if Bsign 24 128 v then - Rabs (val v) else Rabs (val v))%R.
Proof.
  intros [s|s|s pl H|s m e H] F; try discriminate F.
  - cbn [Bsign]. cbn. rewrite Rabs_R0. destruct s; lra.
  - cbn [Bsign]. change (val (B754_finite 24 128 s m e H)) with (F2R (Float radix2 (cond_Zopp s (Z.pos m)) e)).
    rewrite <- F2R_Zabs. unfold F2R. cbn [Fnum Fexp]. destruct s; cbn [cond_Zopp]; [|reflexivity].
    change (Z.abs (Z.neg m)) with (Z.pos m). change (- Z.pos m) with (Z.neg m). change (Z.neg m) with (- Z.pos m). rewrite opp_IZR. cbn [Z.abs Z.opp]. ring.
Qed.
Lemma readDec_digit : forall c s, isDigit c -> readDec (c :: s) = readUnsignedDec (c :: s).
Proof. intros c s H. cbn [readDec]. rewrite digit_not by (auto; cbn; auto). reflexivity. Qed.
Theorem float_back : forall v : f32, fin v -> exists d, readDec (showFloat v) = Some d /\ sixDecimals (val v) d.
Proof.
  intros v F. destruct (float_text v F) as (n & Hn & Hd & E). rewrite E. pose proof (sign_value v F) as S.
  destruct (Bsign 24 128 v).
  - exists (- (IZR n / 1000000))%R. split.
    + cbn [app readDec]. change (Ascii.eqb "-" "-") with true. cbn match. change (showUint (n / 1000000) ++ "."%char :: fixedDigits 6 (n mod 1000000) [])
        with (showUint (n / 1000000) ++ ["."%char] ++ fixedDigits 6 (n mod 1000000) []). rewrite dec_read by exact Hn. reflexivity.
    + split; [|exists (- n); rewrite opp_IZR; lra]. rewrite S. apply Rabs_le_inv in Hd. apply Rabs_le. lra.
  - exists (IZR n / 1000000)%R. split.
    + cbn [app]. rewrite <- (dec_read n Hn). pose proof (showUint_digits (n / 1000000)) as D.
      destruct (showUint (n / 1000000)) as [|c r] eqn:Es; [exfalso; revert Es; apply digits_nonempty|].
      cbn [app]. apply readDec_digit. inversion D; assumption.
    + split; [|exists n; reflexivity]. rewrite S. apply Rabs_le_inv in Hd. apply Rabs_le. lra.
Qed.
Lemma showFloat_noSpace : forall v : f32, noSpace (showFloat v).
Proof.
  intros v.
  assert (G : forall (s : bool) n, noSpace ((if s then ["-"%char] else []) ++ showUint (n / 1000000) ++ ["."%char] ++ fixedDigits 6 (n mod 1000000) [])).
  { intros s n. apply Forall_app. split; [destruct s; repeat constructor|].
    apply Forall_app. split; [apply digits_noSpace, showUint_digits|]. apply Forall_app. split; [repeat constructor|].
    apply digits_noSpace, fixed_digits. constructor. }
  destruct v as [s|s|s pl H|s m e H].
  - apply (G s 0).
  - destruct s; repeat constructor.
  - destruct s; repeat constructor.
  - apply G.
Qed.
Lemma floats_back : forall l : list f32, l <> [] -> Forall (fun v : f32 => fin v) l -> exists ds, readDecs (spaced (map showFloat l)) = Some ds /\ Forall2 (fun v d => sixDecimals (val v) d) l ds.
Proof.
  intros l N H. unfold readDecs. rewrite spaced_split.
  - clear N. induction H as [|v l Hv Hl IH]; [exists []; split; [reflexivity|constructor]|].
    destruct IH as (ds & E & A). destruct (float_back v Hv) as (d & Ed & Ad). exists (d :: ds). cbn [map allSome]. rewrite Ed, E. split; [reflexivity|constructor; assumption].
  - destruct l; [contradiction|discriminate].
  - apply Forall_map, Forall_forall. intros x _. apply showFloat_noSpace.
Qed.
Theorem floats_text :
  (forall v : vec2 f32, fin (x2 v) -> fin (y2 v) -> exists ds, readDecs (toStringF2 v) = Some ds /\ Forall2 (fun (v : f32) d => sixDecimals (val v) d) [x2 v; y2 v] ds) /\
  (forall v : vec3 f32, fin (x3 v) -> fin (y3 v) -> fin (z3 v) -> exists ds, readDecs (toStringF3 v) = Some ds /\ Forall2 (fun (v : f32) d => sixDecimals (val v) d) [x3 v; y3 v; z3 v] ds) /\
  (forall v : vec4 f32, fin (vx v) -> fin (vy v) -> fin (vz v) -> fin (vw v) ->
    exists ds, readDecs (toStringF4 v) = Some ds /\ Forall2 (fun (v : f32) d => sixDecimals (val v) d) [vx v; vy v; vz v; vw v] ds).
Proof.
  split; [|split]; intros v **.
  - apply (floats_back [x2 v; y2 v]); [discriminate|repeat (apply Forall_cons; [assumption|]); apply Forall_nil].
  - apply (floats_back [x3 v; y3 v; z3 v]); [discriminate|repeat (apply Forall_cons; [assumption|]); apply Forall_nil].
  - apply (floats_back [vx v; vy v; vz v; vw v]); [discriminate|repeat (apply Forall_cons; [assumption|]); apply Forall_nil].
Qed.
(** values that are more than a millionth apart have different texts *)
Theorem floats_apart : forall a b : f32, fin a -> fin b -> (/ 1000000 < Rabs (val a - val b))%R -> showFloat a <> showFloat b.
Proof.
  intros a b Fa Fb H E. destruct (float_back a Fa) as (d & Ed & Ad & _), (float_back b Fb) as (d' & Ed' & Ad' & _).
  rewrite E, Ed' in Ed. injection Ed as ->. apply Rabs_le_inv in Ad. apply Rabs_le_inv in Ad'. revert H. apply Rle_not_lt. apply Rabs_le. lra.
Qed.
Theorem floats_same : exists a b : vec2 f32, fin (x2 a) /\ fin (y2 a) /\ fin (x2 b) /\ fin (y2 b) /\ val (x2 a) <> val (x2 b) /\ toStringF2 a = toStringF2 b.
Proof.
  exists (V2 (slit 1 (-30)) (slit 1 0)), (V2 (slit 1 (-31)) (slit 1 0)).
  split; [reflexivity|]. split; [reflexivity|]. split; [reflexivity|]. split; [reflexivity|]. split; [|vm_compute; reflexivity].
  intros E.
  assert (C : slt (slit 1 (-31) : f32) (slit 1 (-30)) = true) by reflexivity.
  rewrite slt_ext in C by (apply fin_num; reflexivity). rewrite !fin_ext in C by reflexivity. cbn [x2] in E. rewrite E in C. revert C.
  rewrite Rlt_bool_false by lra. discriminate.
Qed.
(** a whole number of millionths is printed exactly *)
Theorem floats_exact : forall (v : f32) n, fin v -> (val v = IZR n / 1000000)%R -> readDec (showFloat v) = Some (val v).
Proof.
  intros v n F H. destruct (float_back v F) as (d & E & A & m & M). rewrite E. f_equal. rewrite H, M in *. f_equal. f_equal.
  apply Rabs_le_inv in A. assert (B : (-1 < IZR m - IZR n < 1)%R) by lra. rewrite <- minus_IZR in B. destruct B as [B1 B2].
  apply lt_IZR in B1. apply lt_IZR in B2. lia.
Qed.
Theorem floats_special : forall v : f32, ~ fin v -> readDec (showFloat v) = None.
Proof. intros [s|s|s pl H|s m e H] F; try (exfalso; apply F; reflexivity); destruct s; reflexivity. Qed.
