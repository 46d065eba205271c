From Coq Require Import ZArith List Bool Lia.
From Verif.Model Require Import Outcome Packed.
From Verif.Spec Require Import OrderSpec PackedSpec.
From Verif.Proofs Require Import BitLemmas.
Import ListNotations.
Local Open Scope Z_scope.


Lemma wmask_ones : forall w, wmask w = Z.ones (wbits w).
Proof. destruct w; reflexivity. Qed.

Lemma perByte_wbits : forall w, perByte w * wbits w = 8.
Proof. destruct w; reflexivity. Qed.

Lemma shiftOf_range : forall w i, 0 <= shiftOf w i /\ shiftOf w i + wbits w <= 8.
Proof.
  intros w i. unfold shiftOf.
  destruct w; cbn [perByte wbits];
    match goal with |- context [i mod ?n] => pose proof (Z.mod_pos_bound i n ltac:(lia)) end; lia.
Qed.

Lemma getByte_bits : forall w b i k, 0 <= k ->
  Z.testbit (getByte w b i) k = Z.testbit b (k + shiftOf w i) && (k <? wbits w).
Proof.
  intros w b i k Hk. unfold getByte. rewrite Z.land_spec, wmask_ones.
  rewrite Z.shiftr_spec by lia. f_equal.
  assert (Hw : 0 <= wbits w) by (destruct w; cbn; lia).
  destruct (Z.ltb_spec k (wbits w)).
  - rewrite Z.ones_spec_low by lia. reflexivity.
  - rewrite Z.ones_spec_high by lia. reflexivity.
Qed.

Lemma setByte_bits : forall w b i v k, 0 <= k < 8 ->
  Z.testbit (setByte w b i v) k =
  if (shiftOf w i <=? k) && (k <? shiftOf w i + wbits w)
  then Z.testbit v (k - shiftOf w i) else Z.testbit b k.
Proof.
  intros w b i v k Hk. unfold setByte. change 256 with (2 ^ 8).
  rewrite Z.mod_pow2_bits_low by lia.
  pose proof (shiftOf_range w i) as [Hs0 Hs1].
  assert (Hw : 0 <= wbits w) by (destruct w; cbn; lia).
  rewrite Z.lor_spec, Z.land_spec, Z.lnot_spec, !Z.shiftl_spec by lia.
  rewrite Z.land_spec, wmask_ones.
  destruct (Z.leb_spec (shiftOf w i) k); cbn.
  - destruct (Z.ltb_spec k (shiftOf w i + wbits w)).
    + rewrite Z.ones_spec_low by lia. cbn. rewrite andb_false_r, andb_true_r. reflexivity.
    + rewrite Z.ones_spec_high by lia. cbn. rewrite andb_true_r, andb_false_r, orb_false_r.
      reflexivity.
  - rewrite !(Z.testbit_neg_r _ (k - shiftOf w i)) by lia. cbn.
    rewrite andb_true_r, orb_false_r. reflexivity.
Qed.

Lemma getByte_range : forall w b i, 0 <= getByte w b i < 2 ^ wbits w.
Proof.
  intros w b i. unfold getByte. rewrite wmask_ones, Z.land_ones by (destruct w; cbn; lia).
  apply Z.mod_pos_bound. destruct w; cbn; lia.
Qed.

Lemma getByte_setByte_same : forall w b i v, getByte w (setByte w b i v) i = v mod 2 ^ wbits w.
Proof.
  intros w b i v. apply Z.bits_inj'. intros k Hk.
  rewrite getByte_bits by lia. pose proof (shiftOf_range w i) as [Hs0 Hs1].
  destruct (Z.ltb_spec k (wbits w)).
  - rewrite setByte_bits by lia. rewrite Z.mod_pow2_bits_low by lia.
    replace (shiftOf w i <=? k + shiftOf w i) with true by (symmetry; apply Z.leb_le; lia).
    replace (k + shiftOf w i <? shiftOf w i + wbits w) with true by (symmetry; apply Z.ltb_lt; lia).
    cbn. rewrite andb_true_r. f_equal. lia.
  - rewrite Z.mod_pow2_bits_high by (destruct w; cbn in *; lia). apply andb_false_r.
Qed.

Lemma getByte_setByte_other : forall w b i j v,
  i mod perByte w <> j mod perByte w -> getByte w (setByte w b i v) j = getByte w b j.
Proof.
  intros w b i j v Hd. apply Z.bits_inj'. intros k Hk.
  rewrite !getByte_bits by lia. pose proof (shiftOf_range w j) as [Hs0 Hs1].
  destruct (Z.ltb_spec k (wbits w)); [|rewrite !andb_false_r; reflexivity].
  rewrite setByte_bits by lia.
  replace ((shiftOf w i <=? k + shiftOf w j) && (k + shiftOf w j <? shiftOf w i + wbits w)) with false;
    [reflexivity|]. symmetry. apply andb_false_iff.
  rewrite Z.leb_gt, Z.ltb_ge. unfold shiftOf in *.
  destruct w; cbn [perByte wbits] in *; lia.
Qed.

Lemma setByte_byte : forall w b i v, byte (setByte w b i v).
Proof. intros. unfold setByte, byte. apply Z.mod_pos_bound. lia. Qed.

Lemma updNth_length : forall A n (x : A) l, length (updNth n x l) = length l.
Proof. induction n; destruct l; cbn; auto. Qed.

Lemma nth_error_updNth_eq : forall A n (x : A) l, (n < length l)%nat ->
  nth_error (updNth n x l) n = Some x.
Proof. induction n; destruct l; cbn; intros; try lia; auto. apply IHn. lia. Qed.

Lemma nth_error_updNth_ne : forall A n m (x : A) l, n <> m ->
  nth_error (updNth n x l) m = nth_error l m.
Proof. induction n; destruct l, m; cbn; intros; auto; try congruence. Qed.

Lemma nth_updNth_eq : forall A n (x d : A) l, (n < length l)%nat -> nth n (updNth n x l) d = x.
Proof. induction n; destruct l; cbn; intros; try lia; auto. apply IHn. lia. Qed.

Lemma nth_updNth_ne : forall A n m (x d : A) l, n <> m -> nth m (updNth n x l) d = nth m l d.
Proof. induction n; destruct l, m; cbn; intros; auto; try congruence. Qed.


Lemma byteIndex_range : forall w buf i, 0 <= i < capacity w buf ->
  (Z.to_nat (i / perByte w) < length buf)%nat.
Proof.
  intros w buf i Hi. unfold capacity in Hi.
  assert (0 <= i / perByte w < Z.of_nat (length buf)); [|lia].
  destruct w; cbn [perByte] in *; Z.div_mod_to_equations; lia.
Qed.

Lemma byteIndex_out : forall w buf i, capacity w buf <= i ->
  (length buf <= Z.to_nat (i / perByte w))%nat.
Proof.
  intros w buf i Hi. unfold capacity in Hi.
  assert (Z.of_nat (length buf) <= i / perByte w); [|lia].
  destruct w; cbn [perByte] in *; Z.div_mod_to_equations; lia.
Qed.

Lemma bufGet_defined : forall w buf i,
  (exists x, bufGet w buf i = Ok x /\ 0 <= x < 2 ^ wbits w) <-> 0 <= i < capacity w buf.
Proof.
  intros w buf i. unfold bufGet. split.
  - intros (x & Hx & _). destruct (Z.ltb_spec i 0); [discriminate|]. split; [lia|].
    destruct (Z.lt_ge_cases i (capacity w buf)); [assumption|].
    apply byteIndex_out in H0. apply nth_error_None in H0. rewrite H0 in Hx. discriminate.
  - intros Hi. destruct (Z.ltb_spec i 0); [lia|].
    apply byteIndex_range in Hi. apply nth_error_Some in Hi.
    destruct (nth_error buf (Z.to_nat (i / perByte w))) eqn:E; [|congruence].
    eexists. split; [reflexivity|]. apply getByte_range.
Qed.

Lemma bufSet_spec : forall w buf i v, 0 <= i < capacity w buf -> bytes buf ->
  exists buf', bufSet w buf i v = Ok buf' /\ length buf' = length buf /\ bytes buf' /\
    bufGet w buf' i = Ok (v mod 2 ^ wbits w) /\
    (forall j, j <> i -> bufGet w buf' j = bufGet w buf j).
Proof.
  intros w buf i v Hi Hb. pose proof (byteIndex_range w buf i Hi) as Hn.
  unfold bufSet. destruct (Z.ltb_spec i 0); [lia|].
  destruct (nth_error buf (Z.to_nat (i / perByte w))) as [b|] eqn:E.
  2:{ apply nth_error_None in E. lia. }
  eexists. split; [reflexivity|]. rewrite updNth_length. split; [reflexivity|].
  split.
  { unfold bytes. clear - Hb. revert Hb. generalize (Z.to_nat (i / perByte w)). 
    induction buf; intros n Hb; [destruct n; constructor|].
    inversion Hb; subst. destruct n; cbn; constructor; auto. apply setByte_byte. }
  split.
  - unfold bufGet. destruct (Z.ltb_spec i 0); [lia|].
    rewrite nth_error_updNth_eq by assumption. rewrite getByte_setByte_same. reflexivity.
  - intros j Hj. unfold bufGet. destruct (Z.ltb_spec j 0); [reflexivity|].
    destruct (Nat.eq_dec (Z.to_nat (i / perByte w)) (Z.to_nat (j / perByte w))) as [Ee|Ee].
    + rewrite <- Ee, nth_error_updNth_eq, E by assumption.
      rewrite getByte_setByte_other; [reflexivity|].
      destruct w; cbn [perByte] in *; Z.div_mod_to_equations; lia.
    + rewrite nth_error_updNth_ne by assumption. reflexivity.
Qed.

Lemma bytesFor_capacity : forall w n, 0 <= n ->
  n <= perByte w * bytesFor w n < n + perByte w.
Proof.
  intros w n Hn. unfold bytesFor.
  destruct w; cbn [perByte];
    match goal with |- context [n mod ?d =? 0] => destruct (Z.eqb_spec (n mod d) 0) end;
    Z.div_mod_to_equations; lia.
Qed.

Lemma bytesFor_nonneg : forall w n, 0 <= n -> 0 <= bytesFor w n.
Proof. intros w n Hn. pose proof (bytesFor_capacity w n Hn). destruct w; cbn [perByte] in *; lia. Qed.

Lemma bufResize_length : forall w buf n, 0 <= n ->
  Z.of_nat (length (bufResize w buf n)) = bytesFor w n.
Proof.
  intros w buf n Hn. unfold bufResize, vecResize.
  pose proof (bytesFor_nonneg w n Hn).
  rewrite app_length, firstn_length, repeat_length. lia.
Qed.

Lemma nth_error_repeat0 : forall m k x, nth_error (repeat 0 m) k = Some x -> x = 0.
Proof. induction m; destruct k; cbn; intros x H; try discriminate; try congruence; eauto. Qed.

Lemma nth_error_vecResize : forall n buf k, (k < Z.to_nat n)%nat ->
  nth_error (vecResize n buf) k =
  if (k <? length buf)%nat then nth_error buf k else Some 0.
Proof.
  intros n buf k Hk. unfold vecResize.
  destruct (Nat.ltb_spec k (length buf)).
  - rewrite nth_error_app1 by (rewrite firstn_length; lia).
    clear - Hk. revert k buf Hk. generalize (Z.to_nat n) as m.
    induction m; intros k buf Hk; [lia|]. destruct buf, k; cbn; auto. apply IHm. lia.
  - rewrite nth_error_app2 by (rewrite firstn_length; lia). rewrite firstn_length.
    replace (Nat.min (Z.to_nat n) (length buf)) with (length buf) by lia.
    destruct (nth_error (repeat 0 (Z.to_nat n - length buf)) (k - length buf)) eqn:E.
    + f_equal. eapply nth_error_repeat0; eauto.
    + apply nth_error_None in E. rewrite repeat_length in E. lia.
Qed.

Lemma bufResize_spec : forall w buf n i, 0 <= i < n ->
  (i < capacity w buf -> bufGet w (bufResize w buf n) i = bufGet w buf i) /\
  (capacity w buf <= i -> bufGet w (bufResize w buf n) i = Ok 0).
Proof.
  intros w buf n i Hi. unfold bufGet, bufResize.
  pose proof (bytesFor_capacity w n ltac:(lia)) as Hc.
  assert (Hk : (Z.to_nat (i / perByte w) < Z.to_nat (bytesFor w n))%nat).
  { assert (0 <= i / perByte w < bytesFor w n); [|lia].
    destruct w; cbn [perByte] in *; Z.div_mod_to_equations; lia. }
  destruct (Z.ltb_spec i 0); [lia|].
  rewrite nth_error_vecResize by assumption. split; intros H0.
  - pose proof (byteIndex_range w buf i ltac:(lia)) as Hr.
    apply Nat.ltb_lt in Hr. rewrite Hr. reflexivity.
  - apply byteIndex_out in H0. apply Nat.ltb_ge in H0. rewrite H0.
    unfold getByte. rewrite Z.shiftr_0_l. reflexivity.
Qed.

(** ** The object *)


Lemma newPackedOf_spec : forall w h n, 0 <= n ->
  let '(h', v) := newPackedOf w h n in
  ownsItself h' v /\ (forall i, 0 <= i < n -> getPacked w h' v i = Ok 0) /\
  (forall k, (k < length h)%nat -> nth k h' nil = nth k h nil).
Proof.
  intros w h n Hn. unfold newPackedOf, newPacked, resizePacked; cbn.
  unfold ownsItself; cbn. rewrite updNth_length, app_length; cbn.
  split; [split; [reflexivity|lia]|]. split.
  - intros i Hi. unfold getPacked; cbn.
    rewrite nth_error_updNth_eq by (rewrite app_length; cbn; lia).
    rewrite app_nth2 by lia. rewrite Nat.sub_diag. cbn.
    apply bufResize_spec; [assumption|]. unfold capacity. destruct w; cbn; lia.
  - intros k Hk. rewrite nth_updNth_ne by lia. rewrite app_nth1 by lia. reflexivity.
Qed.

(** Packed vectors are arrays of [wbits w]-bit elements. *)
Lemma packed_array : forall w h v i x, ownsItself h v -> bytes (nth (own v) h nil) ->
  0 <= i < capacity w (nth (own v) h nil) ->
  exists h', setPacked w h v i x = Ok h' /\ ownsItself h' v /\ bytes (nth (own v) h' nil) /\
    getPacked w h' v i = Ok (x mod 2 ^ wbits w) /\
    (forall j, j <> i -> getPacked w h' v j = getPacked w h v j).
Proof.
  intros w h v i x [Hp Ho] Hb Hi. unfold setPacked, getPacked. rewrite Hp.
  destruct (nth_error h (own v)) as [buf|] eqn:E.
  2:{ apply nth_error_None in E. lia. }
  rewrite (nth_error_nth _ _ nil E) in Hb, Hi.
  destruct (bufSet_spec w buf i x Hi Hb) as (buf' & Hs & Hl & Hb' & Hg & Hn).
  rewrite Hs. cbn. eexists. split; [reflexivity|].
  assert (Hnth : nth_error (updNth (own v) buf' h) (own v) = Some buf')
    by (apply nth_error_updNth_eq; assumption).
  rewrite Hnth. rewrite (nth_error_nth _ _ nil Hnth).
  repeat split; auto. rewrite updNth_length. assumption.
Qed.

Lemma packed_resize : forall w h v n, (own v < length h)%nat -> 0 <= n ->
  let '(h', v') := resizePacked w h v n in
  ownsItself h' v' /\
  forall i, 0 <= i < n ->
    (i < capacity w (nth (own v) h nil) ->
       getPacked w h' v' i = bufGet w (nth (own v) h nil) i) /\
    (capacity w (nth (own v) h nil) <= i -> getPacked w h' v' i = Ok 0).
Proof.
  intros w h v n Ho Hn. unfold resizePacked, ownsItself; cbn. rewrite updNth_length.
  split; [auto|]. intros i Hi. unfold getPacked; cbn.
  rewrite nth_error_updNth_eq by assumption. apply bufResize_spec. assumption.
Qed.

(** A packed vector grown after being shrunk shows stale elements. *)
Lemma packed_regrow_stale : exists w n m i x,
  0 <= m <= i /\ i < n /\ x <> 0 /\
  let '(h1, v) := newPackedOf w nil n in
  exists h2, setPacked w h1 v i x = Ok h2 /\
    let '(h3, v3) := resizePacked w h2 v m in
    let '(h4, v4) := resizePacked w h3 v3 n in
    getPacked w h4 v4 i = Ok x.
Proof.
  exists W1, 8, 4, 7, 1. repeat split; try lia. cbn.
  eexists. split; reflexivity.
Qed.

(** Writing through a copy changes the original. *)
Lemma packed_copy_aliases : exists w n i x,
  0 <= i < n /\
  let '(h1, v) := newPackedOf w nil n in
  let '(h2, c) := copyPacked h1 v in
  exists h3, setPacked w h2 c i x = Ok h3 /\
    getPacked w h2 v i = Ok 0 /\ getPacked w h3 v i = Ok x /\ x <> 0.
Proof.
  exists W4, 2, 0, 5. repeat split; try lia. cbn. eexists. repeat split. lia.
Qed.

(** In general: after copying, both objects access the same buffer. *)
Lemma packed_copy_same : forall w h v i, ownsItself h v ->
  let '(h2, c) := copyPacked h v in
  getPacked w h2 c i = getPacked w h2 v i /\
  forall x, setPacked w h2 c i x = setPacked w h2 v i x.
Proof.
  intros w h v i [Hp Ho]. unfold copyPacked, getPacked, setPacked; cbn. rewrite Hp.
  split; reflexivity.
Qed.
