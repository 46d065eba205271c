(** Arrays as lists: reads, writes, slices. *)
From Coq Require Import ZArith List Lia Permutation Bool.
From Verif.Model Require Import Outcome Packed Bvh.
From Verif.Spec Require Import BvhSpec.
From Verif.Proofs Require Import PackedProofs.
Import ListNotations.
Local Open Scope Z_scope.

Lemma wrap_id : forall x, 0 <= x < 2 ^ 32 -> wrap x = x.
Proof. intros; unfold wrap; apply Z.mod_small; assumption. Qed.

Lemma at_bound : forall A (l : list A) i x, at_ l i x -> 0 <= i < Z.of_nat (length l).
Proof.
  intros A l i x [H0 H].
  assert (Z.to_nat i < length l)%nat by (apply nth_error_Some; congruence). lia.
Qed.

Lemma at_fun : forall A (l : list A) i x y, at_ l i x -> at_ l i y -> x = y.
Proof. intros A l i x y [_ H] [_ H']; congruence. Qed.

Lemma at_exists : forall A (l : list A) i, 0 <= i < Z.of_nat (length l) -> exists x, at_ l i x.
Proof.
  intros A l i H. destruct (nth_error l (Z.to_nat i)) eqn:E.
  - exists a; split; [lia|assumption].
  - apply nth_error_None in E. lia.
Qed.

Lemma readAt_Ok : forall A (l : list A) i x, readAt l i = Ok x <-> at_ l i x.
Proof.
  intros A l i x. unfold readAt, inRange.
  destruct (0 <=? i) eqn:E1; cbn.
  - apply Z.leb_le in E1. destruct (i <? Z.of_nat (length l)) eqn:E2.
    + unfold at_. destruct (nth_error l (Z.to_nat i)); split; intros H; try discriminate.
      * inversion H; subst; auto.
      * destruct H; congruence.
      * destruct H; congruence.
    + apply Z.ltb_ge in E2. split; intros H; [discriminate|].
      apply at_bound in H. lia.
  - apply Z.leb_gt in E1. split; intros H; [discriminate|]. destruct H; lia.
Qed.

Lemma readAt_UB : forall A (l : list A) i, ~ 0 <= i < Z.of_nat (length l) -> readAt l i = UB.
Proof.
  intros A l i H. unfold readAt, inRange.
  destruct (0 <=? i) eqn:E1; destruct (i <? Z.of_nat (length l)) eqn:E2; cbn; auto.
  apply Z.leb_le in E1. apply Z.ltb_lt in E2. lia.
Qed.

Lemma writeAt_Ok : forall A (l l' : list A) i x, writeAt l i x = Ok l' ->
  0 <= i < Z.of_nat (length l) /\ l' = updNth (Z.to_nat i) x l.
Proof.
  intros A l l' i x. unfold writeAt, inRange.
  destruct (0 <=? i) eqn:E1; destruct (i <? Z.of_nat (length l)) eqn:E2; cbn; try discriminate.
  apply Z.leb_le in E1. apply Z.ltb_lt in E2. intros H; inversion H; auto.
Qed.

Lemma writeAt_in : forall A (l : list A) i x, 0 <= i < Z.of_nat (length l) ->
  writeAt l i x = Ok (updNth (Z.to_nat i) x l).
Proof.
  intros A l i x H. unfold writeAt, inRange.
  replace (0 <=? i) with true by (symmetry; apply Z.leb_le; lia).
  replace (i <? Z.of_nat (length l)) with true by (symmetry; apply Z.ltb_lt; lia).
  reflexivity.
Qed.

Lemma writeAt_at : forall A (l l' : list A) i x, writeAt l i x = Ok l' ->
  at_ l' i x /\ (forall j y, j <> i -> (at_ l' j y <-> at_ l j y)) /\ length l' = length l.
Proof.
  intros A l l' i x H. apply writeAt_Ok in H. destruct H as [Hi ->].
  split; [|split].
  - split; [lia|]. apply nth_error_updNth_eq. lia.
  - intros j y Hj. unfold at_. split; intros [H0 H]; split; try assumption.
    + rewrite nth_error_updNth_ne in H by lia. assumption.
    + rewrite nth_error_updNth_ne by lia. assumption.
  - apply updNth_length.
Qed.

Lemma at_app_mid : forall A (a b : list A) x i, i = Z.of_nat (length a) -> at_ (a ++ x :: b) i x.
Proof.
  intros A a b x i ->. split; [lia|]. rewrite Nat2Z.id, nth_error_app2, Nat.sub_diag by lia. reflexivity.
Qed.

Lemma updNth_app_mid : forall A (a b : list A) x y, updNth (length a) y (a ++ x :: b) = a ++ y :: b.
Proof. induction a; intros; cbn; [reflexivity|]. now rewrite IHa. Qed.

Lemma writeAt_app_mid : forall A (a b : list A) x y i, i = Z.of_nat (length a) ->
  writeAt (a ++ x :: b) i y = Ok (a ++ y :: b).
Proof.
  intros A a b x y i ->. rewrite writeAt_in.
  - rewrite Nat2Z.id, updNth_app_mid. reflexivity.
  - rewrite app_length; cbn. lia.
Qed.

(** ** Slices *)
Definition slice {A} (l : list A) (f c : Z) : list A := firstn (Z.to_nat c) (skipn (Z.to_nat f) l).

Lemma nth_error_firstn_lt : forall A (l : list A) n k, (k < n)%nat ->
  nth_error (firstn n l) k = nth_error l k.
Proof.
  induction l; intros n k H; [now rewrite firstn_nil|].
  destruct n; [lia|]. destruct k; cbn; [reflexivity|]. apply IHl. lia.
Qed.

Lemma nth_error_firstn_ge : forall A (l : list A) n k, (n <= k)%nat ->
  nth_error (firstn n l) k = None.
Proof. intros. apply nth_error_None. rewrite firstn_length. lia. Qed.

Lemma nth_error_skipn' : forall A (l : list A) n k, nth_error (skipn n l) k = nth_error l (n + k).
Proof. induction l; intros n k; destruct n; cbn; auto; destruct k; reflexivity. Qed.

Lemma nth_error_ext : forall A (l l' : list A), (forall k, nth_error l k = nth_error l' k) -> l = l'.
Proof.
  induction l; intros l' H.
  - destruct l'; [reflexivity|]. specialize (H O). discriminate.
  - destruct l'; [specialize (H O); discriminate|].
    f_equal; [specialize (H O); cbn in H; congruence|].
    apply IHl. intros k. apply (H (S k)).
Qed.

Lemma slice_app : forall A (a s b : list A) f c,
  f = Z.of_nat (length a) -> c = Z.of_nat (length s) -> slice (a ++ s ++ b) f c = s.
Proof.
  intros A a s b f c -> ->. unfold slice. rewrite !Nat2Z.id.
  rewrite skipn_app, skipn_all, Nat.sub_diag. cbn.
  rewrite firstn_app, firstn_all, Nat.sub_diag. cbn. now rewrite app_nil_r.
Qed.

Lemma slice_length : forall A (l : list A) f c, 0 <= f -> 0 <= c -> f + c <= Z.of_nat (length l) ->
  Z.of_nat (length (slice l f c)) = c.
Proof. intros. unfold slice. rewrite firstn_length, skipn_length. lia. Qed.

Lemma slice_split : forall A (l : list A) f c, 0 <= f -> 0 <= c -> f + c <= Z.of_nat (length l) ->
  exists a b, l = a ++ slice l f c ++ b /\ Z.of_nat (length a) = f.
Proof.
  intros A l f c Hf Hc H.
  exists (firstn (Z.to_nat f) l), (skipn (Z.to_nat c) (skipn (Z.to_nat f) l)). split.
  - unfold slice. now rewrite !firstn_skipn.
  - rewrite firstn_length. lia.
Qed.

Lemma at_slice : forall A (l : list A) f c k x, 0 <= f -> 0 <= k < c ->
  (at_ (slice l f c) k x <-> at_ l (f + k) x).
Proof.
  intros A l f c k x Hf Hk. unfold at_, slice.
  rewrite nth_error_firstn_lt by lia. rewrite nth_error_skipn'.
  replace (Z.to_nat f + Z.to_nat k)%nat with (Z.to_nat (f + k)) by lia.
  split; intros [? ?]; split; auto; lia.
Qed.

Lemma In_at : forall A (l : list A) x, In x l <-> exists k, at_ l k x.
Proof.
  intros A l x. split; intros H.
  - apply In_nth_error in H. destruct H as [k Hk]. exists (Z.of_nat k). split; [lia|].
    now rewrite Nat2Z.id.
  - destruct H as [k [_ Hk]]. eapply nth_error_In; eassumption.
Qed.

Lemma In_slice : forall A (l : list A) f c x, 0 <= f -> 0 <= c ->
  (In x (slice l f c) <-> exists k, f <= k < f + c /\ at_ l k x).
Proof.
  intros A l f c x Hf Hc. rewrite In_at. split; intros [k Hk].
  - assert (Hb := at_bound _ _ _ _ Hk). unfold slice in Hb. rewrite firstn_length in Hb.
    exists (f + k). split; [lia|]. apply (at_slice _ _ f c); [lia|lia|assumption].
  - destruct Hk as [Hk Ha]. exists (k - f). apply at_slice; [lia|lia|].
    now replace (f + (k - f)) with k by lia.
Qed.

(** [l'] is [l] with the entries of the range [f, f+c) permuted. *)
Definition permutedIn {A} (l l' : list A) (f c : Z) : Prop :=
  exists a s s' b, l = a ++ s ++ b /\ l' = a ++ s' ++ b /\ Permutation s s' /\
    Z.of_nat (length a) = f /\ Z.of_nat (length s) = c.

Lemma permutedIn_refl : forall A (l : list A) f c, 0 <= f -> 0 <= c -> f + c <= Z.of_nat (length l) ->
  permutedIn l l f c.
Proof.
  intros A l f c Hf Hc H. destruct (slice_split _ l f c Hf Hc H) as (a & b & E & La).
  exists a, (slice l f c), (slice l f c), b. repeat split; auto.
  apply slice_length; assumption.
Qed.

Lemma permutedIn_perm : forall A (l l' : list A) f c, permutedIn l l' f c -> Permutation l l'.
Proof.
  intros A l l' f c (a & s & s' & b & -> & -> & P & _ & _).
  apply Permutation_app_head, Permutation_app_tail, P.
Qed.

Lemma permutedIn_slice_disjoint : forall A (l l' : list A) f0 c0 f c,
  permutedIn l l' f0 c0 -> 0 <= f -> 0 <= c -> f + c <= f0 \/ f0 + c0 <= f ->
  slice l' f c = slice l f c.
Proof.
  intros A l l' f0 c0 f c (a & s & s' & b & -> & -> & P & La & Ls) Hf Hc H.
  assert (Ls' : length s' = length s) by (symmetry; now apply Permutation_length).
  apply nth_error_ext; intros k. unfold slice.
  destruct (Nat.lt_ge_cases k (Z.to_nat c)) as [Hk|Hk].
  - rewrite !nth_error_firstn_lt by assumption. rewrite !nth_error_skipn'.
    destruct H as [H|H].
    + rewrite !nth_error_app1 by lia. reflexivity.
    + rewrite !(nth_error_app2 a) by lia.
      rewrite !nth_error_app2 by lia. f_equal. lia.
  - rewrite !nth_error_firstn_ge by assumption. reflexivity.
Qed.

Lemma permutedIn_slice_contains : forall A (l l' : list A) f0 c0 f c,
  permutedIn l l' f0 c0 -> 0 <= f -> f <= f0 -> f0 + c0 <= f + c -> f + c <= Z.of_nat (length l) ->
  Permutation (slice l f c) (slice l' f c).
Proof.
  intros A l l' f0 c0 f c (a & s & s' & b & -> & -> & P & La & Ls) Hf Hf0 Hc0 Hc.
  assert (Ls' : length s' = length s) by (symmetry; now apply Permutation_length).
  rewrite !app_length in Hc.
  assert (Ea := firstn_skipn (Z.to_nat f) a).
  assert (Eb := firstn_skipn (Z.to_nat (f + c - f0 - c0)) b).
  set (a1 := firstn (Z.to_nat f) a) in *. set (a2 := skipn (Z.to_nat f) a) in *.
  set (b1 := firstn (Z.to_nat (f + c - f0 - c0)) b) in *.
  set (b2 := skipn (Z.to_nat (f + c - f0 - c0)) b) in *.
  assert (L1 : Z.of_nat (length a1) = f) by (unfold a1; rewrite firstn_length; lia).
  assert (L2 : Z.of_nat (length a2) = f0 - f) by (unfold a2; rewrite skipn_length; lia).
  assert (L3 : Z.of_nat (length b1) = f + c - f0 - c0) by (unfold b1; rewrite firstn_length; lia).
  rewrite <- Ea, <- Eb.
  replace ((a1 ++ a2) ++ s ++ b1 ++ b2) with (a1 ++ (a2 ++ s ++ b1) ++ b2) by now rewrite <- !app_assoc.
  replace ((a1 ++ a2) ++ s' ++ b1 ++ b2) with (a1 ++ (a2 ++ s' ++ b1) ++ b2) by now rewrite <- !app_assoc.
  rewrite !slice_app by (rewrite ?app_length; lia).
  apply Permutation_app_head, Permutation_app_tail, P.
Qed.

(** ** iota *)
Lemma iota_length : forall n, 0 <= n -> Z.of_nat (length (iota n)) = n.
Proof. intros. unfold iota. rewrite map_length, seq_length. lia. Qed.

Lemma In_iota : forall n q, In q (iota n) <-> 0 <= q < n.
Proof.
  intros n q. unfold iota. rewrite in_map_iff. split.
  - intros (k & <- & H). apply in_seq in H. lia.
  - intros H. exists (Z.to_nat q). split; [lia|]. apply in_seq. lia.
Qed.

Lemma NoDup_iota : forall n, NoDup (iota n).
Proof.
  intros n. unfold iota. apply FinFun.Injective_map_NoDup; [|apply seq_NoDup].
  intros x y H. lia.
Qed.

Lemma iota_succ : forall n, 0 <= n -> iota (n + 1) = iota n ++ [n].
Proof.
  intros n H. unfold iota. replace (Z.to_nat (n + 1)) with (S (Z.to_nat n)) by lia.
  rewrite seq_S, map_app. cbn. f_equal. f_equal. lia.
Qed.
