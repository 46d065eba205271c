(** Whole programs on one packed vector refine an array; the checked accessor. *)
From Coq Require Import ZArith List Bool Lia.
From Verif.Model Require Import Outcome Packed.
From Verif.Spec Require Import OrderSpec PackedSpec.
From Verif.Proofs Require Import PackedProofs.
Import ListNotations.
Local Open Scope Z_scope.

Definition sees (w : width) (h : heap) (v : packed) (a : array) : Prop :=
  acap a = capacity w (nth (own v) h nil) /\ forall i, 0 <= i < acap a -> getPacked w h v i = Ok (aelt a i).
Lemma getOwn : forall w h v i, ownsItself h v -> getPacked w h v i = bufGet w (nth (own v) h nil) i.
Proof.
  intros w h v i [P O]. unfold getPacked. rewrite P.
  rewrite (nth_error_nth' h nil O). reflexivity.
Qed.
Lemma roundUp_bytes : forall w n, 0 <= n -> roundUp n (8 / wbits w) = perByte w * bytesFor w n.
Proof.
  intros w n Hn. unfold roundUp, bytesFor.
  destruct w; cbn [perByte wbits];
    match goal with |- context [8 / ?d] => let t := eval vm_compute in (8 / d) in change (8 / d) with t end;
    match goal with |- context [n mod ?d =? 0] => destruct (Z.eqb_spec (n mod d) 0) end;
    Z.div_mod_to_equations; lia.
Qed.
Lemma bytes_resize : forall w buf n, bytes buf -> bytes (bufResize w buf n).
Proof.
  intros w buf n B. unfold bytes, bufResize, vecResize. apply Forall_app. split.
  - apply Forall_forall. intros x Hx. unfold bytes in B. rewrite Forall_forall in B. apply B.
    rewrite <- (firstn_skipn (Z.to_nat (bytesFor w n)) buf). apply in_or_app. left. exact Hx.
  - apply Forall_forall. intros x Hx. apply repeat_spec in Hx. subst x. unfold byte. lia.
Qed.
Lemma resize_cap : forall w buf n i, 0 <= n -> 0 <= i < capacity w (bufResize w buf n) ->
  (i < capacity w buf -> bufGet w (bufResize w buf n) i = bufGet w buf i) /\
  (capacity w buf <= i -> bufGet w (bufResize w buf n) i = Ok 0).
Proof.
  intros w buf n i Hn Hi. unfold capacity in Hi. rewrite bufResize_length in Hi by assumption.
  assert (E : bufResize w buf n = bufResize w buf (perByte w * bytesFor w n)).
  { unfold bufResize. f_equal. unfold bytesFor.
    destruct w; cbn [perByte];
    repeat match goal with |- context [?a mod ?d =? 0] => destruct (Z.eqb_spec (a mod d) 0) end; Z.div_mod_to_equations; lia. }
  rewrite E. apply bufResize_spec. exact Hi.
Qed.

Lemma run_refines : forall w ops h v a, ownsItself h v -> bytes (nth (own v) h nil) -> sees w h v a -> sizesOk ops ->
  match arrayRun (wbits w) ops a with
  | Some a' => exists h' v', runPacked w ops h v = Ok (h', v') /\ ownsItself h' v' /\ sees w h' v' a'
  | None => runPacked w ops h v = UB
  end.
Proof.
  induction ops as [|op ops IH]; intros h v a O B V Z.
  - cbn. eauto.
  - inversion Z as [|? ? Z0 Z1]; subst. destruct op as [i x|n]; cbn [arrayRun arrayStep runPacked].
    + destruct V as [C V].
      destruct ((0 <=? i) && (i <? acap a)) eqn:E.
      * destruct (packed_array w h v i x O B) as (h' & S & O' & B' & G & K); [lia|].
        rewrite S. cbn [bind]. apply (IH h' v); auto. split; cbn [acap aelt].
        -- rewrite C. clear - S O. destruct O as [P L]. unfold setPacked in S. rewrite P in S.
           rewrite (nth_error_nth' h nil L) in S. unfold bufSet in S.
           destruct (i <? 0); [discriminate|].
           destruct (nth_error (nth (own v) h nil) _) in S; [|discriminate]. cbn in S.
           injection S as <-. unfold capacity. rewrite nth_updNth_eq by exact L. rewrite updNth_length. reflexivity.
        -- intros j Hj. destruct (Z.eqb_spec j i) as [->|N]; [exact G|]. rewrite K by exact N. apply V. exact Hj.
      * clear IH. assert (S : setPacked w h v i x = UB).
        { destruct O as [P L]. unfold setPacked. rewrite P, (nth_error_nth' h nil L). unfold bufSet.
          destruct (Z.ltb_spec i 0); [reflexivity|].
          assert (G : capacity w (nth (own v) h nil) <= i) by lia.
          apply byteIndex_out in G. apply nth_error_None in G. rewrite G. reflexivity. }
        rewrite S. reflexivity.
    + cbn in Z0. destruct (resizePacked w h v n) as [h' v'] eqn:R.
      destruct V as [C V].
      unfold resizePacked in R. injection R as <- <-.
      assert (L : (own v < length h)%nat) by apply O.
      apply IH; auto.
      * split; cbn [ptr own]; [reflexivity|]. rewrite updNth_length. exact L.
      * cbn [own]. rewrite nth_updNth_eq by exact L. apply bytes_resize, B.
      * assert (O' : ownsItself (updNth (own v) (bufResize w (nth (own v) h nil) n) h) (mkPacked (own v) (Some (own v)))).
        { split; cbn [ptr own]; [reflexivity|]. rewrite updNth_length. exact L. }
        split; cbn [acap aelt own].
        -- rewrite nth_updNth_eq by exact L. unfold capacity. rewrite bufResize_length by exact Z0.
           apply roundUp_bytes. exact Z0.
        -- intros i Hi. rewrite (getOwn _ _ _ _ O'). cbn [own]. rewrite nth_updNth_eq by exact L.
           assert (Hi' : 0 <= i < capacity w (bufResize w (nth (own v) h nil) n)).
           { unfold capacity. rewrite bufResize_length by exact Z0. rewrite <- roundUp_bytes by exact Z0. exact Hi. }
           destruct (resize_cap w _ n i Z0 Hi') as [K1 K2].
           destruct (Z.ltb_spec i (acap a)) as [Q|Q].
           ++ rewrite K1 by lia. rewrite <- (getOwn w h v i O). apply V. lia.
           ++ apply K2. lia.
Qed.

Lemma packed_history : forall w h n ops, 0 <= n -> sizesOk ops ->
  let '(h0, v0) := newPackedOf w h n in
  match arrayRun (wbits w) (PResize n :: ops) emptyArray with
  | Some a => exists h1 v1, runPacked w ops h0 v0 = Ok (h1, v1) /\
      forall i, 0 <= i < acap a -> getPacked w h1 v1 i = Ok (aelt a i)
  | None => runPacked w ops h0 v0 = UB
  end.
Proof.
  intros w h n ops Hn Z. destruct (newPackedOf w h n) as [h0 v0] eqn:E.
  cbn [arrayRun arrayStep].
  assert (O : ownsItself h0 v0 /\ nth (own v0) h0 nil = bufResize w nil n).
  { unfold newPackedOf, newPacked, resizePacked in E. cbn in E. injection E as <- <-. unfold ownsItself. cbn [ptr own].
    rewrite updNth_length, app_length. cbn. split; [split; [reflexivity|lia]|].
    rewrite nth_updNth_eq by (rewrite app_length; cbn; lia). rewrite app_nth2 by lia. rewrite Nat.sub_diag. reflexivity. }
  destruct O as [O N].
  pose proof (run_refines w ops h0 v0 (mkArray (roundUp n (8 / wbits w)) (fun j => if j <? acap emptyArray then aelt emptyArray j else 0))) as K.
  assert (B : bytes (nth (own v0) h0 nil)) by (rewrite N; apply bytes_resize; constructor).
  assert (V : sees w h0 v0 (mkArray (roundUp n (8 / wbits w)) (fun j => if j <? acap emptyArray then aelt emptyArray j else 0))).
  { split; cbn [acap aelt].
    - rewrite N. unfold capacity. rewrite bufResize_length by exact Hn. apply roundUp_bytes, Hn.
    - intros i Hi. rewrite (getOwn w h0 v0 i O), N.
      assert (Hi' : 0 <= i < capacity w (bufResize w nil n)).
      { unfold capacity. rewrite bufResize_length by exact Hn. rewrite <- roundUp_bytes by exact Hn. exact Hi. }
      destruct (resize_cap w nil n i Hn Hi') as [_ K2]. cbn [emptyArray acap aelt].
      replace (i <? 0) with false by lia. apply K2. unfold capacity. cbn [length]. lia. }
  specialize (K O B V Z). destruct (arrayRun (wbits w) ops _) as [a|]; [|exact K].
  destruct K as (h1 & v1 & R & _ & [_ S]). exists h1, v1. split; [exact R|exact S].
Qed.

(** ** The checked accessor *)
Lemma checked_get_refuted : exists n i,
  let '(h, v) := newPackedOf W4 nil n in
  0 <= n /\ 0 <= i /\ checkedGet W4 false h v i = UB.
Proof. exists 2, 7. cbn. repeat split; lia || reflexivity. Qed.
Lemma checked_get : forall w h v i, ownsItself h v -> w <> W4 -> 0 <= i ->
  (checkedGet w false h v i = Abort <-> capacity w (nth (own v) h nil) <= i) /\
  (i < capacity w (nth (own v) h nil) -> checkedGet w false h v i = getPacked w h v i /\
    exists x, getPacked w h v i = Ok x /\ 0 <= x < 2 ^ wbits w).
Proof.
  intros w h v i O W Hi. unfold checkedGet, sizePacked. cbn [negb andb]. rewrite (getOwn w h v i O).
  set (buf := nth (own v) h nil). unfold capacity.
  assert (D : assertDivisor w = perByte w) by (destruct w; [reflexivity..|congruence]). rewrite D.
  assert (Q : i / perByte w < Z.of_nat (length buf) <-> i < perByte w * Z.of_nat (length buf)).
  { destruct w; cbn [perByte]; Z.div_mod_to_equations; lia. }
  pose proof (proj2 (bufGet_defined w buf i)) as G. unfold capacity in G.
  destruct (Z.ltb_spec (i / perByte w) (Z.of_nat (length buf))) as [L|L]; cbn [negb].
  - split.
    + destruct G as (x & G & _); [lia|]. rewrite G. split; [discriminate|lia].
    + intros _. split; [reflexivity|]. apply G. lia.
  - split; [split; [intros _; lia|reflexivity]|lia].
Qed.
Lemma checked_get4 : forall h v i, ownsItself h v -> 0 <= i ->
  (checkedGet W4 false h v i = UB <->
    capacity W4 (nth (own v) h nil) <= i < 4 * capacity W4 (nth (own v) h nil)).
Proof.
  intros h v i O Hi. unfold checkedGet, sizePacked. cbn [negb andb assertDivisor]. rewrite (getOwn W4 h v i O).
  set (buf := nth (own v) h nil). unfold capacity. cbn [perByte].
  pose proof (bufGet_defined W4 buf i) as G. unfold capacity in G. cbn [perByte] in G.
  assert (U : bufGet W4 buf i = UB <-> 2 * Z.of_nat (length buf) <= i).
  { destruct (Z_lt_dec i (2 * Z.of_nat (length buf))) as [L|L].
    - destruct (proj2 G) as (x & E & _); [lia|]. rewrite E. split; [discriminate|lia].
    - split; [lia|]. intros _. unfold bufGet. replace (i <? 0) with false by lia.
      assert (K : capacity W4 buf <= i) by (unfold capacity; cbn [perByte]; lia).
      apply byteIndex_out in K. apply nth_error_None in K. cbn [perByte] in *. rewrite K. reflexivity. }
  destruct (Z.ltb_spec (i / 8) (Z.of_nat (length buf))) as [L|L]; cbn [negb].
  - rewrite U. Z.div_mod_to_equations; lia.
  - split; [discriminate|]. Z.div_mod_to_equations; lia.
Qed.
Lemma size_refuted : exists w n, 0 <= n /\ let '(h, v) := newPackedOf w nil n in sizePacked h v <> n.
Proof. exists W1, 10. split; [lia|]. vm_compute. discriminate. Qed.
Lemma size_actual : forall w h n, 0 <= n -> let '(h', v) := newPackedOf w h n in
  (sizePacked h' v - 1) * (8 / wbits w) < n <= sizePacked h' v * (8 / wbits w).
Proof.
  intros w h n Hn. destruct (newPackedOf w h n) as [h0 v0] eqn:E.
  unfold newPackedOf, newPacked, resizePacked in E. cbn in E. injection E as <- <-.
  unfold sizePacked. cbn [own].
  rewrite nth_updNth_eq by (rewrite app_length; cbn; lia). rewrite bufResize_length by exact Hn.
  pose proof (bytesFor_capacity w n Hn). destruct w; cbn [perByte wbits] in *;
  match goal with |- context [8 / ?d] => let t := eval vm_compute in (8 / d) in change (8 / d) with t end; lia.
Qed.
