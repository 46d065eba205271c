(** toInt32 and toInt64 on arbitrary strings. *)
From Coq Require Import ZArith Bool List Ascii String Lia.
From Verif.Model Require Import Outcome Hex.
From Verif.Spec Require Import OrderSpec HexParseSpec.
Import ListNotations.
Local Open Scope Z_scope.

(** ** characters: checked on all 256 *)
Definition allChars : list ascii := map ascii_of_nat (List.seq 0 256).
Lemma in_allChars : forall c, In c allChars.
Proof.
  intros c. unfold allChars. apply in_map_iff. exists (nat_of_ascii c).
  split; [apply ascii_nat_embedding|]. apply in_seq.
  destruct c as [b0 b1 b2 b3 b4 b5 b6 b7]. destruct b0, b1, b2, b3, b4, b5, b6, b7; vm_compute; lia.
Qed.
Definition digits16 : list Z := map Z.of_nat (List.seq 0 16).
Lemma in_digits16 : forall d, 0 <= d < 16 -> In d digits16.
Proof. intros d H. apply in_map_iff. exists (Z.to_nat d). split; [lia|]. apply in_seq. lia. Qed.
Definition optAsciiEq (a : option ascii) (c : ascii) : bool := match a with Some x => Ascii.eqb x c | None => false end.
Lemma optAsciiEq_iff : forall a c, optAsciiEq a c = true <-> a = Some c.
Proof.
  intros [x|] c; cbn; [|split; discriminate]. rewrite Ascii.eqb_eq. split; [congruence|]. intros E. injection E. auto.
Qed.
Definition hexValb (c : ascii) (d : Z) : bool :=
  optAsciiEq (String.get (Z.to_nat d) lowers) c || optAsciiEq (String.get (Z.to_nat d) uppers) c.
Lemma hexVal_b : forall c d, hexVal c d <-> 0 <= d < 16 /\ hexValb c d = true.
Proof. intros c d. unfold hexVal, hexValb. rewrite orb_true_iff, !optAsciiEq_iff. reflexivity. Qed.

Lemma digitVal_fwd : forall c d, hexVal c d -> digitVal c = Some d.
Proof.
  intros c d H. apply hexVal_b in H. destruct H as [Hd H].
  assert (K : forallb (fun c => forallb (fun d => implb (hexValb c d) (match digitVal c with Some e => e =? d | None => false end)) digits16) allChars = true) by (vm_compute; reflexivity).
  rewrite forallb_forall in K. specialize (K c (in_allChars c)). rewrite forallb_forall in K.
  specialize (K d (in_digits16 d Hd)). rewrite H in K. cbn [implb] in K.
  destruct (digitVal c); [|discriminate]. apply Z.eqb_eq in K. congruence.
Qed.
Lemma digitVal_bwd : forall c d, digitVal c = Some d -> hexVal c d.
Proof.
  intros c d H.
  assert (K : forallb (fun c => match digitVal c with Some e => (0 <=? e) && (e <? 16) && hexValb c e | None => true end) allChars = true) by (vm_compute; reflexivity).
  rewrite forallb_forall in K. specialize (K c (in_allChars c)). rewrite H in K.
  apply andb_true_iff in K. destruct K as [K1 K2]. apply andb_true_iff in K1. destruct K1 as [K0 K1].
  apply Z.leb_le in K0. apply Z.ltb_lt in K1. apply hexVal_b. split; [lia|exact K2].
Qed.
Lemma hexChar_iff : forall c, hexChar c <-> digitVal c <> None.
Proof.
  intros c. split.
  - intros [d H]. rewrite (digitVal_fwd _ _ H). discriminate.
  - intros H. destruct (digitVal c) as [d|] eqn:E; [|congruence]. exists d. apply digitVal_bwd, E.
Qed.
Lemma white_iff : forall c, isSpace c = true <-> white c.
Proof.
  intros c. unfold white.
  assert (K : forallb (fun c => Bool.eqb (isSpace c) (existsb (Nat.eqb (nat_of_ascii c)) [32; 9; 10; 11; 12; 13]%nat)) allChars = true) by (vm_compute; reflexivity).
  rewrite forallb_forall in K. specialize (K c (in_allChars c)). apply eqb_prop in K. rewrite K.
  rewrite existsb_exists. split.
  - intros (n & Hn & E). apply Nat.eqb_eq in E. rewrite E. exact Hn.
  - intros H. exists (nat_of_ascii c). split; [exact H|apply Nat.eqb_refl].
Qed.
Lemma white_facts : forall c, isSpace c = true -> digitVal c = None /\ c <> "+"%char /\ c <> "-"%char.
Proof.
  intros c H.
  assert (K : forallb (fun c => implb (isSpace c) (match digitVal c with None => true | _ => false end && negb (Ascii.eqb c "+") && negb (Ascii.eqb c "-"))) allChars = true) by (vm_compute; reflexivity).
  rewrite forallb_forall in K. specialize (K c (in_allChars c)). rewrite H in K. cbn [implb] in K.
  apply andb_true_iff in K. destruct K as [K K3]. apply andb_true_iff in K. destruct K as [K1 K2].
  apply negb_true_iff, Ascii.eqb_neq in K2. apply negb_true_iff, Ascii.eqb_neq in K3.
  destruct (digitVal c); [discriminate|]. auto.
Qed.
Lemma digit_facts : forall c, digitVal c <> None -> isSpace c = false /\ c <> "+"%char /\ c <> "-"%char /\ c <> "x"%char /\ c <> "X"%char.
Proof.
  intros c H.
  assert (K : forallb (fun c => implb (match digitVal c with None => false | _ => true end) (negb (isSpace c) && negb (Ascii.eqb c "+") && negb (Ascii.eqb c "-") && negb (Ascii.eqb c "x") && negb (Ascii.eqb c "X"))) allChars = true) by (vm_compute; reflexivity).
  rewrite forallb_forall in K. specialize (K c (in_allChars c)). destruct (digitVal c); [|congruence]. cbn [implb] in K.
  rewrite !andb_true_iff, !negb_true_iff, !Ascii.eqb_neq in K. tauto.
Qed.

Lemma skipSpaces_app : forall sp s, Forall white sp -> skipSpaces (sp ++ s) = skipSpaces s.
Proof.
  induction sp as [|c sp IH]; intros s H; [reflexivity|]. inversion H as [|? ? H1 H2]; subst. cbn.
  rewrite (proj2 (white_iff c) H1). apply IH, H2.
Qed.
Lemma skipSpaces_split : forall s, exists sp, s = (sp ++ skipSpaces s)%list /\ Forall white sp.
Proof.
  induction s as [|c s (sp & E & W)].
  - exists []. split; [reflexivity|constructor].
  - cbn. destruct (isSpace c) eqn:H.
    + exists (c :: sp). split; [cbn; congruence|]. constructor; [apply white_iff, H|exact W].
    + exists []. split; [reflexivity|constructor].
Qed.

(** what remains after the sign starts with a digit *)
Lemma startsWithDigit_iff : forall s, startsWithDigit s = true <-> startsHex s.
Proof.
  intros [|c s]; cbn.
  - split; [discriminate|]. intros (c & t & E & _). discriminate.
  - split.
    + intros H. exists c, s. split; [reflexivity|]. apply hexChar_iff. destruct (digitVal c); discriminate.
    + intros (c' & t & E & H). injection E as -> ->. apply hexChar_iff in H. destruct (digitVal c'); congruence.
Qed.
Lemma parse_value : forall ds acc rest v, valueOf acc ds v -> ~ startsHex rest -> parseDigits (ds ++ rest) acc = v.
Proof.
  intros ds acc rest v H Hr. induction H as [acc|acc c d s v Hc Hs IH].
  - cbn. destruct rest as [|c rest]; [reflexivity|]. cbn. destruct (digitVal c) eqn:E; [|reflexivity].
    exfalso. apply Hr. exists c, rest. split; [reflexivity|]. apply hexChar_iff. congruence.
  - cbn. rewrite (digitVal_fwd _ _ Hc). replace (acc * 16 + d) with (16 * acc + d) by ring. apply IH.
Qed.
Lemma value_exists : forall s acc, exists ds rest v, s = (ds ++ rest)%list /\ valueOf acc ds v /\ ~ startsHex rest /\
  (startsHex s -> ds <> []).
Proof.
  induction s as [|c s IH]; intros acc.
  - exists [], [], acc. split; [reflexivity|]. split; [constructor|]. split; [|].
    + intros (c & t & E & _). discriminate.
    + intros (c & t & E & _). discriminate.
  - destruct (digitVal c) as [d|] eqn:E.
    + destruct (IH (16 * acc + d)) as (ds & rest & v & -> & H1 & H2 & _).
      exists (c :: ds), rest, v. split; [reflexivity|]. split; [econstructor; [apply digitVal_bwd, E|exact H1]|].
      split; [exact H2|]. intros _. discriminate.
    + exists [], (c :: s), acc. split; [reflexivity|]. split; [constructor|].
      assert (N : ~ startsHex (c :: s)).
      { intros (c' & t & E' & H). injection E' as -> ->. apply hexChar_iff in H. congruence. }
      split; [exact N|]. intros H. contradiction.
Qed.
Lemma valueOf_head : forall acc c ds v, valueOf acc (c :: ds) v -> digitVal c <> None.
Proof. intros acc c ds v H. inversion H as [|? ? d ? ? Hc]; subst. rewrite (digitVal_fwd _ _ Hc). discriminate. Qed.

Lemma skipPrefix_with : forall x t, (x = "x"%char \/ x = "X"%char) -> startsHex t ->
  skipPrefix ("0"%char :: x :: t) = t.
Proof.
  intros x t Hx (c & t' & -> & H). apply hexChar_iff in H. cbn [skipPrefix].
  destruct (digitVal c) eqn:E; [|congruence]. destruct Hx as [-> | ->]; reflexivity.
Qed.
Lemma skipPrefix_without : forall s, ~ (exists t, s = "0"%char :: t /\ prefixTail t) -> skipPrefix s = s.
Proof.
  intros s H. destruct s as [|a [|b [|c t]]]; try reflexivity. cbn [skipPrefix].
  destruct (Ascii.eqb a "0") eqn:Ea; [|reflexivity]. apply Ascii.eqb_eq in Ea. subst a.
  destruct (Ascii.eqb b "x" || Ascii.eqb b "X") eqn:Eb; [|reflexivity].
  destruct (digitVal c) eqn:Ec; [|reflexivity]. exfalso. apply H. exists (b :: c :: t). split; [reflexivity|].
  exists b, (c :: t). split; [reflexivity|]. split.
  - apply orb_true_iff in Eb. destruct Eb as [E|E]; apply Ascii.eqb_eq in E; auto.
  - exists c, t. split; [reflexivity|]. apply hexChar_iff. congruence.
Qed.
Lemma skipPrefix_cases : forall s, startsHex (skipPrefix s) -> exists pre,
  s = (pre ++ skipPrefix s)%list /\ (pre = [] \/ pre = ["0"%char; "x"%char] \/ pre = ["0"%char; "X"%char]) /\
  (pre = [] -> ~ (exists t, s = "0"%char :: t /\ prefixTail t)).
Proof.
  intros s Hs.
  destruct s as [|a [|b [|c t]]]; try (exists []; split; [reflexivity|split; [auto|]]; intros _ (t' & E & x & t'' & -> & _ & (c & u & E2 & _)); subst; discriminate).
  cbn [skipPrefix] in *.
  destruct (Ascii.eqb a "0" && (Ascii.eqb b "x" || Ascii.eqb b "X") && match digitVal c with Some _ => true | None => false end) eqn:E.
  - apply andb_true_iff in E. destruct E as [E _]. apply andb_true_iff in E. destruct E as [Ea Eb].
    apply Ascii.eqb_eq in Ea. subst a. apply orb_true_iff in Eb.
    exists ["0"%char; b]. split; [reflexivity|]. split; [|discriminate].
    destruct Eb as [Eb|Eb]; apply Ascii.eqb_eq in Eb; subst b; auto.
  - exists []. split; [reflexivity|]. split; [auto|]. intros _ (t' & E1 & x & t'' & E2 & Hx & (c' & u & E3 & Hc)).
    subst t''. injection E1 as -> E1. rewrite E2 in E1. injection E1 as -> -> ->. apply hexChar_iff in Hc.
    destruct (digitVal c'); [|congruence]. destruct Hx as [-> | ->]; discriminate.
Qed.

Lemma reads_parse : forall s neg v, reads s neg v -> exists body,
  takeSign (skipSpaces s) = (neg, body) /\ startsWithDigit (skipPrefix body) = true /\ parseDigits (skipPrefix body) 0 = v.
Proof.
  intros s neg v (sp & sg & pre & ds & rest & -> & Hsp & Hsg & Hpre & Hds & Hv & Hr & Hm).
  rewrite skipSpaces_app by exact Hsp.
  destruct ds as [|c0 ds0]; [congruence|]. pose proof (valueOf_head _ _ _ _ Hv) as H0.
  pose proof (digit_facts _ H0) as (D1 & D2 & D3 & D4 & D5).
  assert (Sh : startsHex ((c0 :: ds0) ++ rest)) by (exists c0, (ds0 ++ rest)%list; split; [reflexivity|apply hexChar_iff, H0]).
  (* the text after the sign *)
  set (body := (pre ++ (c0 :: ds0) ++ rest)%list) in *.
  assert (Hb : exists b t, body = b :: t /\ isSpace b = false /\ b <> "+"%char /\ b <> "-"%char).
  { unfold body. destruct Hpre as [-> | [-> | ->]]; cbn [app].
    - exists c0, (ds0 ++ rest)%list. auto.
    - eexists _, _. split; [reflexivity|]. repeat split; discriminate.
    - eexists _, _. split; [reflexivity|]. repeat split; discriminate. }
  destruct Hb as (b & t & Eb & B1 & B2 & B3).
  assert (Ts : takeSign (skipSpaces (sg ++ body)) = (neg, body)).
  { rewrite Eb. destruct Hsg as [[[-> | ->] ->]|[-> ->]]; cbn [app skipSpaces].
    - rewrite B1. cbn [takeSign]. apply Ascii.eqb_neq in B2. apply Ascii.eqb_neq in B3. rewrite B2, B3. reflexivity.
    - reflexivity.
    - reflexivity. }
  exists body. split; [exact Ts|].
  assert (Sp : skipPrefix body = ((c0 :: ds0) ++ rest)%list).
  { unfold body. destruct Hpre as [-> | [-> | ->]].
    - apply skipPrefix_without. intros (t' & E1 & Ht). cbn [app] in E1. injection E1 as -> E1.
      destruct ds0 as [|d1 ds1].
      + apply Hm. cbn [app] in E1. subst t'. auto.
      + destruct Ht as (x & t'' & E2 & Hx & _). subst t'. cbn [app] in E2. injection E2 as -> _.
        inversion Hv as [|? ? ? ? ? _ Hv']; subst. apply valueOf_head in Hv'. apply digit_facts in Hv'.
        destruct Hv' as (_ & _ & _ & N1 & N2). destruct Hx; contradiction.
    - apply skipPrefix_with; [auto|exact Sh].
    - apply skipPrefix_with; [auto|exact Sh]. }
  rewrite Sp, (proj2 (startsWithDigit_iff _) Sh), (parse_value _ _ _ _ Hv Hr). split; reflexivity.
Qed.
Lemma stoul_reads : forall bits s neg v, reads s neg v ->
  stoul16 bits s = if 2 ^ bits <=? v then Abort else Ok (if neg then (- v) mod 2 ^ bits else v).
Proof.
  intros bits s neg v H. destruct (reads_parse s neg v H) as (body & E1 & E2 & E3).
  unfold stoul16. rewrite E1. cbv zeta. rewrite E2, E3. reflexivity.
Qed.
Lemma stoul_none : forall bits s, (forall neg v, ~ reads s neg v) -> stoul16 bits s = Abort.
Proof.
  intros bits s H. unfold stoul16. destruct (takeSign (skipSpaces s)) as [neg s2] eqn:Ts. cbv zeta.
  destruct (startsWithDigit (skipPrefix s2)) eqn:Sd; [|reflexivity]. exfalso.
  apply startsWithDigit_iff in Sd. destruct (skipSpaces_split s) as (sp & Es & Hsp).
  destruct (skipPrefix_cases s2 Sd) as (pre & E2 & Hpre & Hm).
  destruct (value_exists (skipPrefix s2) 0) as (ds & rest & v & E3 & Hv & Hr & Hne).
  assert (Sg : exists sg, skipSpaces s = (sg ++ s2)%list /\
    ((sg = [] \/ sg = ["+"%char]) /\ neg = false \/ sg = ["-"%char] /\ neg = true)).
  { destruct (skipSpaces s) as [|c t]; cbn [takeSign] in Ts.
    - injection Ts as <- <-. exists []. split; [reflexivity|]. auto.
    - destruct (Ascii.eqb c "-") eqn:E; [apply Ascii.eqb_eq in E; subst c; injection Ts as <- <-; exists ["-"%char]; auto|].
      destruct (Ascii.eqb c "+") eqn:E'; [apply Ascii.eqb_eq in E'; subst c; injection Ts as <- <-; exists ["+"%char]; auto|].
      injection Ts as <- <-. exists []. auto. }
  destruct Sg as (sg & Es2 & Hsg).
  apply (H neg v). exists sp, sg, pre, ds, rest. rewrite Es, Es2, E2 at 1. rewrite E3 at 1.
  split; [reflexivity|]. split; [exact Hsp|]. split; [exact Hsg|]. split; [exact Hpre|].
  split; [apply Hne, Sd|]. split; [exact Hv|]. split; [exact Hr|].
  intros (-> & -> & Ht). apply (Hm eq_refl). exists rest. split; [|exact Ht]. rewrite E2, E3. reflexivity.
Qed.

Lemma toInt64_total : forall s,
  (forall neg v, reads s neg v -> v < 2 ^ 64 -> toInt64 s = Ok (if neg then (- v) mod 2 ^ 64 else v)) /\
  (forall neg v, reads s neg v -> 2 ^ 64 <= v -> toInt64 s = Abort) /\
  ((forall neg v, ~ reads s neg v) -> toInt64 s = Abort).
Proof.
  intros s. unfold toInt64. split; [|split].
  - intros neg v H Hv. rewrite (stoul_reads _ _ _ _ H). apply Z.leb_gt in Hv. rewrite Hv. reflexivity.
  - intros neg v H Hv. rewrite (stoul_reads _ _ _ _ H). apply Z.leb_le in Hv. rewrite Hv. reflexivity.
  - apply stoul_none.
Qed.
Lemma toInt32_total : forall ul s, (ul = 32 \/ ul = 64) ->
  (forall neg v, reads s neg v -> v < 2 ^ ul -> toInt32 ul s = Ok ((if neg then - v else v) mod 2 ^ 32)) /\
  (forall neg v, reads s neg v -> 2 ^ ul <= v -> toInt32 ul s = Abort) /\
  ((forall neg v, ~ reads s neg v) -> toInt32 ul s = Abort).
Proof.
  intros ul s Hul. unfold toInt32, omap. split; [|split].
  - intros neg v H Hv. rewrite (stoul_reads _ _ _ _ H). apply Z.leb_gt in Hv. rewrite Hv. cbn [bind]. f_equal.
    destruct neg; [|reflexivity]. destruct Hul as [-> | ->]; Z.div_mod_to_equations; lia.
  - intros neg v H Hv. rewrite (stoul_reads _ _ _ _ H). apply Z.leb_le in Hv. rewrite Hv. reflexivity.
  - intros H. rewrite (stoul_none _ _ H). reflexivity.
Qed.
(** the reading is unique *)
Lemma reads_unique : forall s neg v neg' v', reads s neg v -> reads s neg' v' -> neg = neg' /\ v = v'.
Proof.
  intros s neg v neg' v' H H'. apply reads_parse in H. apply reads_parse in H'.
  destruct H as (b & E1 & _ & E2), H' as (b' & E1' & _ & E2'). rewrite E1 in E1'. injection E1' as -> ->. split; congruence.
Qed.
(** a number of nine digits is cut to its low 32 bits when unsigned long has 64 bits *)
Lemma nine_digits : let s := ["1"; "0"; "0"; "0"; "0"; "0"; "0"; "0"; "5"]%char in
  reads s false (2 ^ 32 + 5) /\ toInt32 64 s = Ok 5 /\ toInt32 32 s = Abort.
Proof.
  cbv zeta. split; [|split; vm_compute; reflexivity].
  exists [], [], [], ["1"; "0"; "0"; "0"; "0"; "0"; "0"; "0"; "5"]%char, [].
  split; [reflexivity|]. split; [constructor|]. split; [left; auto|]. split; [auto|]. split; [discriminate|].
  split.
  - apply value_cons with 1; [split; [lia|right; reflexivity]|].
    do 7 (apply value_cons with 0; [split; [lia|right; reflexivity]|]).
    apply value_cons with 5; [split; [lia|right; reflexivity]|]. apply value_nil.
  - split; [intros (c & t & E & _); discriminate|]. intros (_ & E & _). discriminate.
Qed.
Lemma signed_prefix : let s := [" "; "-"; "0"; "X"; "1"; "f"; "g"]%char in
  reads s true 31 /\ toInt32 64 s = Ok (2 ^ 32 - 31) /\ toInt64 s = Ok (2 ^ 64 - 31).
Proof.
  cbv zeta. split; [|split; vm_compute; reflexivity].
  exists [" "%char], ["-"%char], ["0"%char; "X"%char], ["1"; "f"]%char, ["g"%char].
  split; [reflexivity|]. split; [constructor; [left; reflexivity|constructor]|]. split; [right; auto|].
  split; [auto|]. split; [discriminate|]. split.
  - apply value_cons with 1; [split; [lia|right; reflexivity]|].
    apply value_cons with 15; [split; [lia|left; reflexivity]|]. apply value_nil.
  - split; [intros (c & t & E & (d & H)); injection E as <- <-; apply digitVal_fwd in H; discriminate|].
    intros (E & _). discriminate.
Qed.
