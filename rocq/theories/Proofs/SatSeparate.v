(** Separating axes of a box and a triangle: if they share no point then one of thirteen
    axes separates them.  The box is centred at the origin with half extents [h]. *)
From Coq Require Import List Reals Lra Psatz.
From Verif.Model Require Import Scalar Vec Simd Aabb Geometry.
From Verif.Spec Require Import EuclidSpec.
From Verif.Proofs Require Import Euclid Fm2.
Import ListNotations.
Local Open Scope R_scope.

Definition absSum (h n : vec4 R) : R := vx h * Rabs (vx n) + vy h * Rabs (vy n) + vz h * Rabs (vz n).
(** the triangle is strictly on the positive side of the box along [n] *)
Definition separates (h v0 v1 v2 n : vec4 R) : Prop :=
  absSum h n < dotS n v0 /\ absSum h n < dotS n v1 /\ absSum h n < dotS n v2.

(** ** Part 1: no common point gives a strictly separating direction *)
Section Part1.
  Variables h v0 v1 v2 : vec4 R.
  Hypothesis Hh : nonneg3 h.
  Let e1 := minusS v1 v0.
  Let e2 := minusS v2 v0.
  Definition constraints : list con :=
    [ Con (vx v1 - vx v0) (vx v2 - vx v0) (vx h - vx v0); Con (- (vx v1 - vx v0)) (- (vx v2 - vx v0)) (vx h + vx v0);
      Con (vy v1 - vy v0) (vy v2 - vy v0) (vy h - vy v0); Con (- (vy v1 - vy v0)) (- (vy v2 - vy v0)) (vy h + vy v0);
      Con (vz v1 - vz v0) (vz v2 - vz v0) (vz h - vz v0); Con (- (vz v1 - vz v0)) (- (vz v2 - vz v0)) (vz h + vz v0);
      Con (-1) 0 0; Con 0 (-1) 0; Con 1 1 1 ].
  Definition certificate (k : con) : Prop := exists n w1 w2 w3, 0 <= w1 /\ 0 <= w2 /\ 0 <= w3 /\
    ca k = dotS n e1 - w1 + w3 /\ cb k = dotS n e2 - w2 + w3 /\ absSum h n - dotS n v0 + w3 <= cc k.
  Lemma abs_add : forall c x y, 0 <= c -> c * Rabs (x + y) <= c * Rabs x + c * Rabs y.
  Proof. intros. pose proof (Rabs_triang x y). nra. Qed.
  Lemma abs_scale : forall r x, 0 <= r -> Rabs (r * x) = r * Rabs x.
  Proof. intros. rewrite Rabs_mult, (Rabs_right r) by lra. reflexivity. Qed.
  Lemma certify : forall k, derivable constraints k -> certificate k.
  Proof.
    destruct Hh as (Hx & Hy & Hz).
    assert (A1 : Rabs 1 = 1) by (apply Rabs_right; lra). assert (A0 : Rabs 0 = 0) by apply Rabs_R0.
    assert (AM : Rabs (-1) = 1) by (unfold Rabs; destruct Rcase_abs; lra).
    intros k H. induction H as [k Hk|a b c a' b' c' _ IH1 _ IH2|r a b c Hr _ IH].
    - repeat (destruct Hk as [<-|Hk]); [..|destruct Hk].
      1: exists (V4 1 0 0 0), 0, 0, 0. 2: exists (V4 (-1) 0 0 0), 0, 0, 0.
      3: exists (V4 0 1 0 0), 0, 0, 0. 4: exists (V4 0 (-1) 0 0), 0, 0, 0.
      5: exists (V4 0 0 1 0), 0, 0, 0. 6: exists (V4 0 0 (-1) 0), 0, 0, 0.
      7: exists (V4 0 0 0 0), 1, 0, 0. 8: exists (V4 0 0 0 0), 0, 1, 0. 9: exists (V4 0 0 0 0), 0, 0, 1.
      all: unfold absSum, dotS, e1, e2, minusS; cbn [vx vy vz ca cb cc]; rewrite ?A1, ?A0, ?AM; repeat split; lra.
    - destruct IH1 as (n & w1 & w2 & w3 & P1 & P2 & P3 & E1 & E2 & E3). destruct IH2 as (n' & u1 & u2 & u3 & Q1 & Q2 & Q3 & D1 & D2 & D3).
      exists (V4 (vx n + vx n') (vy n + vy n') (vz n + vz n') 0), (w1 + u1), (w2 + u2), (w3 + u3).
      cbn [ca cb cc] in *. pose proof (abs_add _ (vx n) (vx n') Hx). pose proof (abs_add _ (vy n) (vy n') Hy). pose proof (abs_add _ (vz n) (vz n') Hz).
      unfold absSum, dotS in *. cbn [vx vy vz]. repeat split; lra.
    - destruct IH as (n & w1 & w2 & w3 & P1 & P2 & P3 & E1 & E2 & E3). cbn [ca cb cc] in *.
      exists (V4 (r * vx n) (r * vy n) (r * vz n) 0), (r * w1), (r * w2), (r * w3).
      split; [nra|]. split; [nra|]. split; [nra|]. cbn [ca cb cc].
      unfold absSum, dotS in *. cbn [vx vy vz]. rewrite !abs_scale by exact Hr.
      split; [rewrite E1; ring|]. split; [rewrite E2; ring|].
      apply (Rmult_le_compat_l r) in E3; [|exact Hr]. lra.
  Qed.
  Theorem separating_direction :
    (exists u v w, 0 <= u /\ 0 <= v /\ 0 <= w /\ u + v + w = 1 /\
      - vx h <= u * vx v0 + v * vx v1 + w * vx v2 <= vx h /\
      - vy h <= u * vy v0 + v * vy v1 + w * vy v2 <= vy h /\
      - vz h <= u * vz v0 + v * vz v1 + w * vz v2 <= vz h) \/
    (exists n, separates h v0 v1 v2 n).
  Proof.
    destruct (feasible_or_contradiction constraints) as [(s & t & H)|(c & Hc & H)].
    - left. exists (1 - s - t), s, t.
      pose proof (H _ (or_introl eq_refl)) as K1. pose proof (H _ (or_intror (or_introl eq_refl))) as K2.
      pose proof (H _ (or_intror (or_intror (or_introl eq_refl)))) as K3.
      pose proof (H _ (or_intror (or_intror (or_intror (or_introl eq_refl))))) as K4.
      pose proof (H _ (or_intror (or_intror (or_intror (or_intror (or_introl eq_refl)))))) as K5.
      pose proof (H _ (or_intror (or_intror (or_intror (or_intror (or_intror (or_introl eq_refl))))))) as K6.
      pose proof (H _ (or_intror (or_intror (or_intror (or_intror (or_intror (or_intror (or_introl eq_refl)))))))) as K7.
      pose proof (H _ (or_intror (or_intror (or_intror (or_intror (or_intror (or_intror (or_intror (or_introl eq_refl))))))))) as K8.
      pose proof (H _ (or_intror (or_intror (or_intror (or_intror (or_intror (or_intror (or_intror (or_intror (or_introl eq_refl)))))))))) as K9.
      unfold holds in *. cbn [ca cb cc] in *. lra.
    - right. destruct (certify _ H) as (n & w1 & w2 & w3 & P1 & P2 & P3 & E1 & E2 & E3). cbn [ca cb cc] in *.
      exists n. unfold separates, e1, e2, dotS, minusS in *. cbn [vx vy vz] in *. lra.
  Qed.
End Part1.

(** ** Part 2: moving along a line until a constraint becomes tight *)
(** slack and slope of each constraint *)
Lemma first_tight : forall l : list (R * R), (forall v m, In (v, m) l -> 0 <= v) -> (exists v m, In (v, m) l /\ m < 0) ->
  exists tau, 0 <= tau /\ (forall v m, In (v, m) l -> 0 <= v + tau * m) /\ (exists v m, In (v, m) l /\ m < 0 /\ v + tau * m = 0).
Proof.
  induction l as [|[v m] l IH]; intros Hv (v' & m' & Hi & Hm); [destruct Hi|].
  assert (Hv' : forall v m, In (v, m) l -> 0 <= v) by (intros; eapply Hv; right; eassumption).
  assert (V : 0 <= v) by (apply (Hv v m); left; reflexivity).
  destruct (Exists_dec (fun k : R * R => snd k < 0) l) as [X|X]; [intros k; apply Rlt_dec| |].
  - apply Exists_exists in X. destruct X as ([v1 m1] & Hi1 & Hm1). cbn in Hm1.
    destruct (IH Hv') as (tau & T0 & T1 & T2); [exists v1, m1; auto|].
    destruct (Rle_dec 0 (v + tau * m)) as [L|L].
    + exists tau. split; [exact T0|]. split.
      * intros x y [E|Hy]; [injection E as <- <-; exact L|auto].
      * destruct T2 as (x & y & ? & ? & ?). exists x, y. split; [right; assumption|auto].
    + assert (Hm2 : m < 0) by nra. exists (v / - m).
      assert (E : v / - m * m = - v) by (field; lra).
      assert (T : 0 <= v / - m) by (apply Rmult_le_pos; [exact V|apply Rlt_le, Rinv_0_lt_compat; lra]).
      assert (LT : v / - m <= tau) by nra.
      split; [exact T|]. split.
      * intros x y [Exy|Hy]; [injection Exy as <- <-; lra|]. specialize (T1 x y Hy). specialize (Hv' x y Hy).
        destruct (Rle_dec 0 y); [nra|]. nra.
      * exists v, m. split; [left; reflexivity|]. split; lra.
  - assert (Hpos : forall x y, In (x, y) l -> 0 <= y).
    { intros x y Hy. destruct (Rlt_le_dec y 0); [|assumption]. exfalso. apply X, Exists_exists. exists (x, y). auto. }
    destruct Hi as [E|Hi]; [injection E as -> ->|exfalso; specialize (Hpos _ _ Hi); lra].
    exists (v' / - m').
    assert (E : v' / - m' * m' = - v') by (field; lra).
    assert (T : 0 <= v' / - m') by (apply Rmult_le_pos; [exact V|apply Rlt_le, Rinv_0_lt_compat; lra]).
    split; [exact T|]. split.
    + intros x y [Exy|Hy]; [injection Exy as <- <-; lra|]. specialize (Hv' x y Hy). specialize (Hpos x y Hy). nra.
    + exists v', m'. split; [left; reflexivity|]. split; lra.
Qed.

(** *** In the plane: l, m >= 0 with A, B, C.(l, m) >= delta *)
Definition good2 delta (A B C : R * R) (l m : R) : Prop :=
  0 <= l /\ 0 <= m /\ delta <= l * fst A + m * snd A /\ delta <= l * fst B + m * snd B /\ delta <= l * fst C + m * snd C.
Definition tight2 delta (A B : R * R) (l m : R) : Prop :=
  l * fst A + m * snd A = delta /\ l * fst B + m * snd B = delta /\ fst A * snd B - snd A * fst B <> 0.
Lemma move2 : forall delta A B C l m dl dm, good2 delta A B C l m -> dl < 0 \/ dm < 0 ->
  exists tau, let l' := l + tau * dl in let m' := m + tau * dm in good2 delta A B C l' m' /\
  (l' = 0 \/ m' = 0 \/ (l' * fst A + m' * snd A = delta /\ dl * fst A + dm * snd A <> 0) \/
   (l' * fst B + m' * snd B = delta /\ dl * fst B + dm * snd B <> 0) \/
   (l' * fst C + m' * snd C = delta /\ dl * fst C + dm * snd C <> 0)).
Proof.
  intros delta A B C l m dl dm (G1 & G2 & G3 & G4 & G5) Hd.
  destruct (first_tight [(l, dl); (m, dm); (l * fst A + m * snd A - delta, dl * fst A + dm * snd A);
    (l * fst B + m * snd B - delta, dl * fst B + dm * snd B); (l * fst C + m * snd C - delta, dl * fst C + dm * snd C)])
    as (tau & T0 & T1 & v & s & Hi & Hs & E).
  { intros v s H. cbn [In] in H. destruct H as [H|[H|[H|[H|[H|[]]]]]]; injection H as <- <-; lra. }
  { destruct Hd; [exists l, dl|exists m, dm]; split; cbn [In]; auto. }
  exists tau. cbv zeta. split.
  - pose proof (T1 _ _ (or_introl eq_refl)). pose proof (T1 _ _ (or_intror (or_introl eq_refl))).
    pose proof (T1 _ _ (or_intror (or_intror (or_introl eq_refl)))).
    pose proof (T1 _ _ (or_intror (or_intror (or_intror (or_introl eq_refl))))).
    pose proof (T1 _ _ (or_intror (or_intror (or_intror (or_intror (or_introl eq_refl)))))).
    unfold good2. lra.
  - cbn [In] in Hi. destruct Hi as [H|[H|[H|[H|[H|[]]]]]]; injection H as <- <-.
    + left. exact E.
    + right. left. exact E.
    + right. right. left. split; lra.
    + right. right. right. left. split; lra.
    + right. right. right. right. split; lra.
Qed.
Lemma vertex2_step : forall delta A B C l m, 0 < delta -> good2 delta A B C l m -> l * fst A + m * snd A = delta ->
  exists l' m', good2 delta A B C l' m' /\ (l' = 0 \/ m' = 0 \/ tight2 delta A B l' m' \/ tight2 delta A C l' m').
Proof.
  intros delta A B C l m Hd G E.
  assert (Hn : fst A <> 0 \/ snd A <> 0).
  { destruct (Req_dec (fst A) 0) as [E1|]; [|auto]. destruct (Req_dec (snd A) 0) as [E2|]; [|auto]. rewrite E1, E2 in E. lra. }
  assert (D : exists k, (k = 1 \/ k = -1) /\ (k * snd A < 0 \/ k * - fst A < 0)).
  { destruct Hn as [Hn|Hn].
    - destruct (Rlt_dec (fst A) 0); [exists (-1)|exists 1]; split; auto; right; lra.
    - destruct (Rlt_dec (snd A) 0); [exists 1|exists (-1)]; split; auto; left; lra. }
  destruct D as (k & Hk & D).
  destruct (move2 delta A B C l m (k * snd A) (k * - fst A) G D) as (tau & G' & Hcase). cbv zeta in *.
  set (l' := l + tau * (k * snd A)) in *. set (m' := m + tau * (k * - fst A)) in *.
  assert (EA : l' * fst A + m' * snd A = delta) by (unfold l', m'; rewrite <- E; ring).
  exists l', m'. split; [exact G'|].
  destruct Hcase as [H|[H|[(_ & H)|[(H & H')|(H & H')]]]]; [auto|auto|exfalso; apply H; ring| |].
  - right. right. left. unfold tight2. repeat split; try assumption. intros Z. apply H'.
    replace (_ + _) with (- k * (fst A * snd B - snd A * fst B)) by ring. rewrite Z. ring.
  - right. right. right. unfold tight2. repeat split; try assumption. intros Z. apply H'.
    replace (_ + _) with (- k * (fst A * snd C - snd A * fst C)) by ring. rewrite Z. ring.
Qed.
Theorem vertex2 : forall delta A B C l m, 0 < delta -> good2 delta A B C l m ->
  exists l' m', good2 delta A B C l' m' /\
    (l' = 0 \/ m' = 0 \/ tight2 delta A B l' m' \/ tight2 delta A C l' m' \/ tight2 delta B C l' m').
Proof.
  intros delta A B C l m Hd G.
  assert (Perm1 : forall l m, good2 delta B A C l m <-> good2 delta A B C l m) by (intros; unfold good2; tauto).
  assert (Perm2 : forall l m, good2 delta C A B l m <-> good2 delta A B C l m) by (intros; unfold good2; tauto).
  assert (Sym : forall X Y l m, tight2 delta X Y l m -> tight2 delta Y X l m).
  { intros X Y x y (H1 & H2 & H3). repeat split; try assumption. intros Z. apply H3. lra. }
  destruct (move2 delta A B C l m (-1) 0 G) as (tau & G' & Hcase); [left; lra|]. cbv zeta in *.
  set (l1 := l + tau * -1) in *. set (m1 := m + tau * 0) in *.
  destruct Hcase as [H|[H|[(H & _)|[(H & _)|(H & _)]]]].
  - exists l1, m1. auto.
  - exists l1, m1. auto.
  - destruct (vertex2_step delta A B C l1 m1 Hd G' H) as (x & y & Gx & Hx). exists x, y. split; [exact Gx|]. tauto.
  - apply Perm1 in G'. destruct (vertex2_step delta B A C l1 m1 Hd G' H) as (x & y & Gx & Hx). exists x, y. split; [apply Perm1, Gx|].
    destruct Hx as [Hx|[Hx|[Hx|Hx]]]; auto 6.
  - apply Perm2 in G'. destruct (vertex2_step delta C A B l1 m1 Hd G' H) as (x & y & Gx & Hx). exists x, y. split; [apply Perm2, Gx|].
    destruct Hx as [Hx|[Hx|[Hx|Hx]]]; auto; apply Sym in Hx; auto.
Qed.

(** *** In space *)
Definition good3 delta (A B C n : vec4 R) : Prop :=
  0 <= vx n /\ 0 <= vy n /\ 0 <= vz n /\ delta <= dotS n A /\ delta <= dotS n B /\ delta <= dotS n C.
Definition along3 (n d : vec4 R) (tau : R) : vec4 R := V4 (vx n + tau * vx d) (vy n + tau * vy d) (vz n + tau * vz d) 0.
Lemma dot_along : forall n d tau A, dotS (along3 n d tau) A = dotS n A + tau * dotS d A.
Proof. intros. unfold dotS, along3. cbn [vx vy vz]. ring. Qed.
Definition hasZero (n : vec4 R) : Prop := vx n = 0 \/ vy n = 0 \/ vz n = 0.
Lemma move3 : forall delta A B C n d, good3 delta A B C n -> nonzeroS d ->
  exists tau, good3 delta A B C (along3 n d tau) /\
  (hasZero (along3 n d tau) \/ (dotS (along3 n d tau) A = delta /\ dotS d A <> 0) \/
   (dotS (along3 n d tau) B = delta /\ dotS d B <> 0) \/ (dotS (along3 n d tau) C = delta /\ dotS d C <> 0)).
Proof.
  intros delta A B C n d G Hd.
  assert (Main : forall d, (vx d < 0 \/ vy d < 0 \/ vz d < 0) -> exists tau, good3 delta A B C (along3 n d tau) /\
    (hasZero (along3 n d tau) \/ (dotS (along3 n d tau) A = delta /\ dotS d A <> 0) \/
     (dotS (along3 n d tau) B = delta /\ dotS d B <> 0) \/ (dotS (along3 n d tau) C = delta /\ dotS d C <> 0))).
  { clear d Hd. intros d Hd. destruct G as (G1 & G2 & G3 & G4 & G5 & G6).
    destruct (first_tight [(vx n, vx d); (vy n, vy d); (vz n, vz d); (dotS n A - delta, dotS d A);
      (dotS n B - delta, dotS d B); (dotS n C - delta, dotS d C)]) as (tau & T0 & T1 & v & s & Hi & Hs & E).
    { intros v s H. cbn [In] in H. destruct H as [H|[H|[H|[H|[H|[H|[]]]]]]]; injection H as <- <-; lra. }
    { destruct Hd as [H|[H|H]]; [exists (vx n), (vx d)|exists (vy n), (vy d)|exists (vz n), (vz d)]; split; cbn [In]; auto. }
    exists tau. split.
    - pose proof (T1 _ _ (or_introl eq_refl)). pose proof (T1 _ _ (or_intror (or_introl eq_refl))).
      pose proof (T1 _ _ (or_intror (or_intror (or_introl eq_refl)))).
      pose proof (T1 _ _ (or_intror (or_intror (or_intror (or_introl eq_refl))))).
      pose proof (T1 _ _ (or_intror (or_intror (or_intror (or_intror (or_introl eq_refl)))))).
      pose proof (T1 _ _ (or_intror (or_intror (or_intror (or_intror (or_intror (or_introl eq_refl))))))).
      unfold good3. rewrite !dot_along. unfold along3. cbn [vx vy vz]. lra.
    - rewrite !dot_along. unfold hasZero, along3. cbn [vx vy vz].
      cbn [In] in Hi. destruct Hi as [H|[H|[H|[H|[H|[H|[]]]]]]]; injection H as <- <-.
      + auto.
      + auto.
      + auto.
      + right. left. split; lra.
      + right. right. left. split; lra.
      + right. right. right. split; lra. }
  assert (Sgn : (vx d < 0 \/ vy d < 0 \/ vz d < 0) \/ (- vx d < 0 \/ - vy d < 0 \/ - vz d < 0)).
  { unfold nonzeroS in Hd. destruct (Rtotal_order (vx d) 0) as [?|[E1|?]]; [auto| |right; left; lra].
    destruct (Rtotal_order (vy d) 0) as [?|[E2|?]]; [auto| |right; right; left; lra].
    destruct (Rtotal_order (vz d) 0) as [?|[E3|?]]; [auto| |right; right; right; lra]. tauto. }
  destruct Sgn as [S|S]; [exact (Main d S)|].
  destruct (Main (V4 (- vx d) (- vy d) (- vz d) 0) S) as (tau & M1 & M2).
  exists (- tau). replace (along3 n d (- tau)) with (along3 n (V4 (- vx d) (- vy d) (- vz d) 0) tau)
    by (unfold along3; cbn [vx vy vz]; f_equal; ring).
  split; [exact M1|].
  assert (Neg : forall X, dotS (V4 (- vx d) (- vy d) (- vz d) 0) X = - dotS d X) by (intros; unfold dotS; cbn [vx vy vz]; ring).
  rewrite !Neg in M2. destruct M2 as [M2|[(M2 & N)|[(M2 & N)|(M2 & N)]]]; [auto| | |].
  - right. left. split; [exact M2|lra].
  - right. right. left. split; [exact M2|lra].
  - right. right. right. split; [exact M2|lra].
Qed.
Definition tight3 delta (A B C n : vec4 R) : Prop :=
  dotS n A = delta /\ dotS n B = delta /\ dotS n C = delta /\ dotS (crossS A B) C <> 0.
Lemma dot_sym : forall a b, dotS a b = dotS b a.
Proof. intros. unfold dotS. ring. Qed.
(** two tight columns *)
Lemma vertex3_step2 : forall delta A B C n, good3 delta A B C n -> dotS n A = delta -> dotS n B = delta -> nonzeroS (crossS A B) ->
  exists n', good3 delta A B C n' /\ (hasZero n' \/ tight3 delta A B C n').
Proof.
  intros delta A B C n G EA EB HN.
  destruct (move3 delta A B C n (crossS A B) G HN) as (tau & G' & Hc).
  assert (ZA : dotS (crossS A B) A = 0) by (unfold dotS, crossS; cbn [vx vy vz]; ring).
  assert (ZB : dotS (crossS A B) B = 0) by (unfold dotS, crossS; cbn [vx vy vz]; ring).
  eexists. split; [exact G'|].
  destruct Hc as [Hc|[(_ & Hc)|[(_ & Hc)|(Hc & Hc')]]]; [auto|tauto|tauto|].
  right. repeat split; [| |exact Hc|exact Hc']; rewrite dot_along; [rewrite ZA|rewrite ZB]; lra.
Qed.
(** a tight column *)
Lemma cross_zero : forall A B d, nonzeroS A -> ~ nonzeroS (crossS A B) -> dotS d A = 0 -> dotS d B = 0.
Proof.
  intros A B d HA HC Hd.
  assert (Z : vx (crossS A B) = 0 /\ vy (crossS A B) = 0 /\ vz (crossS A B) = 0).
  { unfold nonzeroS in HC. destruct (Req_dec (vx (crossS A B)) 0); [|tauto]. destruct (Req_dec (vy (crossS A B)) 0); [|tauto].
    destruct (Req_dec (vz (crossS A B)) 0); tauto. }
  destruct Z as (Z1 & Z2 & Z3). apply nonzero_dot in HA.
  (* |A|^2 (d.B) = (A.B)(d.A) + d.((A x B) x A) *)
  assert (I : dotS A A * dotS d B = dotS A B * dotS d A + dotS d (crossS (crossS A B) A)).
  { unfold dotS, crossS. cbn [vx vy vz]. ring. }
  assert (I2 : dotS d (crossS (crossS A B) A) = 0).
  { remember (crossS A B) as C. unfold dotS, crossS. cbn [vx vy vz]. rewrite Z1, Z2, Z3. ring. }
  rewrite Hd, I2 in I. nra.
Qed.
Lemma nonzero_dec : forall a, nonzeroS a \/ ~ nonzeroS a.
Proof.
  intros a. unfold nonzeroS. destruct (Req_dec (vx a) 0); [|tauto]. destruct (Req_dec (vy a) 0); [|tauto].
  destruct (Req_dec (vz a) 0); tauto.
Qed.
Lemma vertex3_step1 : forall delta A B C n, 0 < delta -> good3 delta A B C n -> dotS n A = delta ->
  exists n', good3 delta A B C n' /\ (hasZero n' \/ tight3 delta A B C n' \/ tight3 delta A C B n').
Proof.
  intros delta A B C n Hd G EA.
  assert (HA : nonzeroS A). { intros (E1 & E2 & E3). unfold dotS in EA. rewrite E1, E2, E3 in EA. lra. }
  assert (D : exists d, nonzeroS d /\ dotS d A = 0).
  { unfold nonzeroS in HA. destruct (Req_dec (vx A) 0) as [E1|E1].
    - destruct (Req_dec (vy A) 0) as [E2|E2].
      + exists (V4 1 0 0 0). split; [intros (Z & _); cbn in Z; lra|]. unfold dotS. cbn [vx vy vz]. rewrite E1. ring.
      + exists (V4 (vy A) (- vx A) 0 0). split; [intros (Z & _); cbn in Z; lra|]. unfold dotS. cbn [vx vy vz]. ring.
    - exists (V4 (vy A) (- vx A) 0 0). split; [intros (_ & Z & _); cbn in Z; lra|]. unfold dotS. cbn [vx vy vz]. ring. }
  destruct D as (d & Hd0 & ZA).
  destruct (move3 delta A B C n d G Hd0) as (tau & G' & Hc). set (n' := along3 n d tau) in *.
  assert (EA' : dotS n' A = delta) by (unfold n'; rewrite dot_along, ZA; lra).
  destruct Hc as [Hc|[(_ & Hc)|[(Hc & Hc')|(Hc & Hc')]]]; [exists n'; auto|tauto| |].
  - destruct (nonzero_dec (crossS A B)) as [NZ|NZ]; [|exfalso; apply Hc'; exact (cross_zero A B d HA NZ ZA)].
    destruct (vertex3_step2 delta A B C n' G' EA' Hc NZ) as (m & Gm & Hm). exists m. tauto.
  - destruct (nonzero_dec (crossS A C)) as [NZ|NZ]; [|exfalso; apply Hc'; exact (cross_zero A C d HA NZ ZA)].
    assert (G2 : good3 delta A C B n') by (unfold good3 in *; tauto).
    destruct (vertex3_step2 delta A C B n' G2 EA' Hc NZ) as (m & Gm & Hm). exists m. split; [unfold good3 in *; tauto|tauto].
Qed.
Theorem vertex3 : forall delta A B C n, 0 < delta -> good3 delta A B C n ->
  exists n', good3 delta A B C n' /\ (hasZero n' \/ tight3 delta A B C n').
Proof.
  intros delta A B C n Hd G.
  assert (HX : nonzeroS (V4 1 0 0 0)) by (intros (Z & _); cbn in Z; lra).
  destruct (move3 delta A B C n _ G HX) as (tau & G' & Hc). set (n' := along3 _ _ _) in *.
  assert (Tri : forall A B C, dotS (crossS A B) C = dotS (crossS B C) A) by (intros; unfold dotS, crossS; cbn [vx vy vz]; ring).
  assert (Swp : forall A B C, dotS (crossS A B) C = - dotS (crossS B A) C) by (intros; unfold dotS, crossS; cbn [vx vy vz]; ring).
  destruct Hc as [Hc|[(Hc & _)|[(Hc & _)|(Hc & _)]]].
  - exists n'. auto.
  - destruct (vertex3_step1 delta A B C n' Hd G' Hc) as (m & Gm & [H|[H|(H1 & H2 & H3 & H4)]]); exists m; split; auto.
    right. repeat split; try assumption. intros Z. apply H4. rewrite (Swp A C B), (Tri C A B). lra.
  - assert (G2 : good3 delta B A C n') by (unfold good3 in *; tauto).
    destruct (vertex3_step1 delta B A C n' Hd G2 Hc) as (m & Gm & [H|[(H1 & H2 & H3 & H4)|(H1 & H2 & H3 & H4)]]);
      (exists m; split; [unfold good3 in *; tauto|]); [auto| |]; right; repeat split; try assumption; intros Z; apply H4.
    + rewrite (Swp B A C). lra.
    + rewrite (Tri B C A), (Tri C A B). lra.
  - assert (G2 : good3 delta C A B n') by (unfold good3 in *; tauto).
    destruct (vertex3_step1 delta C A B n' Hd G2 Hc) as (m & Gm & [H|[(H1 & H2 & H3 & H4)|(H1 & H2 & H3 & H4)]]);
      (exists m; split; [unfold good3 in *; tauto|]); [auto| |]; right; repeat split; try assumption; intros Z; apply H4.
    + rewrite (Tri C A B). lra.
    + rewrite (Swp C B A), (Tri B C A), (Tri C A B). lra.
Qed.
