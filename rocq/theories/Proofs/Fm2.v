(** Feasibility of finitely many linear constraints in two variables: either a solution exists,
    or some non-negative combination of the constraints is contradictory. *)
From Coq Require Import List Reals Lra Psatz.
Import ListNotations.
Local Open Scope R_scope.

(** the constraint a s + b t <= c *)
Record con := Con { ca : R; cb : R; cc : R }.
Definition holds (s t : R) (k : con) : Prop := ca k * s + cb k * t <= cc k.
Inductive derivable (l : list con) : con -> Prop :=
| d_in : forall k, In k l -> derivable l k
| d_add : forall a b c a' b' c', derivable l (Con a b c) -> derivable l (Con a' b' c') ->
    derivable l (Con (a + a') (b + b') (c + c'))
| d_scale : forall r a b c, 0 <= r -> derivable l (Con a b c) -> derivable l (Con (r * a) (r * b) (r * c)).

(** one variable: upper bounds [u] and lower bounds [l] *)
Lemma between : forall lows highs : list R, (forall l u, In l lows -> In u highs -> l <= u) ->
  exists x, (forall l, In l lows -> l <= x) /\ (forall u, In u highs -> x <= u).
Proof.
  intros lows highs H.
  assert (Max : forall l, l <> [] -> exists m, In m l /\ forall y, In y l -> y <= m).
  { induction l as [|a l IH]; [congruence|intros _]. destruct l as [|b l].
    - exists a. split; [left; reflexivity|]. intros y [->|[]]. lra.
    - destruct IH as (m & Hm & Hy); [congruence|]. destruct (Rle_dec a m).
      + exists m. split; [right; exact Hm|]. intros y [->|Hi]; [assumption|]. auto.
      + exists a. split; [left; reflexivity|]. intros y [->|Hi]; [lra|]. specialize (Hy y Hi). lra. }
  destruct lows as [|a lows].
  - destruct highs as [|b highs]; [exists 0; split; intros ? []|].
    destruct (Max (map Ropp (b :: highs))) as (m & Hm & Hy); [discriminate|].
    exists (- m). split; [intros ? []|]. intros u Hu. specialize (Hy (- u) (in_map Ropp _ _ Hu)). lra.
  - destruct (Max (a :: lows)) as (m & Hm & Hy); [discriminate|]. exists m. split; auto.
Qed.
(** elimination of the variable with coefficient [f] *)
Section Elim.
  Variable f g : con -> R.  (* coefficient of the eliminated and of the kept variable *)
  Lemma solve1 : forall l y, (forall k, In k l -> f k = 0 -> g k * y <= cc k) ->
    (forall k k', In k l -> In k' l -> 0 < f k -> f k' < 0 ->
      (cc k' - g k' * y) / f k' <= (cc k - g k * y) / f k) ->
    exists x, forall k, In k l -> f k * x + g k * y <= cc k.
  Proof.
    intros l y H0 Hp.
    set (bound := fun k => (cc k - g k * y) / f k).
    destruct (between (map bound (filter (fun k => if Rlt_dec (f k) 0 then true else false) l))
                      (map bound (filter (fun k => if Rlt_dec 0 (f k) then true else false) l))) as (x & Hl & Hu).
    { intros a b Ha Hb. apply in_map_iff in Ha. destruct Ha as (k' & <- & Ha). apply in_map_iff in Hb. destruct Hb as (k & <- & Hb).
      apply filter_In in Ha. apply filter_In in Hb. destruct Ha as (Ha1 & Ha2). destruct Hb as (Hb1 & Hb2).
      destruct (Rlt_dec (f k') 0); [|discriminate]. destruct (Rlt_dec 0 (f k)); [|discriminate]. apply Hp; assumption. }
    exists x. intros k Hk. destruct (Rtotal_order (f k) 0) as [L|[E|G]].
    - assert (B : bound k <= x). { apply Hl, in_map, filter_In. split; [exact Hk|]. destruct (Rlt_dec (f k) 0); tauto. }
      unfold bound in B. assert (E : (cc k - g k * y) / f k * f k = cc k - g k * y) by (field; lra). nra.
    - rewrite E. specialize (H0 k Hk E). lra.
    - assert (B : x <= bound k). { apply Hu, in_map, filter_In. split; [exact Hk|]. destruct (Rlt_dec 0 (f k)); tauto. }
      unfold bound in B. assert (E : (cc k - g k * y) / f k * f k = cc k - g k * y) by (field; lra). nra.
  Qed.
End Elim.
(** the constraint obtained from an upper and a lower bound on t *)
Definition combine (k k' : con) : con :=
  Con (- cb k' * ca k + cb k * ca k') (- cb k' * cb k + cb k * cb k') (- cb k' * cc k + cb k * cc k').
Definition isPos (k : con) := if Rlt_dec 0 (cb k) then true else false.
Definition isNeg (k : con) := if Rlt_dec (cb k) 0 then true else false.
Definition isZero (k : con) := if Req_EM_T (cb k) 0 then true else false.
Definition eliminated (l : list con) : list con :=
  filter isZero l ++ flat_map (fun k => map (combine k) (filter isNeg l)) (filter isPos l).
Lemma eliminated_derivable : forall l k, In k (eliminated l) -> derivable l k /\ cb k = 0.
Proof.
  intros l k H. unfold eliminated in H. apply in_app_or in H. destruct H as [H|H].
  - apply filter_In in H. destruct H as (H & E). unfold isZero in E. destruct Req_EM_T; [|discriminate]. split; [apply d_in|]; assumption.
  - apply in_flat_map in H. destruct H as (a & Ha & H). apply in_map_iff in H. destruct H as (b & <- & Hb).
    apply filter_In in Ha. apply filter_In in Hb. destruct Ha as (Ha & Pa). destruct Hb as (Hb & Pb).
    unfold isPos in Pa. unfold isNeg in Pb. destruct Rlt_dec in Pa; [|discriminate]. destruct Rlt_dec in Pb; [|discriminate].
    split; [|cbn; ring]. unfold combine. apply d_add; apply d_scale; try lra; apply d_in; destruct a, b; assumption.
Qed.
Theorem feasible_or_contradiction : forall l,
  (exists s t, forall k, In k l -> holds s t k) \/ (exists c, c < 0 /\ derivable l (Con 0 0 c)).
Proof.
  intros l. set (e := eliminated l).
  (* contradiction found in one variable *)
  assert (Split : (forall k, In k e -> ca k = 0 -> 0 <= cc k) /\
                  (forall k k', In k e -> In k' e -> 0 < ca k -> ca k' < 0 -> cc k' / ca k' <= cc k / ca k) \/
                  (exists c, c < 0 /\ derivable l (Con 0 0 c))).
  { destruct (Exists_dec (fun k => ca k = 0 /\ cc k < 0) e) as [X|X].
    { intros k. destruct (Req_EM_T (ca k) 0); [destruct (Rlt_dec (cc k) 0)|]; [left|right|right]; tauto. }
    { right. apply Exists_exists in X. destruct X as (k & Hk & E & L). exists (cc k). split; [exact L|].
      destruct (eliminated_derivable l k Hk) as (D & Eb). destruct k as [a b c]. cbn in *. subst. exact D. }
    destruct (Exists_dec (fun k => 0 < ca k /\ Exists (fun k' => ca k' < 0 /\ cc k / ca k < cc k' / ca k') e) e) as [Y|Y].
    { intros k. destruct (Rlt_dec 0 (ca k)) as [L|L]; [|right; tauto].
      destruct (Exists_dec (fun k' => ca k' < 0 /\ cc k / ca k < cc k' / ca k') e) as [Z|Z];
        [intros k'; destruct (Rlt_dec (ca k') 0); [destruct (Rlt_dec (cc k / ca k) (cc k' / ca k'))|]; [left|right|right]; tauto| |]; [left|right]; tauto. }
    { right. apply Exists_exists in Y. destruct Y as (k & Hk & L & Y). apply Exists_exists in Y. destruct Y as (k' & Hk' & L' & N).
      destruct (eliminated_derivable l k Hk) as (D & Eb). destruct (eliminated_derivable l k' Hk') as (D' & Eb').
      destruct k as [a b c], k' as [a' b' c']. cbn in *. subst.
      exists (- a' * c + a * c'). split.
      - assert (A : c / a * a = c) by (field; lra). assert (A' : c' / a' * a' = c') by (field; lra).
        rewrite <- A, <- A'. replace (- a' * (c / a * a) + a * (c' / a' * a')) with (a * a' * (c' / a' - c / a)) by (field; lra). 
        assert (0 < c' / a' - c / a) by lra. assert (a * a' < 0) by nra. nra.
      - replace (Con 0 0 (- a' * c + a * c')) with (Con (- a' * a + a * a') (- a' * 0 + a * 0) (- a' * c + a * c')) by (f_equal; ring).
        apply d_add; apply d_scale; try lra; assumption. }
    left. split.
    - intros k Hk E. destruct (Rlt_le_dec (cc k) 0); [|assumption]. exfalso. apply X, Exists_exists. exists k. auto.
    - intros k k' Hk Hk' L L'. destruct (Rlt_le_dec (cc k / ca k) (cc k' / ca k')); [|assumption].
      exfalso. apply Y, Exists_exists. exists k. split; [exact Hk|]. split; [exact L|]. apply Exists_exists. exists k'. auto. }
  destruct Split as [(S1 & S2)|X]; [left|right; exact X].
  destruct (solve1 ca (fun _ => 0) e 0) as (s & Hs).
  { intros k Hk E. specialize (S1 k Hk E). lra. }
  { intros k k' Hk Hk' L L'. specialize (S2 k k' Hk Hk' L L'). rewrite Rmult_0_l, !Rminus_0_r. exact S2. }
  destruct (solve1 cb ca l s) as (t & Ht).
  { intros k Hk E. assert (In k e).
    { apply in_or_app. left. apply filter_In. split; [exact Hk|]. unfold isZero. destruct Req_EM_T; tauto. }
    specialize (Hs k H). lra. }
  { intros k k' Hk Hk' L L'. assert (In (combine k k') e).
    { apply in_or_app. right. apply in_flat_map. exists k. split.
      - apply filter_In. split; [exact Hk|]. unfold isPos. destruct Rlt_dec; tauto.
      - apply in_map, filter_In. split; [exact Hk'|]. unfold isNeg. destruct Rlt_dec; tauto. }
    specialize (Hs _ H). cbn [ca cc combine] in Hs.
    set (A := cc k' - ca k' * s). set (B := cc k - ca k * s).
    assert (Q : 0 <= - cb k' * B + cb k * A) by (unfold A, B; lra).
    assert (E : B / cb k - A / cb k' = (- cb k' * B + cb k * A) / (cb k * - cb k')) by (field; lra).
    assert (0 <= (- cb k' * B + cb k * A) / (cb k * - cb k')).
    { apply Rmult_le_pos; [exact Q|]. apply Rlt_le, Rinv_0_lt_compat. nra. }
    lra. }
  exists s, t. intros k Hk. specialize (Ht k Hk). unfold holds. lra.
Qed.
