(** C22: the triangle-box test decides whether the two solids share a point. *)
From Coq Require Import Bool List Reals Lra Psatz.
From Verif.Model Require Import Scalar Vec Simd Aabb Matrix Geometry.
From Verif.Spec Require Import GeomSpec EuclidSpec.
From Verif.Proofs Require Import OrdScalar Frustum RealLits AabbMore Euclid SatSeparate TriangleProofs MatrixProofs.
Import ListNotations.
Local Open Scope R_scope.

(** ** Axes *)
Section Axes.
  Variables h v0 v1 v2 : vec4 R.
  Hypothesis Hh : nonneg3 h.
  (** the projections of triangle and box onto [a] are disjoint *)
  Definition rejects (a : vec4 R) : Prop :=
    (absSum h a < dotS a v0 /\ absSum h a < dotS a v1 /\ absSum h a < dotS a v2) \/
    (dotS a v0 < - absSum h a /\ dotS a v1 < - absSum h a /\ dotS a v2 < - absSum h a).
  Definition axX : vec4 R := V4 1 0 0 0.
  Definition axY : vec4 R := V4 0 1 0 0.
  Definition axZ : vec4 R := V4 0 0 1 0.
  Definition crX (e : vec4 R) : vec4 R := V4 0 (- vz e) (vy e) 0.
  Definition crY (e : vec4 R) : vec4 R := V4 (vz e) 0 (- vx e) 0.
  Definition crZ (e : vec4 R) : vec4 R := V4 (- vy e) (vx e) 0 0.
  Let g0 := minusS v1 v0.
  Let g1 := minusS v2 v1.
  Let g2 := minusS v0 v2.
  Definition axes : list (vec4 R) :=
    [crX g0; crX g1; crX g2; crY g0; crY g1; crY g2; crZ g0; crZ g1; crZ g2; axX; axY; axZ; crossS g0 g1].

  (** a direction parallel to a separating one rejects *)
  Lemma rejects_parallel : forall n a c, separates h v0 v1 v2 n ->
    vx n = c * vx a -> vy n = c * vy a -> vz n = c * vz a -> rejects a.
  Proof.
    intros n a c (S0 & S1 & S2) E1 E2 E3. destruct Hh as (Hx & Hy & Hz).
    assert (D : forall v, dotS n v = c * dotS a v) by (intros; unfold dotS; rewrite E1, E2, E3; ring).
    assert (A : absSum h n = Rabs c * absSum h a) by (unfold absSum; rewrite E1, E2, E3, !Rabs_mult; ring).
    assert (P : 0 <= absSum h a).
    { unfold absSum. pose proof (Rabs_pos (vx a)). pose proof (Rabs_pos (vy a)). pose proof (Rabs_pos (vz a)). nra. }
    rewrite D in S0, S1, S2. rewrite A in S0, S1, S2. unfold rejects.
    destruct (Rtotal_order c 0) as [L|[E|G]].
    - right. rewrite Rabs_left in S0, S1, S2 by exact L. repeat split; nra.
    - exfalso. subst c. rewrite Rabs_R0 in S0. lra.
    - left. rewrite Rabs_right in S0, S1, S2 by lra. repeat split; nra.
  Qed.
  (** soundness: a common point lies in both projections *)
  Lemma rejects_sound : forall a u v w, rejects a -> 0 <= u -> 0 <= v -> 0 <= w -> u + v + w = 1 ->
    - vx h <= u * vx v0 + v * vx v1 + w * vx v2 <= vx h ->
    - vy h <= u * vy v0 + v * vy v1 + w * vy v2 <= vy h ->
    - vz h <= u * vz v0 + v * vz v1 + w * vz v2 <= vz h -> False.
  Proof.
    intros a u v w Hr Hu Hv Hw HS Bx By Bz.
    set (q := V4 (u * vx v0 + v * vx v1 + w * vx v2) (u * vy v0 + v * vy v1 + w * vy v2) (u * vz v0 + v * vz v1 + w * vz v2) 0).
    assert (D : dotS a q = u * dotS a v0 + v * dotS a v1 + w * dotS a v2) by (unfold dotS, q; cbn [vx vy vz]; ring).
    assert (One : forall x y k, - k <= y <= k -> - (k * Rabs x) <= x * y <= k * Rabs x).
    { intros x y k H. unfold Rabs. destruct Rcase_abs; split; nra. }
    assert (B : - absSum h a <= dotS a q <= absSum h a).
    { unfold absSum, dotS, q. cbn [vx vy vz]. pose proof (One (vx a) _ _ Bx). pose proof (One (vy a) _ _ By). pose proof (One (vz a) _ _ Bz). lra. }
    rewrite D in B. destruct Hr as [(R0 & R1 & R2)|(R0 & R1 & R2)].
    - assert (u * dotS a v0 + v * dotS a v1 + w * dotS a v2 > absSum h a); [|lra].
      assert (u = 1 - v - w) by lra. subst u.
      assert (0 <= (1 - v - w) * (dotS a v0 - absSum h a)) by (apply Rmult_le_pos; lra).
      assert (0 <= v * (dotS a v1 - absSum h a)) by (apply Rmult_le_pos; lra).
      assert (0 <= w * (dotS a v2 - absSum h a)) by (apply Rmult_le_pos; lra).
      assert (0 < v \/ 0 < w \/ 0 < 1 - v - w) as [K|[K|K]] by lra.
      + assert (0 < v * (dotS a v1 - absSum h a)) by (apply Rmult_lt_0_compat; lra). lra.
      + assert (0 < w * (dotS a v2 - absSum h a)) by (apply Rmult_lt_0_compat; lra). lra.
      + assert (0 < (1 - v - w) * (dotS a v0 - absSum h a)) by (apply Rmult_lt_0_compat; lra). lra.
    - assert (u * dotS a v0 + v * dotS a v1 + w * dotS a v2 < - absSum h a); [|lra].
      assert (u = 1 - v - w) by lra. subst u.
      assert (0 <= (1 - v - w) * (- absSum h a - dotS a v0)) by (apply Rmult_le_pos; lra).
      assert (0 <= v * (- absSum h a - dotS a v1)) by (apply Rmult_le_pos; lra).
      assert (0 <= w * (- absSum h a - dotS a v2)) by (apply Rmult_le_pos; lra).
      assert (0 < v \/ 0 < w \/ 0 < 1 - v - w) as [K|[K|K]] by lra.
      + assert (0 < v * (- absSum h a - dotS a v1)) by (apply Rmult_lt_0_compat; lra). lra.
      + assert (0 < w * (- absSum h a - dotS a v2)) by (apply Rmult_lt_0_compat; lra). lra.
      + assert (0 < (1 - v - w) * (- absSum h a - dotS a v0)) by (apply Rmult_lt_0_compat; lra). lra.
  Qed.

  (** completeness: from any separating direction to one of the axes *)
  (** two components: n perpendicular to an edge with (e_y, e_z) <> 0 etc. *)
  Lemma plane2 : forall a b x y, x * a + y * b = 0 -> a <> 0 \/ b <> 0 -> exists c, x = c * - b /\ y = c * a.
  Proof.
    intros a b x y H Hn. assert (P : 0 < a * a + b * b) by (destruct Hn; nra).
    exists ((y * a - x * b) / (a * a + b * b)). split; apply (Rmult_eq_reg_r (a * a + b * b)); try lra.
    - replace (_ / _ * _ * _) with (- b * (y * a - x * b)) by (field; lra).
      apply Rminus_diag_uniq. replace (_ - _) with (a * (x * a + y * b)) by ring. rewrite H. ring.
    - replace (_ / _ * _ * _) with (a * (y * a - x * b)) by (field; lra).
      apply Rminus_diag_uniq. replace (_ - _) with (b * (x * a + y * b)) by ring. rewrite H. ring.
  Qed.
  Lemma unitX : forall n, separates h v0 v1 v2 n -> vy n = 0 -> vz n = 0 -> rejects axX.
  Proof. intros n S E1 E2. apply (rejects_parallel n axX (vx n) S); cbn [axX vx vy vz]; lra. Qed.
  Lemma unitY : forall n, separates h v0 v1 v2 n -> vx n = 0 -> vz n = 0 -> rejects axY.
  Proof. intros n S E1 E2. apply (rejects_parallel n axY (vy n) S); cbn [axY vx vy vz]; lra. Qed.
  Lemma unitZ : forall n, separates h v0 v1 v2 n -> vx n = 0 -> vy n = 0 -> rejects axZ.
  Proof. intros n S E1 E2. apply (rejects_parallel n axZ (vz n) S); cbn [axZ vx vy vz]; lra. Qed.
  Lemma edgeX : forall n e, separates h v0 v1 v2 n -> vx n = 0 -> vy n * vy e + vz n * vz e = 0 -> vy e <> 0 \/ vz e <> 0 -> rejects (crX e).
  Proof.
    intros n e S E Ho Hn. destruct (plane2 _ _ _ _ Ho Hn) as (c & C1 & C2).
    apply (rejects_parallel n (crX e) c S); unfold crX; cbn [vx vy vz]; lra.
  Qed.
  Lemma edgeY : forall n e, separates h v0 v1 v2 n -> vy n = 0 -> vx n * vx e + vz n * vz e = 0 -> vx e <> 0 \/ vz e <> 0 -> rejects (crY e).
  Proof.
    intros n e S E Ho Hn. destruct (plane2 _ _ _ _ Ho Hn) as (c & C1 & C2).
    apply (rejects_parallel n (crY e) (- c) S); unfold crY; cbn [vx vy vz]; lra.
  Qed.
  Lemma edgeZ : forall n e, separates h v0 v1 v2 n -> vz n = 0 -> vx n * vx e + vy n * vy e = 0 -> vx e <> 0 \/ vy e <> 0 -> rejects (crZ e).
  Proof.
    intros n e S E Ho Hn. destruct (plane2 _ _ _ _ Ho Hn) as (c & C1 & C2).
    apply (rejects_parallel n (crZ e) c S); unfold crZ; cbn [vx vy vz]; lra.
  Qed.
  Lemma normal_axis : forall n, separates h v0 v1 v2 n -> dotS n g0 = 0 -> dotS n g1 = 0 -> nonzeroS (crossS g0 g1) -> rejects (crossS g0 g1).
  Proof.
    intros n S E0 E1 HN. apply nonzero_dot in HN. set (N := crossS g0 g1) in *.
    (* n x (g0 x g1) = g0 (n.g1) - g1 (n.g0) = 0 *)
    assert (C : forall c : vec4 R -> R, c = vx \/ c = vy \/ c = vz -> dotS N N * c n = dotS n N * c N).
    { assert (X1 : vy n * vz N - vz n * vy N = 0).
      { replace (_ - _) with (vx g0 * dotS n g1 - vx g1 * dotS n g0) by (unfold N, dotS, crossS; cbn [vx vy vz]; ring). rewrite E0, E1. ring. }
      assert (X2 : vz n * vx N - vx n * vz N = 0).
      { replace (_ - _) with (vy g0 * dotS n g1 - vy g1 * dotS n g0) by (unfold N, dotS, crossS; cbn [vx vy vz]; ring). rewrite E0, E1. ring. }
      assert (X3 : vx n * vy N - vy n * vx N = 0).
      { replace (_ - _) with (vz g0 * dotS n g1 - vz g1 * dotS n g0) by (unfold N, dotS, crossS; cbn [vx vy vz]; ring). rewrite E0, E1. ring. }
      clear - X1 X2 X3. clearbody N. intros c [->|[->| ->]]; unfold dotS; apply Rminus_diag_uniq.
      - replace (_ - _) with (vy N * (vx n * vy N - vy n * vx N) - vz N * (vz n * vx N - vx n * vz N)) by ring. rewrite X2, X3. ring.
      - replace (_ - _) with (vz N * (vy n * vz N - vz n * vy N) - vx N * (vx n * vy N - vy n * vx N)) by ring. rewrite X1, X3. ring.
      - replace (_ - _) with (vx N * (vz n * vx N - vx n * vz N) - vy N * (vy n * vz N - vz n * vy N)) by ring. rewrite X1, X2. ring. }
    apply (rejects_parallel n N (dotS n N / dotS N N) S);
      apply (Rmult_eq_reg_l (dotS N N)); try lra; rewrite C by auto; field; lra.
  Qed.

  (** signs of the direction are kept fixed while its magnitudes vary *)
  Section Signs.
    Variable s : vec4 R.
    Hypothesis Hs : (vx s = 1 \/ vx s = -1) /\ (vy s = 1 \/ vy s = -1) /\ (vz s = 1 \/ vz s = -1).
    Definition signed (l : vec4 R) : vec4 R := V4 (vx s * vx l) (vy s * vy l) (vz s * vz l) 0.
    Definition column (v : vec4 R) : vec4 R := V4 (vx s * vx v - vx h) (vy s * vy v - vy h) (vz s * vz v - vz h) 0.
    Lemma column_dot : forall l v, 0 <= vx l -> 0 <= vy l -> 0 <= vz l -> dotS l (column v) = dotS (signed l) v - absSum h (signed l).
    Proof.
      intros l v Lx Ly Lz. unfold absSum, signed, column, dotS. cbn [vx vy vz].
      assert (A : forall a x, a = 1 \/ a = -1 -> 0 <= x -> Rabs (a * x) = x).
      { intros a x [->| ->] Hx; [rewrite Rmult_1_l; apply Rabs_right; lra|].
        replace (-1 * x) with (- x) by ring. rewrite Rabs_Ropp. apply Rabs_right. lra. }
      destruct Hs as (S1 & S2 & S3). rewrite !A by assumption. ring.
    Qed.
    Lemma good_separates : forall delta l, 0 < delta -> good3 delta (column v0) (column v1) (column v2) l -> separates h v0 v1 v2 (signed l).
    Proof.
      intros delta l Hd (G1 & G2 & G3 & G4 & G5 & G6). rewrite column_dot in G4, G5, G6 by assumption. unfold separates. lra.
    Qed.
    Lemma nz : forall a, a = 1 \/ a = -1 -> a <> 0.
    Proof. intros a [->| ->]; lra. Qed.
    Theorem signed_axis : forall delta l, 0 < delta -> good3 delta (column v0) (column v1) (column v2) l -> Exists rejects axes.
    Proof.
      intros delta l Hd G. destruct Hs as (S1 & S2 & S3).
      destruct (vertex3 delta _ _ _ l Hd G) as (l' & G' & Hc). clear l G.
      assert (Pick : forall a, In a axes -> rejects a -> Exists rejects axes) by (intros; apply Exists_exists; eauto).
      (* two tight columns give a direction perpendicular to the edge *)
      assert (Perp : forall m a b, good3 delta (column v0) (column v1) (column v2) m -> dotS m (column a) = delta -> dotS m (column b) = delta ->
        dotS (signed m) (minusS b a) = 0).
      { intros m a b (M1 & M2 & M3 & _) Ea Eb. rewrite column_dot in Ea, Eb by assumption.
        replace (dotS (signed m) (minusS b a)) with (dotS (signed m) b - dotS (signed m) a) by (unfold dotS, minusS; cbn [vx vy vz]; ring). lra. }
      destruct Hc as [[Hz|[Hz|Hz]]|Ht].
      - (* x component zero *)
        set (A := (vy (column v0), vz (column v0))). set (B := (vy (column v1), vz (column v1))). set (C := (vy (column v2), vz (column v2))).
        assert (G2 : good2 delta A B C (vy l') (vz l')).
        { destruct G' as (? & ? & ? & E1 & E2 & E3). unfold dotS in E1, E2, E3. rewrite Hz in E1, E2, E3. unfold good2, A, B, C. cbn [fst snd]. repeat split; lra. }
        destruct (vertex2 delta A B C _ _ Hd G2) as (y & z & (Y & Z & D0 & D1 & D2) & Hc).
        set (m := V4 0 y z 0).
        assert (Gm : good3 delta (column v0) (column v1) (column v2) m).
        { unfold good3, m, dotS. cbn [vx vy vz]. unfold A, B, C in *. cbn [fst snd] in *. repeat split; lra. }
        pose proof (good_separates delta m Hd Gm) as Sep.
        assert (Edge : forall a b, tight2 delta (vy (column a), vz (column a)) (vy (column b), vz (column b)) y z -> rejects (crX (minusS b a))).
        { intros a b (T1 & T2 & T3). cbn [fst snd] in *.
          assert (P : dotS (signed m) (minusS b a) = 0) by (apply Perp; [exact Gm|unfold dotS, m; cbn [vx vy vz]; lra|unfold dotS, m; cbn [vx vy vz]; lra]).
          apply (edgeX (signed m)); [exact Sep|unfold signed, m; cbn [vx]; ring| |].
          - unfold dotS in P. cbn [vx signed m] in P. unfold signed in *. cbn [vx vy vz m] in *. lra.
          - destruct (Req_dec (vy (minusS b a)) 0) as [E1|E1]; [|auto]. destruct (Req_dec (vz (minusS b a)) 0) as [E2|E2]; [|auto].
            exfalso. apply T3. unfold minusS in E1, E2. cbn [vy vz] in E1, E2. unfold column. cbn [vy vz].
            replace (vy b) with (vy a) by lra. replace (vz b) with (vz a) by lra. ring. }
        destruct Hc as [Hc|[Hc|[Hc|[Hc|Hc]]]].
        + apply (Pick axZ); [cbn; auto 20|]. apply (unitZ (signed m) Sep); unfold signed, m; cbn [vx vy]; rewrite ?Hc; ring.
        + apply (Pick axY); [cbn; auto 20|]. apply (unitY (signed m) Sep); unfold signed, m; cbn [vx vz]; rewrite ?Hc; ring.
        + apply (Pick (crX g0)); [cbn; auto 20|]. exact (Edge v0 v1 Hc).
        + apply (Pick (crX g2)); [cbn; auto 20|]. apply (Edge v2 v0). destruct Hc as (T1 & T2 & T3). repeat split; try assumption. unfold A, C in T3. cbn [fst snd] in *. lra.
        + apply (Pick (crX g1)); [cbn; auto 20|]. exact (Edge v1 v2 Hc).
      - (* y component zero *)
        set (A := (vx (column v0), vz (column v0))). set (B := (vx (column v1), vz (column v1))). set (C := (vx (column v2), vz (column v2))).
        assert (G2 : good2 delta A B C (vx l') (vz l')).
        { destruct G' as (? & ? & ? & E1 & E2 & E3). unfold dotS in E1, E2, E3. rewrite Hz in E1, E2, E3. unfold good2, A, B, C. cbn [fst snd]. repeat split; lra. }
        destruct (vertex2 delta A B C _ _ Hd G2) as (x & z & (Y & Z & D0 & D1 & D2) & Hc).
        set (m := V4 x 0 z 0).
        assert (Gm : good3 delta (column v0) (column v1) (column v2) m).
        { unfold good3, m, dotS. cbn [vx vy vz]. unfold A, B, C in *. cbn [fst snd] in *. repeat split; lra. }
        pose proof (good_separates delta m Hd Gm) as Sep.
        assert (Edge : forall a b, tight2 delta (vx (column a), vz (column a)) (vx (column b), vz (column b)) x z -> rejects (crY (minusS b a))).
        { intros a b (T1 & T2 & T3). cbn [fst snd] in *.
          assert (P : dotS (signed m) (minusS b a) = 0) by (apply Perp; [exact Gm|unfold dotS, m; cbn [vx vy vz]; lra|unfold dotS, m; cbn [vx vy vz]; lra]).
          apply (edgeY (signed m)); [exact Sep|unfold signed, m; cbn [vy]; ring| |].
          - unfold dotS in P. unfold signed in *. cbn [vx vy vz m] in *. lra.
          - destruct (Req_dec (vx (minusS b a)) 0) as [E1|E1]; [|auto]. destruct (Req_dec (vz (minusS b a)) 0) as [E2|E2]; [|auto].
            exfalso. apply T3. unfold minusS in E1, E2. cbn [vx vz] in E1, E2. unfold column. cbn [vx vz].
            replace (vx b) with (vx a) by lra. replace (vz b) with (vz a) by lra. ring. }
        destruct Hc as [Hc|[Hc|[Hc|[Hc|Hc]]]].
        + apply (Pick axZ); [cbn; auto 20|]. apply (unitZ (signed m) Sep); unfold signed, m; cbn [vx vy]; rewrite ?Hc; ring.
        + apply (Pick axX); [cbn; auto 20|]. apply (unitX (signed m) Sep); unfold signed, m; cbn [vy vz]; rewrite ?Hc; ring.
        + apply (Pick (crY g0)); [cbn; auto 20|]. exact (Edge v0 v1 Hc).
        + apply (Pick (crY g2)); [cbn; auto 20|]. apply (Edge v2 v0). destruct Hc as (T1 & T2 & T3). repeat split; try assumption. unfold A, C in T3. cbn [fst snd] in *. lra.
        + apply (Pick (crY g1)); [cbn; auto 20|]. exact (Edge v1 v2 Hc).
      - (* z component zero *)
        set (A := (vx (column v0), vy (column v0))). set (B := (vx (column v1), vy (column v1))). set (C := (vx (column v2), vy (column v2))).
        assert (G2 : good2 delta A B C (vx l') (vy l')).
        { destruct G' as (? & ? & ? & E1 & E2 & E3). unfold dotS in E1, E2, E3. rewrite Hz in E1, E2, E3. unfold good2, A, B, C. cbn [fst snd]. repeat split; lra. }
        destruct (vertex2 delta A B C _ _ Hd G2) as (x & y & (Y & Z & D0 & D1 & D2) & Hc).
        set (m := V4 x y 0 0).
        assert (Gm : good3 delta (column v0) (column v1) (column v2) m).
        { unfold good3, m, dotS. cbn [vx vy vz]. unfold A, B, C in *. cbn [fst snd] in *. repeat split; lra. }
        pose proof (good_separates delta m Hd Gm) as Sep.
        assert (Edge : forall a b, tight2 delta (vx (column a), vy (column a)) (vx (column b), vy (column b)) x y -> rejects (crZ (minusS b a))).
        { intros a b (T1 & T2 & T3). cbn [fst snd] in *.
          assert (P : dotS (signed m) (minusS b a) = 0) by (apply Perp; [exact Gm|unfold dotS, m; cbn [vx vy vz]; lra|unfold dotS, m; cbn [vx vy vz]; lra]).
          apply (edgeZ (signed m)); [exact Sep|unfold signed, m; cbn [vz]; ring| |].
          - unfold dotS in P. unfold signed in *. cbn [vx vy vz m] in *. lra.
          - destruct (Req_dec (vx (minusS b a)) 0) as [E1|E1]; [|auto]. destruct (Req_dec (vy (minusS b a)) 0) as [E2|E2]; [|auto].
            exfalso. apply T3. unfold minusS in E1, E2. cbn [vx vy] in E1, E2. unfold column. cbn [vx vy].
            replace (vx b) with (vx a) by lra. replace (vy b) with (vy a) by lra. ring. }
        destruct Hc as [Hc|[Hc|[Hc|[Hc|Hc]]]].
        + apply (Pick axY); [cbn; auto 20|]. apply (unitY (signed m) Sep); unfold signed, m; cbn [vx vz]; rewrite ?Hc; ring.
        + apply (Pick axX); [cbn; auto 20|]. apply (unitX (signed m) Sep); unfold signed, m; cbn [vy vz]; rewrite ?Hc; ring.
        + apply (Pick (crZ g0)); [cbn; auto 20|]. exact (Edge v0 v1 Hc).
        + apply (Pick (crZ g2)); [cbn; auto 20|]. apply (Edge v2 v0). destruct Hc as (T1 & T2 & T3). repeat split; try assumption. unfold A, C in T3. cbn [fst snd] in *. lra.
        + apply (Pick (crZ g1)); [cbn; auto 20|]. exact (Edge v1 v2 Hc).
      - (* perpendicular to the whole triangle *)
        destruct Ht as (T0 & T1 & T2 & T3). pose proof (good_separates delta l' Hd G') as Sep.
        apply (Pick (crossS g0 g1)); [cbn; auto 20|].
        apply (normal_axis (signed l')); [exact Sep|apply Perp; assumption|apply Perp; assumption|].
        intros (N1 & N2 & N3). apply T3. unfold g0, g1, crossS, minusS in N1, N2, N3. cbn [vx vy vz] in N1, N2, N3.
        unfold dotS, crossS, column. cbn [vx vy vz].
        (* the determinant of the columns is linear in the normal of the triangle *)
        replace (_ + _) with
          ((vx s * vx v0 - vx h) * (vy s * vz s) * ((vy v1 - vy v0) * (vz v2 - vz v1) - (vz v1 - vz v0) * (vy v2 - vy v1)) +
           (vy s * vy v0 - vy h) * (vz s * vx s) * ((vz v1 - vz v0) * (vx v2 - vx v1) - (vx v1 - vx v0) * (vz v2 - vz v1)) +
           (vz s * vz v0 - vz h) * (vx s * vy s) * ((vx v1 - vx v0) * (vy v2 - vy v1) - (vy v1 - vy v0) * (vx v2 - vx v1))) by ring.
        rewrite N1, N2, N3. ring.
    Qed.
  End Signs.
  Theorem some_axis : forall n, separates h v0 v1 v2 n -> Exists rejects axes.
  Proof.
    intros n (S0 & S1 & S2).
    assert (Sg : forall x, exists a, (a = 1 \/ a = -1) /\ x = a * Rabs x).
    { intros x. unfold Rabs. destruct Rcase_abs; [exists (-1)|exists 1]; split; auto; ring. }
    destruct (Sg (vx n)) as (a & Ha & Ea). destruct (Sg (vy n)) as (b & Hb & Eb). destruct (Sg (vz n)) as (c & Hc & Ec).
    set (s := V4 a b c 0). set (l := V4 (Rabs (vx n)) (Rabs (vy n)) (Rabs (vz n)) 0).
    assert (Hs : (vx s = 1 \/ vx s = -1) /\ (vy s = 1 \/ vy s = -1) /\ (vz s = 1 \/ vz s = -1)) by auto.
    assert (E : signed s l = V4 (vx n) (vy n) (vz n) 0) by (unfold signed, s, l; cbn [vx vy vz]; rewrite <- Ea, <- Eb, <- Ec; reflexivity).
    set (delta := Rmin (dotS n v0 - absSum h n) (Rmin (dotS n v1 - absSum h n) (dotS n v2 - absSum h n))).
    assert (D : 0 < delta /\ delta <= dotS n v0 - absSum h n /\ delta <= dotS n v1 - absSum h n /\ delta <= dotS n v2 - absSum h n).
    { unfold delta, Rmin. repeat destruct Rle_dec; lra. }
    destruct D as (D & D0 & D1 & D2).
    apply (signed_axis s Hs delta l D).
    assert (P : 0 <= vx l /\ 0 <= vy l /\ 0 <= vz l) by (unfold l; cbn [vx vy vz]; auto using Rabs_pos).
    destruct P as (P1 & P2 & P3). unfold good3. rewrite !column_dot by assumption. rewrite E.
    change (dotS (V4 (vx n) (vy n) (vz n) 0)) with (dotS n). change (absSum h (V4 (vx n) (vy n) (vz n) 0)) with (absSum h n).
    repeat split; assumption.
  Qed.
End Axes.

(** ** The code *)
Lemma satAxisR : forall p h (v0 v1 v2 a : vec4 R) r, absSum h a = r ->
  (satAxis p v0 v1 v2 a r = true <-> rejects h v0 v1 v2 a).
Proof.
  intros p h v0 v1 v2 a r <-. unfold satAxis, sgt. rewrite sltR, stdmaxR, vmax3R, vmin3R. unfold of3. cbn [vx vy vz].
  rewrite !dot3R. change (sneg (Scalar := ScalarR)) with Ropp.
  change (vx v0 * vx a + vy v0 * vy a + vz v0 * vz a) with (dotS v0 a).
  change (vx v1 * vx a + vy v1 * vy a + vz v1 * vz a) with (dotS v1 a).
  change (vx v2 * vx a + vy v2 * vy a + vz v2 * vz a) with (dotS v2 a).
  rewrite (dot_sym v0 a), (dot_sym v1 a), (dot_sym v2 a). unfold rejects, Rmax, Rmin.
  generalize (dotS a v0) (dotS a v1) (dotS a v2) (absSum h a). intros x y z k.
  repeat destruct Rle_dec; lra.
Qed.

Lemma touches_centred : forall pos ext t, let v0 := minusS (t0 t) pos in let v1 := minusS (t1 t) pos in let v2 := minusS (t2 t) pos in
  (touches pos ext t <-> exists u v w, 0 <= u /\ 0 <= v /\ 0 <= w /\ u + v + w = 1 /\
      - vx ext <= u * vx v0 + v * vx v1 + w * vx v2 <= vx ext /\
      - vy ext <= u * vy v0 + v * vy v1 + w * vy v2 <= vy ext /\
      - vz ext <= u * vz v0 + v * vz v1 + w * vz v2 <= vz ext).
Proof.
  intros pos ext t v0 v1 v2. unfold v0, v1, v2, minusS. cbn [vx vy vz].
  assert (I : forall u v w x y z c : R, u + v + w = 1 -> u * (x - c) + v * (y - c) + w * (z - c) = u * x + v * y + w * z - c).
  { intros u v w x y z c H. replace (_ + _) with (u * x + v * y + w * z - (u + v + w) * c) by ring. rewrite H. ring. }
  split.
  - intros (q & (u & v & w & U & V & W & HS & C1 & C2 & C3) & B1 & B2 & B3). exists u, v, w.
    rewrite !I by exact HS. rewrite <- C1, <- C2, <- C3. repeat split; lra.
  - intros (u & v & w & U & V & W & HS & B1 & B2 & B3). rewrite !I in * by exact HS.
    exists (V4 (u * vx (t0 t) + v * vx (t1 t) + w * vx (t2 t)) (u * vy (t0 t) + v * vy (t1 t) + w * vy (t2 t)) (u * vz (t0 t) + v * vz (t1 t) + w * vz (t2 t)) 0).
    cbn [vx vy vz]. split; [|repeat split; lra]. exists u, v, w. repeat split; assumption.
Qed.
Lemma rejects_ext : forall h v0 v1 v2 w0 w1 w2 a b, eq3 v0 w0 -> eq3 v1 w1 -> eq3 v2 w2 -> eq3 a b ->
  (rejects h v0 v1 v2 a <-> rejects h w0 w1 w2 b).
Proof.
  intros h v0 v1 v2 w0 w1 w2 a b (A1 & A2 & A3) (B1 & B2 & B3) (C1 & C2 & C3) (D1 & D2 & D3).
  unfold rejects, absSum, dotS. rewrite A1, A2, A3, B1, B2, B3, C1, C2, C3, D1, D2, D3. tauto.
Qed.
Lemma unit_rejects : forall p h (x y z e : R) v0 v1 v2 a w, absSum h a = e -> dotS a v0 = x -> dotS a v1 = y -> dotS a v2 = z ->
  (slt (vmax3 p (V4 x y z w)) (- e)%sc || sgt (vmin3 p (V4 x y z w)) e = true <-> rejects h v0 v1 v2 a).
Proof.
  intros p h x y z e v0 v1 v2 a w <- <- <- <-. unfold sgt. rewrite orb_true_iff, !sltR, vmax3R, vmin3R. cbn [vx vy vz].
  change (sneg (Scalar := ScalarR)) with Ropp. unfold rejects.
  generalize (dotS a v0) (dotS a v1) (dotS a v2) (absSum h a). intros. unfold Rmax, Rmin. repeat destruct Rle_dec; lra.
Qed.
Lemma if_chain : forall (b : bool) (x : bool), (if b then false else x) = true <-> b = false /\ x = true.
Proof. intros [] []; split; intros; intuition congruence. Qed.
Lemma or_chain : forall b1 b2 b3 b4 b5 b6, b1 || (b2 || (b3 || (b4 || (b5 || b6)))) = true <->
  b1 || b2 = true \/ b3 || b4 = true \/ b5 || b6 = true.
Proof. intros. rewrite !orb_true_iff. tauto. Qed.
Theorem isAabbIntersected_R : forall p pos ext t, nonneg3 ext ->
  (isAabbIntersected p pos ext t = true <-> touches pos ext t).
Proof.
  intros p pos ext t Hh. rewrite touches_centred.
  set (w0 := minusS (t0 t) pos). set (w1 := minusS (t1 t) pos). set (w2 := minusS (t2 t) pos).
  assert (Iff : (exists u v w, 0 <= u /\ 0 <= v /\ 0 <= w /\ u + v + w = 1 /\
      - vx ext <= u * vx w0 + v * vx w1 + w * vx w2 <= vx ext /\
      - vy ext <= u * vy w0 + v * vy w1 + w * vy w2 <= vy ext /\
      - vz ext <= u * vz w0 + v * vz w1 + w * vz w2 <= vz ext) <-> ~ Exists (rejects ext w0 w1 w2) (axes w0 w1 w2)).
  { split.
    - intros (u & v & w & U & V & W & HS & B1 & B2 & B3) Hx. apply Exists_exists in Hx. destruct Hx as (a & _ & Ha).
      exact (rejects_sound ext w0 w1 w2 a u v w Ha U V W HS B1 B2 B3).
    - intros Hx. destruct (separating_direction ext w0 w1 w2 Hh) as [H|(n & Hn)]; [exact H|].
      exfalso. apply Hx. exact (some_axis ext w0 w1 w2 Hh n Hn). }
  rewrite Iff. clear Iff.
  set (v0 := vsub (t0 t) pos). set (v1 := vsub (t1 t) pos). set (v2 := vsub (t2 t) pos).
  assert (E0 : eq3 v0 w0) by (repeat split). assert (E1 : eq3 v1 w1) by (repeat split). assert (E2 : eq3 v2 w2) by (repeat split).
  assert (AO : forall x, Rabs (- x) = Rabs x) by apply Rabs_Ropp. assert (AZ : Rabs 0 = 0) by apply Rabs_R0.
  assert (A1 : Rabs 1 = 1) by apply Rabs_R1.
  unfold axes. set (g0 := minusS w1 w0). set (g1 := minusS w2 w1). set (g2 := minusS w0 w2).
  assert (SX : forall g g', eq3 g g' -> (satAxis p v0 v1 v2 (of3 f0 (- vz g)%sc (vy g)) (vy ext * sabs (vz g) + vz ext * sabs (vy g))%sc = true <-> rejects ext w0 w1 w2 (crX g'))).
  { intros g g' (G1 & G2 & G3). rewrite (satAxisR p ext).
    - apply rejects_ext; auto. unfold of3, crX. rewrite f0R. repeat split; cbn [vx vy vz]; cbn; congruence.
    - unfold absSum, of3. cbn [vx vy vz]. rewrite f0R. cbn [sneg sabs sadd smul ScalarR]. rewrite AO, AZ. ring. }
  assert (SY : forall g g', eq3 g g' -> (satAxis p v0 v1 v2 (of3 (vz g) f0 (- vx g)%sc) (vx ext * sabs (vz g) + vz ext * sabs (vx g))%sc = true <-> rejects ext w0 w1 w2 (crY g'))).
  { intros g g' (G1 & G2 & G3). rewrite (satAxisR p ext).
    - apply rejects_ext; auto. unfold of3, crY. rewrite f0R. repeat split; cbn [vx vy vz]; cbn; congruence.
    - unfold absSum, of3. cbn [vx vy vz]. rewrite f0R. cbn [sneg sabs sadd smul ScalarR]. rewrite AO, AZ. ring. }
  assert (SZ : forall g g', eq3 g g' -> (satAxis p v0 v1 v2 (of3 (- vy g)%sc (vx g) f0) (vx ext * sabs (vy g) + vy ext * sabs (vx g))%sc = true <-> rejects ext w0 w1 w2 (crZ g'))).
  { intros g g' (G1 & G2 & G3). rewrite (satAxisR p ext).
    - apply rejects_ext; auto. unfold of3, crZ. rewrite f0R. repeat split; cbn [vx vy vz]; cbn; congruence.
    - unfold absSum, of3. cbn [vx vy vz]. rewrite f0R. cbn [sneg sabs sadd smul ScalarR]. rewrite AO, AZ. ring. }
  unfold isAabbIntersected. fold v0 v1 v2. cbv zeta.
  assert (F0 : eq3 (vsub v1 v0) g0) by (repeat split). assert (F1 : eq3 (vsub v2 v1) g1) by (repeat split). assert (F2 : eq3 (vsub v0 v2) g2) by (repeat split).
  rewrite !if_chain. rewrite <- !not_true_iff_false.
  rewrite (SX _ _ F0), (SX _ _ F1), (SX _ _ F2), (SY _ _ F0), (SY _ _ F1), (SY _ _ F2), (SZ _ _ F0), (SZ _ _ F1), (SZ _ _ F2).
  clear SX SY SZ.
  (* the box axes *)
  assert (T : exists a b c, c0 (transpose3x3 p (M4 v0 v1 v2 (dup4 f0))) = V4 (vx v0) (vx v1) (vx v2) a /\
    c1 (transpose3x3 p (M4 v0 v1 v2 (dup4 f0))) = V4 (vy v0) (vy v1) (vy v2) b /\
    c2 (transpose3x3 p (M4 v0 v1 v2 (dup4 f0))) = V4 (vz v0) (vz v1) (vz v2) c).
  { clearbody v0 v1 v2. destruct v0 as [x0 y0 z0 q0], v1 as [x1 y1 z1 q1], v2 as [x2 y2 z2 q2]. destruct p; repeat eexists; reflexivity. }
  destruct T as (ta & tb & tc & Ta & Tb & Tc). rewrite Ta, Tb, Tc. clear Ta Tb Tc.
  rewrite <- !orb_assoc.
  rewrite or_chain.
  rewrite (unit_rejects p ext _ _ _ (vx ext) w0 w1 w2 axX ta), (unit_rejects p ext _ _ _ (vy ext) w0 w1 w2 axY tb), (unit_rejects p ext _ _ _ (vz ext) w0 w1 w2 axZ tc);
    try (unfold absSum, dotS, axX, axY, axZ, v0, v1, v2, w0, w1, w2, minusS, vsub, map2_4; cbn [vx vy vz ssub ScalarR]; rewrite ?A1, ?AZ; ring).
  (* the normal *)
  assert (NN : sle (sabs (dot3 p (cross3 p (vsub v1 v0) (vsub v2 v1)) v0))
      (vx ext * sabs (vx (cross3 p (vsub v1 v0) (vsub v2 v1))) + vy ext * sabs (vy (cross3 p (vsub v1 v0) (vsub v2 v1))) + vz ext * sabs (vz (cross3 p (vsub v1 v0) (vsub v2 v1))))%sc = true
      <-> ~ rejects ext w0 w1 w2 (crossS g0 g1)).
  { destruct (cross3R p (vsub v1 v0) (vsub v2 v1)) as (C1 & C2 & C3). rewrite sleR, dot3R, C1, C2, C3.
    change (crossS (vsub v1 v0) (vsub v2 v1)) with (crossS g0 g1).
    change (vx v0) with (vx w0). change (vy v0) with (vy w0). change (vz v0) with (vz w0).
    set (N := crossS g0 g1). change (sabs (Scalar := ScalarR)) with Rabs. cbn [sadd smul ScalarR].
    fold (absSum ext N). fold (dotS N w0).
    assert (D1 : dotS N w1 = dotS N w0) by (unfold N, g0, g1, dotS, crossS, minusS; cbn [vx vy vz]; ring).
    assert (D2 : dotS N w2 = dotS N w0) by (unfold N, g0, g1, dotS, crossS, minusS; cbn [vx vy vz]; ring).
    unfold rejects. rewrite D1, D2. unfold Rabs. destruct Rcase_abs; lra. }
  rewrite NN. clear NN.
  rewrite !Exists_cons, Exists_nil. tauto.
Qed.
