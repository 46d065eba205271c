(** Points, planes, segments, triangles and balls of Euclidean space; a point is given by
    the first three lanes of a vector. *)
From Coq Require Import Reals.
From Verif.Model Require Import Scalar Vec Simd Aabb Geometry.
From Verif.Spec Require Import GeomSpec.
Local Open Scope R_scope.

Definition dotS (a b : vec4 R) : R := vx a * vx b + vy a * vy b + vz a * vz b.
(** Euclidean distance *)
Definition distS (a b : vec4 R) : R :=
  sqrt ((vx a - vx b)² + (vy a - vy b)² + (vz a - vz b)²).
Definition crossS (a b : vec4 R) : vec4 R :=
  V4 (vy a * vz b - vz a * vy b) (vz a * vx b - vx a * vz b) (vx a * vy b - vy a * vx b) 0.
Definition minusS (a b : vec4 R) : vec4 R := V4 (vx a - vx b) (vy a - vy b) (vz a - vz b) 0.
Definition nonzeroS (a : vec4 R) : Prop := ~ (vx a = 0 /\ vy a = 0 /\ vz a = 0).

(** [q] is in the set [P] and no element of [P] is nearer to [x] *)
Definition isNearest (P : vec4 R -> Prop) (x q : vec4 R) : Prop :=
  P q /\ forall r, P r -> distS x q <= distS x r.

(** the plane with equation n.q + w = 0 *)
Definition onPlane (pl q : vec4 R) : Prop := dotS pl q + vw pl = 0.
Definition onSegment (a b q : vec4 R) : Prop := exists t, 0 <= t <= 1 /\
  vx q = vx a + t * (vx b - vx a) /\ vy q = vy a + t * (vy b - vy a) /\ vz q = vz a + t * (vz b - vz a).
Definition onRay (o d q : vec4 R) : Prop := exists t, 0 <= t /\
  vx q = vx o + t * vx d /\ vy q = vy o + t * vy d /\ vz q = vz o + t * vz d.
(** [q] is the combination of the corners with the given weights *)
Definition combination (t : triangle R) (u v w : R) (q : vec4 R) : Prop :=
  vx q = u * vx (t0 t) + v * vx (t1 t) + w * vx (t2 t) /\
  vy q = u * vy (t0 t) + v * vy (t1 t) + w * vy (t2 t) /\
  vz q = u * vz (t0 t) + v * vz (t1 t) + w * vz (t2 t).
(** the solid triangle: convex combinations of its corners *)
Definition inTriangle (t : triangle R) (q : vec4 R) : Prop :=
  exists u v w, 0 <= u /\ 0 <= v /\ 0 <= w /\ u + v + w = 1 /\ combination t u v w q.
(** normal of a triangle; non-degenerate triangles have a non-zero one *)
Definition normalS (t : triangle R) : vec4 R := crossS (minusS (t1 t) (t0 t)) (minusS (t2 t) (t0 t)).
Definition inPlaneOf (t : triangle R) (q : vec4 R) : Prop := dotS (normalS t) (minusS q (t0 t)) = 0.
Definition onLine (a b q : vec4 R) : Prop := exists s,
  vx q = vx a + s * (vx b - vx a) /\ vy q = vy a + s * (vy b - vy a) /\ vz q = vz a + s * (vz b - vz a).
(** the ball of radius [vw s] around [s], and the surface of it *)
Definition inBall (s q : vec4 R) : Prop := distS s q <= vw s.
Definition onSphere (s q : vec4 R) : Prop := distS s q = vw s.
Definition nonneg3 (h : vec4 R) : Prop := 0 <= vx h /\ 0 <= vy h /\ 0 <= vz h.
(** the solid triangle and the solid box around [position] share a point *)
Definition touches (position extent : vec4 R) (t : triangle R) : Prop :=
  exists q, inTriangle t q /\
    vx position - vx extent <= vx q <= vx position + vx extent /\
    vy position - vy extent <= vy q <= vy position + vy extent /\
    vz position - vz extent <= vz q <= vz position + vz extent.
