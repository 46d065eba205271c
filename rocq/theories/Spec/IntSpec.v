(** Specifications for the integer vectors. *)
From Coq Require Import ZArith List.
From Verif.Model Require Import Outcome Vec IntVec.
From Verif.Spec Require Import OrderSpec.
Import ListNotations.
Local Open Scope Z_scope.
Local Open Scope outcome_scope.

(** The lanes of a vector, in memory order. *)
Definition lanes2 {A} (v : vec2 A) : list A := [x2 v; y2 v].
Definition lanes3 {A} (v : vec3 A) : list A := [x3 v; y3 v; z3 v].
Definition lanes4 {A} (v : vec4 A) : list A := [vx v; vy v; vz v; vw v].

(** The relation named by a comparison operator. *)
Definition relOf (c : cmp) (a b : Z) : Prop :=
  match c with
  | CLt => a < b
  | CGt => a > b
  | CLe => a <= b
  | CGe => a >= b
  | CEq => a = b
  | CNe => a <> b
  end.

(** [R] holds for one pair of corresponding elements. *)
Inductive Exists2 {A B} (R : A -> B -> Prop) : list A -> list B -> Prop :=
| Ex_here : forall a b l m, R a b -> Exists2 R (a :: l) (b :: m)
| Ex_there : forall a b l m, Exists2 R l m -> Exists2 R (a :: l) (b :: m).

(** A mask lane: all 32 bits set when [P] holds, all clear otherwise. *)
Definition maskFor (P : Prop) (m : Z) : Prop := (P /\ m = 2 ^ 32 - 1) \/ (~ P /\ m = 0).

(** The lane-by-lane relation between two vectors and a result. *)
Inductive Forall3 {A B C} (R : A -> B -> C -> Prop) : list A -> list B -> list C -> Prop :=
| F3_nil : Forall3 R [] [] []
| F3_cons : forall a b c l m n, R a b c -> Forall3 R l m n -> Forall3 R (a :: l) (b :: m) (c :: n).

(** What an unsigned operator must return on one lane; [None] where C++ leaves it
    undefined.  Quotient and remainder are described by Euclid's equation, shifts by powers of
    two, bit operations bit by bit. *)
Definition bits (f : bool -> bool -> bool) (a b r : Z) : Prop :=
  forall i, 0 <= i -> Z.testbit r i = f (Z.testbit a i) (Z.testbit b i).
Definition uRes (o : iop) (a b r : Z) : Prop :=
  u32 r /\
  match o with
  | OAdd => exists k, a + b = r + k * 2 ^ 32
  | OSub => exists k, a - b = r + k * 2 ^ 32
  | OMul => exists k, a * b = r + k * 2 ^ 32
  | ODiv => b * r <= a < b * (r + 1)
  | OMod => r < b /\ exists q, a = b * q + r
  | OAnd => bits andb a b r
  | OOr => bits orb a b r
  | OXor => bits xorb a b r
  | OShr => 2 ^ b * r <= a < 2 ^ b * (r + 1)
  | OShl => exists k, a * 2 ^ b = r + k * 2 ^ 32
  end.
(** When the unsigned operator is undefined. *)
Definition uUndef (o : iop) (a b : Z) : Prop :=
  match o with
  | ODiv | OMod => b = 0
  | OShr | OShl => 32 <= b
  | _ => False
  end.

(** The signed operators: exact results. *)
Definition iRes (o : iop) (a b r : Z) : Prop :=
  i32 r /\
  match o with
  | OAdd => r = a + b
  | OSub => r = a - b
  | OMul => r = a * b
  | ODiv => exists m, a = b * r + m /\ Z.abs m < Z.abs b /\ (m = 0 \/ Z.sgn m = Z.sgn a)
  | OMod => Z.abs r < Z.abs b /\ (r = 0 \/ Z.sgn r = Z.sgn a) /\ exists q, a = b * q + r
  | OAnd => bits andb a b r
  | OOr => bits orb a b r
  | OXor => bits xorb a b r
  | OShr => 2 ^ b * r <= a < 2 ^ b * (r + 1)
  | OShl => exists k, a * 2 ^ b = r + k * 2 ^ 32
  end.
Definition iUndef (o : iop) (a b : Z) : Prop :=
  match o with
  | OAdd => ~ i32 (a + b)
  | OSub => ~ i32 (a - b)
  | OMul => ~ i32 (a * b)
  | ODiv | OMod => b = 0 \/ (a = - 2 ^ 31 /\ b = -1)
  | OShr => ~ (0 <= b < 32)
  | OShl => ~ (0 <= b < 32) \/ a < 0 \/ 2 ^ 32 <= a * 2 ^ b
  | _ => False
  end.

(** Commutative ring laws for operations that may be undefined. *)
Definition always {A} (P : A -> Prop) (o : outcome A) : Prop := exists r, o = Ok r /\ P r.
Definition ringLaws {A} (P : A -> Prop) (add sub mul : A -> A -> outcome A) (zero one : A) : Prop :=
  forall a b c, P a -> P b -> P c ->
    always P (add a b) /\ always P (sub a b) /\ always P (mul a b) /\
    add a b = add b a /\
    (t <- add a b;; add t c) = (t <- add b c;; add a t) /\
    add a zero = Ok a /\ sub a a = Ok zero /\ (t <- sub a b;; add t b) = Ok a /\
    mul a b = mul b a /\
    (t <- mul a b;; mul t c) = (t <- mul b c;; mul a t) /\
    mul a one = Ok a /\
    (t <- add b c;; mul a t) = (s <- mul a b;; t <- mul a c;; add s t).

(** The largest n with 2^n <= size, plus one: the number of mip levels. *)
Definition isMipCount (size n : Z) : Prop := 1 <= n /\ 2 ^ (n - 1) <= size < 2 ^ n.
(** The extent of a mip level: floor(size / 2^mip), but at least one. *)
Definition isMipSize (size mip s : Z) : Prop :=
  (2 ^ mip <= size /\ s * 2 ^ mip <= size < (s + 1) * 2 ^ mip) \/ (size < 2 ^ mip /\ s = 1).

(** [r] is [t] when [P] holds and [f] otherwise. *)
Definition chosen {A} (P : Prop) (t f r : A) : Prop := (P /\ r = t) \/ (~ P /\ r = f).
(** The least and greatest element of a list. *)
Definition least (m : Z) (l : list Z) : Prop := In m l /\ Forall (fun x => m <= x) l.
Definition greatest (m : Z) (l : list Z) : Prop := In m l /\ Forall (fun x => x <= m) l.
(** A number below 2^31, and two numbers on the same side of 2^31. *)
Definition low31 (x : Z) : Prop := 0 <= x < 2 ^ 31.
Definition sameHalf (a b : Z) : Prop := a < 2 ^ 31 <-> b < 2 ^ 31.
(** The top bit of each byte is set, or clear. *)
Definition byteTopsSet (x : Z) : Prop :=
  Z.testbit x 7 = true /\ Z.testbit x 15 = true /\ Z.testbit x 23 = true /\ Z.testbit x 31 = true.
Definition byteTopsClear (x : Z) : Prop :=
  Z.testbit x 7 = false /\ Z.testbit x 15 = false /\ Z.testbit x 23 = false /\ Z.testbit x 31 = false.
