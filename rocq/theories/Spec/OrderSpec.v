(** Orders used in the specifications. *)
From Coq Require Import ZArith List.
Import ListNotations.
Local Open Scope Z_scope.

(** Lexicographic comparison of equally long sequences, most significant first. *)
Fixpoint lexLt (a b : list Z) : Prop :=
  match a, b with
  | x :: a', y :: b' => x < y \/ (x = y /\ lexLt a' b')
  | _, _ => False
  end.

(** A boolean relation is a strict total order on the elements satisfying [P]. *)
Definition strictTotalOrder {A : Type} (P : A -> Prop) (lt : A -> A -> bool) : Prop :=
  (forall a, P a -> lt a a = false) /\
  (forall a b c, P a -> P b -> P c -> lt a b = true -> lt b c = true -> lt a c = true) /\
  (forall a b, P a -> P b -> lt a b = true \/ a = b \/ lt b a = true).

(** A byte. *)
Definition byte (x : Z) : Prop := 0 <= x < 256.
(** A uint32 and an int32. *)
Definition u32 (x : Z) : Prop := 0 <= x < 2 ^ 32.
Definition i32 (x : Z) : Prop := - 2 ^ 31 <= x < 2 ^ 31.
