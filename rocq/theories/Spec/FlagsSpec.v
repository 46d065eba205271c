(** A flag value as the set of its bits. *)
From Coq Require Import ZArith.
Local Open Scope Z_scope.

Definition wfFlag (w a : Z) : Prop := 0 <= a < 2 ^ w.

(** Flag [i] is a member of the flag set [a]. *)
Definition member (i a : Z) : Prop := Z.testbit a i = true.
