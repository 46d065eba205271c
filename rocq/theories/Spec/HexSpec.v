(** What a hexadecimal numeral means: the positional value of a string over the
    alphabet 0-9 A-F (upper case).  Independent of the model of toHex. *)
From Coq Require Import ZArith List Ascii String.
Local Open Scope Z_scope.

Definition alphabet : string := "0123456789ABCDEF".

(** [isDigitOf c d]: character [c] denotes the digit [d]. *)
Definition isDigitOf (c : ascii) (d : Z) : Prop :=
  0 <= d < 16 /\ String.get (Z.to_nat d) alphabet = Some c.

(** [denotes s v]: the numeral [s] (most significant digit first) has value [v]. *)
Inductive denotes : list ascii -> Z -> Prop :=
| denotes_nil : denotes nil 0
| denotes_snoc : forall s v c d, denotes s v -> isDigitOf c d ->
    denotes (s ++ c :: nil)%list (16 * v + d).
