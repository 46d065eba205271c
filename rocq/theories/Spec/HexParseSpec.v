(** What a string means to a reader of hexadecimal numbers: optional white space, an optional
    sign, an optional 0x prefix, then the longest run of digits of either case. *)
From Coq Require Import ZArith List Ascii String.
Import ListNotations.
Local Open Scope Z_scope.

Definition lowers : string := "0123456789abcdef".
Definition uppers : string := "0123456789ABCDEF".
Definition hexVal (c : ascii) (d : Z) : Prop :=
  0 <= d < 16 /\ (String.get (Z.to_nat d) lowers = Some c \/ String.get (Z.to_nat d) uppers = Some c).
Definition hexChar (c : ascii) : Prop := exists d, hexVal c d.
(** space, tab, line feed, vertical tab, form feed, carriage return *)
Definition white (c : ascii) : Prop := In (nat_of_ascii c) [32; 9; 10; 11; 12; 13]%nat.

(** Horner value of a digit string *)
Inductive valueOf : Z -> list ascii -> Z -> Prop :=
| value_nil : forall acc, valueOf acc [] acc
| value_cons : forall acc c d s v, hexVal c d -> valueOf (16 * acc + d) s v -> valueOf acc (c :: s) v.

Definition startsHex (s : list ascii) : Prop := exists c t, s = c :: t /\ hexChar c.
(** what follows could extend "0" to a prefix *)
Definition prefixTail (s : list ascii) : Prop :=
  exists x t, s = x :: t /\ (x = "x"%char \/ x = "X"%char) /\ startsHex t.

(** [s] begins with a number of absolute value [v], negative if [neg] *)
Definition reads (s : list ascii) (neg : bool) (v : Z) : Prop :=
  exists sp sg pre ds rest,
    s = (sp ++ sg ++ pre ++ ds ++ rest)%list /\ Forall white sp /\
    ((sg = [] \/ sg = ["+"%char]) /\ neg = false \/ sg = ["-"%char] /\ neg = true) /\
    (pre = [] \/ pre = ["0"%char; "x"%char] \/ pre = ["0"%char; "X"%char]) /\
    ds <> [] /\ valueOf 0 ds v /\ ~ startsHex rest /\
    ~ (pre = [] /\ ds = ["0"%char] /\ prefixTail rest).
