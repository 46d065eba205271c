(** Model of /repo/include/math/flags.hpp (the operators declared by
    DECLARE_ENUM_CLASS_FLAG_OPERATORS).  A flag value is a [Z] in [0, 2^w) where [w] is the
    width of the enum's unsigned underlying type (8, 16, 32 or 64).  Conversion to uint64
    keeps the value, conversion back wraps modulo 2^w.  Signed underlying types are not
    modelled. *)
From Coq Require Import ZArith Bool.
Local Open Scope Z_scope.

(** The cast (enumType)x. *)
Definition toEnum (w x : Z) : Z := x mod 2 ^ w.

(** flags.hpp:25-28 *)
Definition flagOr (w a b : Z) : Z := toEnum w (Z.lor a b).
(** flags.hpp:29-32 *)
Definition flagAnd (w a b : Z) : Z := toEnum w (Z.land a b).
(** flags.hpp:33-36 *)
Definition flagXor (w a b : Z) : Z := toEnum w (Z.lxor a b).
(** flags.hpp:37-40: logical not, 0 or 1 *)
Definition flagNot (w a : Z) : Z := toEnum w (if a =? 0 then 1 else 0).
(** flags.hpp:41-44: complement of a uint64 *)
Definition flagCompl (w a : Z) : Z := toEnum w (2 ^ 64 - 1 - a).
(** flags.hpp:45-56: the assigning operators return the new value *)
Definition flagOrAssign (w a b : Z) : Z := flagOr w a b.
Definition flagAndAssign (w a b : Z) : Z := flagAnd w a b.
Definition flagXorAssign (w a b : Z) : Z := flagXor w a b.
(** flags.hpp:57-60: the uint64 converted to bool *)
Definition hasAnyFlag (w a flags : Z) : bool := negb (flagAnd w a flags =? 0).
(** flags.hpp:61-64 *)
Definition hasOneFlag (w a flag : Z) : bool := flagAnd w a flag =? a.
