(** Model of /repo/include/math/version.hpp. *)
From Coq Require Import ZArith List Bool Ascii.
From Verif.Model Require Import Outcome.
Import ListNotations.
Local Open Scope Z_scope.

(** version.hpp:36-41, struct Version: four bytes. *)
Record version := mkVersion { major : Z; minor : Z; patch : Z; build : Z }.

(** version.hpp:51-52, Version(major, minor, patch, build); the arguments are uint8, so the
    conversion from a wider value wraps. *)
Definition versionOf (ma mi pa bu : Z) : version :=
  mkVersion (ma mod 256) (mi mod 256) (pa mod 256) (bu mod 256).

(** version.hpp:57-59, Version(uint32). *)
Definition versionOfUint32 (v : Z) : version :=
  mkVersion (Z.land (Z.shiftr v 24) 255) (Z.land (Z.shiftr v 16) 255)
            (Z.land (Z.shiftr v 8) 255) (Z.land v 255).

(** version.hpp:64-67, operator uint32. *)
Definition versionToUint32 (v : version) : Z :=
  Z.lor (Z.lor (Z.lor (Z.shiftl (major v) 24) (Z.shiftl (minor v) 16))
               (Z.shiftl (patch v) 8)) (build v).

(** version.hpp:73-86, operator[]: reads the i-th byte of the object; beyond it is
    undefined (the assert is compiled out in release builds). *)
Definition versionAt (v : version) (i : Z) : outcome Z :=
  if i =? 0 then Ok (major v) else if i =? 1 then Ok (minor v)
  else if i =? 2 then Ok (patch v) else if i =? 3 then Ok (build v) else UB.

(** version.hpp:88-93, comparison operators. *)
Definition versionLt (a b : version) : bool := versionToUint32 a <? versionToUint32 b.
Definition versionGt (a b : version) : bool := versionToUint32 b <? versionToUint32 a.
Definition versionLe (a b : version) : bool := versionToUint32 a <=? versionToUint32 b.
Definition versionGe (a b : version) : bool := versionToUint32 b <=? versionToUint32 a.
Definition versionEq (a b : version) : bool := versionToUint32 a =? versionToUint32 b.
Definition versionNe (a b : version) : bool := negb (versionToUint32 a =? versionToUint32 b).

(** std::to_string of a uint8 (at most three decimal digits). *)
Definition decDigit (n : Z) : ascii := ascii_of_N (Z.to_N (48 + n)).
Definition byteToString (n : Z) : list ascii :=
  if n <? 10 then [decDigit n]
  else if n <? 100 then [decDigit (n / 10); decDigit (n mod 10)]
  else [decDigit (n / 100); decDigit (n / 10 mod 10); decDigit (n mod 10)].

(** version.hpp:98-122, toString4 .. toString1. *)
Definition versionToString4 (v : version) : list ascii :=
  (byteToString (major v) ++ ["."%char] ++ byteToString (minor v) ++ ["."%char]
   ++ byteToString (patch v) ++ ["."%char] ++ byteToString (build v))%list.
Definition versionToString3 (v : version) : list ascii :=
  (byteToString (major v) ++ ["."%char] ++ byteToString (minor v) ++ ["."%char]
   ++ byteToString (patch v))%list.
Definition versionToString2 (v : version) : list ascii :=
  (byteToString (major v) ++ ["."%char] ++ byteToString (minor v))%list.
Definition versionToString1 (v : version) : list ascii := byteToString (major v).
