(** Model of /repo/include/math/hex.hpp. Strings are lists of characters. *)
From Coq Require Import ZArith List Ascii Bool.
From Verif.Model Require Import Outcome.
Import ListNotations.
Local Open Scope Z_scope.

(** hex.hpp:34, the digit table "0123456789ABCDEF". *)
Definition hexDigits : list ascii :=
  ["0";"1";"2";"3";"4";"5";"6";"7";"8";"9";"A";"B";"C";"D";"E";"F"]%char.

(** hex.hpp:37, [digits[n]]; the index is always in 0..15 because of the mask. *)
Definition hexDigit (n : Z) : ascii := nth (Z.to_nat n) hexDigits "0"%char.

(** hex.hpp:36-37, the loop of toHex with [k] characters still to be written; the next
    one uses the shift j = (k-1)*4.  [w] is the width of the (promoted) operand type:
    shifting by [w] or more is undefined.  [value] is the mathematical value of the
    argument; [>>] of a negative value is arithmetic. *)
Fixpoint toHexLoop (w value : Z) (k : nat) : outcome (list ascii) :=
  match k with
  | O => Ok nil
  | S k' =>
      if w <=? 4 * Z.of_nat k' then UB
      else bind (toHexLoop w value k')
             (fun rest => Ok (hexDigit (Z.land (Z.shiftr value (4 * Z.of_nat k')) 15) :: rest))
  end.

(** hex.hpp:32-39, toHex(value, length). *)
Definition toHex (w value : Z) (length : nat) : outcome (list ascii) :=
  toHexLoop w value length.

(** std::stoul/std::stoull (str, nullptr, 16), the C++ library functions called by
    hex.hpp:45 and hex.hpp:50, following [strtoul]: leading white space, optional sign,
    optional 0x prefix, then the longest run of hexadecimal digits.  [bits] is the width of
    the result type.  Both failure modes throw, and toInt32/toInt64 are noexcept, so they
    end in std::terminate, i.e. abort(). *)
Definition isSpace (c : ascii) : bool :=
  let n := N_of_ascii c in ((n =? 32) || ((9 <=? n) && (n <=? 13)))%N.

Definition digitVal (c : ascii) : option Z :=
  let n := Z.of_N (N_of_ascii c) in
  if (48 <=? n) && (n <=? 57) then Some (n - 48)
  else if (65 <=? n) && (n <=? 70) then Some (n - 55)
  else if (97 <=? n) && (n <=? 102) then Some (n - 87)
  else None.

Fixpoint skipSpaces (s : list ascii) : list ascii :=
  match s with
  | c :: t => if isSpace c then skipSpaces t else s
  | nil => nil
  end.

Definition takeSign (s : list ascii) : bool * list ascii :=
  match s with
  | c :: t => if Ascii.eqb c "-" then (true, t)
              else if Ascii.eqb c "+" then (false, t) else (false, s)
  | nil => (false, nil)
  end.

Definition skipPrefix (s : list ascii) : list ascii :=
  match s with
  | a :: b :: c :: t =>
      if Ascii.eqb a "0" && (Ascii.eqb b "x" || Ascii.eqb b "X")
         && match digitVal c with Some _ => true | None => false end
      then c :: t else s
  | _ => s
  end.

Fixpoint parseDigits (s : list ascii) (acc : Z) : Z :=
  match s with
  | c :: t => match digitVal c with Some d => parseDigits t (acc * 16 + d) | None => acc end
  | nil => acc
  end.

Definition startsWithDigit (s : list ascii) : bool :=
  match s with
  | c :: _ => match digitVal c with Some _ => true | None => false end
  | nil => false
  end.

Definition stoul16 (bits : Z) (str : list ascii) : outcome Z :=
  let '(neg, s2) := takeSign (skipSpaces str) in
  let s3 := skipPrefix s2 in
  if startsWithDigit s3 then
    let v := parseDigits s3 0 in
    if 2 ^ bits <=? v then Abort
    else Ok (if neg then (- v) mod 2 ^ bits else v)
  else Abort.

(** hex.hpp:45, toInt32: the unsigned long result ([ulbits] = 32 or 64 bits depending on the
    platform) is truncated to uint32. *)
Definition toInt32 (ulbits : Z) (hex : list ascii) : outcome Z :=
  omap (fun v => v mod 2 ^ 32) (stoul16 ulbits hex).

(** hex.hpp:50, toInt64. *)
Definition toInt64 (hex : list ascii) : outcome Z := stoul16 64 hex.
