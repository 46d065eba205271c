(** Reading texts back: words, decimal integers and decimal fractions.  Nothing here refers to the
    model. *)
From Coq Require Import ZArith List Bool Ascii Reals.
Import ListNotations.
Local Open Scope Z_scope.

(** the pieces of s between occurrences of c *)
Fixpoint splitAt (c : ascii) (s : list ascii) : list (list ascii) :=
  match s with
  | [] => [[]]
  | a :: r => if Ascii.eqb a c then [] :: splitAt c r
              else match splitAt c r with w :: ws => (a :: w) :: ws | [] => [[a]] end
  end.
Definition digitOf (c : ascii) : option Z :=
  let n := Z.of_N (N_of_ascii c) - 48 in if (0 <=? n) && (n <=? 9) then Some n else None.
Fixpoint readDigits (acc : Z) (s : list ascii) : option Z :=
  match s with
  | [] => Some acc
  | c :: r => match digitOf c with Some d => readDigits (10 * acc + d) r | None => None end
  end.
(** one or more decimal digits *)
Definition readNat (s : list ascii) : option Z := match s with [] => None | _ => readDigits 0 s end.
(** an optional minus sign and digits *)
Definition readInt (s : list ascii) : option Z :=
  match s with
  | c :: r => if Ascii.eqb c "-"%char then option_map Z.opp (readNat r) else readNat s
  | [] => None
  end.
(** no superfluous zero at the front *)
Definition canonical (s : list ascii) : Prop :=
  match s with
  | c :: d :: r => c <> "0"%char /\ (c = "-"%char -> d <> "0"%char)
  | _ => True
  end.
Fixpoint allSome {A} (l : list (option A)) : option (list A) :=
  match l with
  | [] => Some []
  | Some a :: r => option_map (cons a) (allSome r)
  | None :: _ => None
  end.
(** integers separated by one space *)
Definition readInts (s : list ascii) : option (list Z) := allSome (map readInt (splitAt " "%char s)).
(** a decimal number with a point: digits, point, digits, with an optional minus sign *)
Definition readUnsignedDec (s : list ascii) : option R :=
  match splitAt "."%char s with
  | [i; f] => match readNat i, readNat f with
              | Some a, Some b => Some (IZR a + IZR b / 10 ^ length f)%R
              | _, _ => None
              end
  | _ => None
  end.
Definition readDec (s : list ascii) : option R :=
  match s with
  | c :: r => if Ascii.eqb c "-"%char then option_map Ropp (readUnsignedDec r) else readUnsignedDec s
  | [] => None
  end.
Definition readDecs (s : list ascii) : option (list R) := allSome (map readDec (splitAt " "%char s)).
(** d is the value x cut to six decimals, to nearest *)
Definition sixDecimals (x d : R) : Prop := (Rabs (d - x) <= 5 / 10000000 /\ exists n : Z, d = IZR n / 1000000)%R.
