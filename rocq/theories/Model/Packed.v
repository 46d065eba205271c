(** Model of /repo/include/math/packed-vector.hpp for the three supported widths.

    The container publicly derives from std::vector<uint8> and keeps a raw pointer [ptr] to
    the vector's storage.  Storage is modelled by a heap mapping buffer identifiers to byte
    lists, so that the aliasing created by the implicitly generated copy constructor is
    visible. *)
From Coq Require Import ZArith List Bool.
From Verif.Model Require Import Outcome.
Import ListNotations.
Local Open Scope Z_scope.

(** packed-vector.hpp:36, the supported element widths. *)
Inductive width := W1 | W2 | W4.
Definition wbits (w : width) : Z := match w with W1 => 1 | W2 => 2 | W4 => 4 end.
(** Elements per byte: the divisors 8, 4 and 2 of packed-vector.hpp:47-55. *)
Definition perByte (w : width) : Z := match w with W1 => 8 | W2 => 4 | W4 => 2 end.
(** The masks 0x01, 0x03 and 0x0F. *)
Definition wmask (w : width) : Z := match w with W1 => 1 | W2 => 3 | W4 => 15 end.

(** The shift (uint8)(i % 8), (uint8)((i % 4) * 2), (uint8)((i % 2) * 4). *)
Definition shiftOf (w : width) (i : Z) : Z := (i mod perByte w) * wbits w.

(** packed-vector.hpp:43-58 on the byte that holds element [i]. *)
Definition getByte (w : width) (byte i : Z) : Z :=
  Z.land (Z.shiftr byte (shiftOf w i)) (wmask w).

(** packed-vector.hpp:70-87 on the byte that holds element [i]: operands are promoted to
    int, [~] is the int complement, and the result is truncated to uint8. *)
Definition setByte (w : width) (byte i value : Z) : Z :=
  Z.lor (Z.land byte (Z.lnot (Z.shiftl (wmask w) (shiftOf w i))))
        (Z.shiftl (Z.land value (wmask w)) (shiftOf w i)) mod 256.

Fixpoint updNth {A} (n : nat) (x : A) (l : list A) : list A :=
  match l, n with
  | nil, _ => nil
  | _ :: t, O => x :: t
  | a :: t, S n' => a :: updNth n' x t
  end.

(** Access through [ptr] to a buffer: outside the buffer is undefined. *)
Definition bufGet (w : width) (buf : list Z) (i : Z) : outcome Z :=
  if (i <? 0) then UB else
  match nth_error buf (Z.to_nat (i / perByte w)) with
  | Some byte => Ok (getByte w byte i)
  | None => UB
  end.

Definition bufSet (w : width) (buf : list Z) (i value : Z) : outcome (list Z) :=
  if (i <? 0) then UB else
  match nth_error buf (Z.to_nat (i / perByte w)) with
  | Some byte => Ok (updNth (Z.to_nat (i / perByte w)) (setByte w byte i value) buf)
  | None => UB
  end.

(** packed-vector.hpp:99-108, the number of bytes requested by resize(elementCount). *)
Definition bytesFor (w : width) (elementCount : Z) : Z :=
  elementCount / perByte w + (if elementCount mod perByte w =? 0 then 0 else 1).

(** std::vector<uint8>::resize(n): keeps the first n bytes, appends zero bytes. *)
Definition vecResize (n : Z) (buf : list Z) : list Z :=
  firstn (Z.to_nat n) buf ++ repeat 0 (Z.to_nat n - length buf).

Definition bufResize (w : width) (buf : list Z) (elementCount : Z) : list Z :=
  vecResize (bytesFor w elementCount) buf.

(** ** The object with its raw pointer *)

(** A heap of buffers. *)
Definition heap := list (list Z).

(** packed-vector.hpp:28-31: the vector's own buffer (what data() returns) and the raw
    pointer [ptr]; a null pointer is [None]. *)
Record packed := mkPacked { own : nat; ptr : option nat }.

(** packed-vector.hpp:33-37: empty vector, ptr = nullptr. *)
Definition newPacked (h : heap) : heap * packed := (h ++ [nil], mkPacked (length h) None).

(** packed-vector.hpp:99-108: reallocation is modelled by changing the contents of the
    vector's own buffer; then ptr = data(). *)
Definition resizePacked (w : width) (h : heap) (v : packed) (n : Z) : heap * packed :=
  (updNth (own v) (bufResize w (nth (own v) h nil) n) h, mkPacked (own v) (Some (own v))).

(** packed-vector.hpp:38-41: PackedVector(elementCount). *)
Definition newPackedOf (w : width) (h : heap) (n : Z) : heap * packed :=
  let '(h1, v) := newPacked h in resizePacked w h1 v n.

(** packed-vector.hpp:43-58, unsafeGet through [ptr]. *)
Definition getPacked (w : width) (h : heap) (v : packed) (i : Z) : outcome Z :=
  match ptr v with
  | Some b => match nth_error h b with Some buf => bufGet w buf i | None => UB end
  | None => UB
  end.

(** packed-vector.hpp:70-87, unsafeSet through [ptr].  (The checked [set], lines 88-97,
    is declared to return uint8 but returns the void result of unsafeSet, so it does not
    compile when instantiated; it is not modelled.) *)
Definition setPacked (w : width) (h : heap) (v : packed) (i value : Z) : outcome heap :=
  match ptr v with
  | Some b => match nth_error h b with
              | Some buf => omap (fun buf' => updNth b buf' h) (bufSet w buf i value)
              | None => UB
              end
  | None => UB
  end.

(** packed-vector.hpp:28: no copy constructor is declared, so the implicit one copies the
    vector into a fresh buffer and copies the member [ptr] verbatim. *)
Definition copyPacked (h : heap) (v : packed) : heap * packed :=
  (h ++ [nth (own v) h nil], mkPacked (length h) (ptr v)).

(** size() is inherited from std::vector<uint8> (packed-vector.hpp:28): the number of bytes. *)
Definition sizePacked (h : heap) (v : packed) : Z := Z.of_nat (length (nth (own v) h nil)).
(** The divisors 8, 4 and 8 in the assertions of packed-vector.hpp:61-66. *)
Definition assertDivisor (w : width) : Z := match w with W1 => 8 | W2 => 4 | W4 => 8 end.
(** packed-vector.hpp:59-68, get; [ndebug]: assertions are compiled out. *)
Definition checkedGet (w : width) (ndebug : bool) (h : heap) (v : packed) (i : Z) : outcome Z :=
  if negb ndebug && negb (i / assertDivisor w <? sizePacked h v) then Abort
  else getPacked w h v i.
