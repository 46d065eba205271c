(** Packed vectors seen as arrays of small integers. *)
From Coq Require Import ZArith List Bool.
From Verif.Model Require Import Outcome Packed.
From Verif.Spec Require Import OrderSpec.
Import ListNotations.
Local Open Scope Z_scope.

Definition bytes (buf : list Z) : Prop := Forall byte buf.

Definition capacity (w : width) (buf : list Z) : Z := perByte w * Z.of_nat (length buf).

Definition ownsItself (h : heap) (v : packed) : Prop :=
  ptr v = Some (own v) /\ (own v < length h)%nat.

(** ** Programs using one packed vector, and the array they see *)
Inductive packedOp := PSet (i x : Z) | PResize (n : Z).

(** running a program on an object *)
Fixpoint runPacked (w : width) (ops : list packedOp) (h : heap) (v : packed) : outcome (heap * packed) :=
  match ops with
  | nil => Ok (h, v)
  | PSet i x :: ops => bind (setPacked w h v i x) (fun h' => runPacked w ops h' v)
  | PResize n :: ops => let '(h', v') := resizePacked w h v n in runPacked w ops h' v'
  end.

(** an array of [acap] elements *)
Record array := mkArray { acap : Z; aelt : Z -> Z }.
(** the least multiple of [d] that is not below [n] *)
Definition roundUp (n d : Z) : Z := (n + (d - 1)) / d * d.
(** the same operation on an array of [b]-bit elements, [8 / b] of which fill a byte: values are
    stored modulo 2^b, the capacity is rounded up to whole bytes and new elements are zero;
    [None]: the index is outside the array *)
Definition arrayStep (b : Z) (op : packedOp) (a : array) : option array :=
  match op with
  | PSet i x => if (0 <=? i) && (i <? acap a)
      then Some (mkArray (acap a) (fun j => if j =? i then x mod 2 ^ b else aelt a j)) else None
  | PResize n => Some (mkArray (roundUp n (8 / b)) (fun j => if j <? acap a then aelt a j else 0))
  end.
Fixpoint arrayRun (b : Z) (ops : list packedOp) (a : array) : option array :=
  match ops with
  | nil => Some a
  | op :: ops => match arrayStep b op a with Some a' => arrayRun b ops a' | None => None end
  end.
Definition emptyArray : array := mkArray 0 (fun _ => 0).
Definition sizesOk (ops : list packedOp) : Prop :=
  Forall (fun op => match op with PResize n => 0 <= n | PSet _ _ => True end) ops.
