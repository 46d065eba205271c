(** Outcomes of running a C++ function: a value, undefined behaviour, a call to
    abort(), or (for fuel-recursive models of loops) exhausted fuel.  The last
    constructor has no counterpart in the code: theorems exclude it. *)
Inductive outcome (A : Type) : Type :=
| Ok (a : A)
| UB
| Abort
| OutOfFuel.
Arguments Ok {A} a.
Arguments UB {A}.
Arguments Abort {A}.
Arguments OutOfFuel {A}.

(** Sequencing of C++ statements: anything after a non-[Ok] outcome is not run. *)
Definition bind {A B : Type} (x : outcome A) (f : A -> outcome B) : outcome B :=
  match x with
  | Ok a => f a
  | UB => UB
  | Abort => Abort
  | OutOfFuel => OutOfFuel
  end.

Declare Scope outcome_scope.
Delimit Scope outcome_scope with outcome.
Notation "x <- e ;; f" := (bind e (fun x => f))
  (at level 100, e at next level, right associativity) : outcome_scope.

Definition omap {A B : Type} (f : A -> B) (x : outcome A) : outcome B :=
  bind x (fun a => Ok (f a)).

Lemma bind_Ok : forall A B (x : outcome A) (f : A -> outcome B) b,
  bind x f = Ok b -> exists a, x = Ok a /\ f a = Ok b.
Proof. intros A B x f b H; destruct x as [a| | |]; cbn in H; try discriminate; eauto. Qed.
