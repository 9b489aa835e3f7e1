(** Shared result type of the model.

    A Rust call ends in one of: a value, an [Err], or a panic.  The model has no other outcome except where a
    loop is not known to terminate ([OutOfFuel], only used by functions that take fuel). *)
Set Implicit Arguments.
Unset Strict Implicit.

Inductive outcome (E A : Type) : Type :=
| Ok (a : A)          (* normal return / Ok(a)  *)
| Err (e : E)         (* Err(e)                 *)
| Panic               (* the thread panics      *)
| OutOfFuel.          (* the loop did not finish within the fuel given *)

Arguments Ok {E A} a.
Arguments Err {E A} e.
Arguments Panic {E A}.
Arguments OutOfFuel {E A}.

Definition bindo {E A B : Type} (m : outcome E A) (f : A -> outcome E B) : outcome E B :=
  match m with
  | Ok a => f a
  | Err e => Err e
  | Panic => Panic
  | OutOfFuel => OutOfFuel
  end.

Definition mapo {E A B : Type} (f : A -> B) (m : outcome E A) : outcome E B :=
  bindo m (fun a => Ok (f a)).

Declare Scope outcome_scope.
Delimit Scope outcome_scope with out.
Notation "'let!' x ':=' m 'in' f" := (bindo m (fun x => f))
  (at level 200, x pattern, m at level 100, f at level 200, right associativity) : outcome_scope.

(** Left fold whose body may fail; the loop stops at the first failure ([?] or a panic inside a [for]). *)
Fixpoint foldo {E A B : Type} (f : B -> A -> outcome E B) (b : B) (l : list A) : outcome E B :=
  match l with
  | nil => Ok b
  | cons a l' => bindo (f b a) (fun b' => foldo f b' l')
  end.

(** [unwrap] / indexing: a missing value panics. *)
Definition of_option {E A : Type} (o : option A) : outcome E A :=
  match o with Some a => Ok a | None => Panic end.

Definition is_ok {E A : Type} (m : outcome E A) : bool := match m with Ok _ => true | _ => false end.
Definition is_err {E A : Type} (m : outcome E A) : bool := match m with Err _ => true | _ => false end.
Definition is_panic {E A : Type} (m : outcome E A) : bool := match m with Panic => true | _ => false end.
