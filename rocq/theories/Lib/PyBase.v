(** Python-level results: a call either returns a value or raises. *)

(** The exception classes raised by the modelled code (or by numpy/Python on
    its behalf). *)
Inductive exn :=
| TypeError | ValueError | IndexError | AttributeError | KeyError
| UnboundLocalError | NameError | UnitConversionError | WcsError
| ZeroDivisionError | OtherError.

Inductive result (A : Type) :=
| Ok (a : A)
| Err (e : exn).
Arguments Ok {A} _.
Arguments Err {A} _.

Definition bind {A B} (r : result A) (k : A -> result B) : result B :=
  match r with Ok a => k a | Err e => Err e end.

Definition is_ok {A} (r : result A) : bool :=
  match r with Ok _ => true | Err _ => false end.

Notation "x <- r ;; k" := (bind r (fun x => k))
  (at level 61, r at next level, right associativity).
