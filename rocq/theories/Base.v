(** Common vocabulary of all models: Python exceptions as values, small list
    helpers used by models and specifications. *)
From Coq Require Import List ZArith String Bool.
Import ListNotations.

(** Python exception classes that the modelled code can raise
    (dream/config.py, dream/io.py, dream/mesh.py, dream/time.py, ...). *)
Inductive exn : Type :=
| ValueError
| TypeError
| AttributeError
| KeyError
| IndexError
| NotImplementedError
| ZeroDivisionError
| UnboundLocalError
| OverflowError
| FileNotFoundError
| FileExistsError
| UnsupportedOperation
| GeneratorExit | NonTermination
| NgException (** raised by NGSolve itself *).

(** Outcome of a Python call: a value or a raised exception. *)
Inductive result (A : Type) : Type :=
| Ok (a : A)
| Err (e : exn).
Arguments Ok {A} a.
Arguments Err {A} e.

(** Sequencing of Python statements that may raise. *)
Definition bind {A B : Type} (r : result A) (f : A -> result B) : result B :=
  match r with
  | Ok a => f a
  | Err e => Err e
  end.

Notation "'let*' x ':=' r 'in' f" := (bind r (fun x => f))
  (at level 200, x pattern, r at level 100, f at level 200, right associativity).

Definition is_ok {A} (r : result A) : bool :=
  match r with Ok _ => true | Err _ => false end.
