(** Model of the solution routines (dream/time.py:261-274, 304-326, 368-389) as
    programs over observable events with faults. *)
From Coq Require Import List Bool QArith ZArith.
From Verif Require Import Base.
Import ListNotations.

(** The externally visible actions of a run, in the order the code performs them.  Times are the labels handed out by
    the timer (dream/time.py:233-413). *)
Inductive run_event :=
| RAssemble
| ROpen                              (* io.__enter__ *)
| RPreSave (t : option Q)            (* io.save_pre_time_routine *)
| RSolve (t : Q)                     (* nonlinear solve of one time point *)
| RSolverStep (it : nat)             (* one nonlinear step (pseudo time) *)
| RShift                             (* scheme.update_gridfunctions *)
| RUpdateStep (it : nat)             (* solver_iteration_update (pseudo time) *)
| RYield (t : option Q)              (* control given to the consumer *)
| RInSave (t : Q) (it : nat)         (* io.save_in_time_routine *)
| RRedraw
| RPostSave (t : option Q) (it : nat)(* io.save_post_time_routine *)
| RClose.                            (* io.__exit__ *)

(** A program emits events and ends with a value or an exception.  [faults]
    says which attempted action (by its number) raises: an exception in the
    solver, in a stream, in the consumer, or the consumer closing the generator. *)
Section Run.
(** Which attempted actions raise (Python; any call in dream/time.py:233-413 may). *)
Variable faults : nat -> option exn.

(** State: number of actions attempted so far and the events (oldest first) (Python). *)
Definition prog (A : Type) := nat -> list run_event * nat * result A.

(** Value without an action (Python expression). *)
Definition ret {A} (a : A) : prog A := fun n => ([], n, Ok a).
(** A raise statement or an implicit exception (Python). *)
Definition raise {A} (e : exn) : prog A := fun n => ([], n, Err e).
(** Statement sequencing (Python). *)
Definition seqp {A B} (p : prog A) (f : A -> prog B) : prog B := fun n =>
  match p n with
  | (tr, n', Ok a) => let '(tr', n'', r) := f a n' in (tr ++ tr', n'', r)
  | (tr, n', Err e) => (tr, n', Err e)
  end.
(** One visible action, which may fail (a call in dream/time.py:233-413). *)
Definition act (e : run_event) : prog unit := fun n =>
  ([e], S n, match faults n with None => Ok tt | Some x => Err x end).

(** [with self.cfg.io as io: body] (dream/io.py:937-942): [__exit__] runs after the
    body however it ends, but not if [__enter__] raises.  Closing itself is
    assumed not to raise here. *)
Definition with_io {A} (body : prog A) : prog A :=
  seqp (act ROpen) (fun _ n =>
    let '(tr, n', r) := body n in (tr ++ [RClose], n', r)).

(** Body of the loop dream/time.py:313-323 for the remaining labels; the value
    is the last binding of the loop variables [(t, it)], if any. *)
Fixpoint transient_loop (it : nat) (labels : list Q) (last : option (Q * nat)) : prog (option (Q * nat)) :=
  match labels with
  | [] => ret last
  | t :: rest =>
      seqp (act (RSolve t)) (fun _ =>
      seqp (act RShift) (fun _ =>
      seqp (act (RYield (Some t))) (fun _ =>
      seqp (act (RInSave t it)) (fun _ =>
      seqp (act RRedraw) (fun _ =>
      transient_loop (S it) rest (Some (t, it)))))))
  end.

(** [TransientConfig.start_solution_routine] (dream/time.py:304-326).  [t0] is
    [self.timer.t.Get()], [labels] the values of [self.timer()] (an exception
    of the timer surfaces at its first value).  Line 326 uses the loop
    variables, which are unbound if the loop body never ran. *)
Definition transient_run (reassemble : bool) (t0 : Q) (labels : result (list Q)) : prog unit :=
  seqp (if reassemble then act RAssemble else ret tt) (fun _ =>
  with_io (
    seqp (act (RPreSave (Some t0))) (fun _ =>
    match labels with
    | Err e => raise e
    | Ok ls =>
        seqp (transient_loop 0 ls None) (fun last =>
        match last with
        | None => raise UnboundLocalError
        | Some (t, it) => act (RPostSave (Some t) it)
        end)
    end))).

(** [StationaryConfig.start_solution_routine] (dream/time.py:261-274): line 270
    calls [self.solve()], which neither the class nor its bases define. *)
Definition stationary_run (reassemble : bool) : prog unit :=
  seqp (if reassemble then act RAssemble else ret tt) (fun _ =>
  with_io (
    seqp (act (RPreSave None)) (fun _ =>
    seqp (raise (A := unit) AttributeError) (fun _ =>
    seqp (act (RYield None)) (fun _ =>
    act (RPostSave None 0)))))).

(** The loop dream/time.py:377-380 driven by the nonlinear solver
    (dream/solver.py:195-211), which performs [k] more iterations: it yields
    before each of its steps. *)
Fixpoint pseudo_loop (it k : nat) : prog unit :=
  match k with
  | O => ret tt
  | S k' =>
      seqp (act RShift) (fun _ =>
      seqp (act (RUpdateStep it)) (fun _ =>
      seqp (act RRedraw) (fun _ =>
      seqp (act (RSolverStep it)) (fun _ =>
      pseudo_loop (S it) k'))))
  end.

(** [PseudoTimeSteppingConfig.start_solution_routine] (dream/time.py:368-389). *)
Definition pseudo_run (reassemble : bool) (t : Q) (iterations : nat) : prog unit :=
  seqp (if reassemble then act RAssemble else ret tt) (fun _ =>
  with_io (
    seqp (act (RPreSave (Some t))) (fun _ =>
    seqp (pseudo_loop 0 iterations) (fun _ =>
    seqp (act (RYield None)) (fun _ =>
    seqp (act (RInSave t 0)) (fun _ =>
    seqp (act RRedraw) (fun _ =>
    act (RPostSave (Some t) 0)))))))).

End Run.

(** The trace of a program from the beginning (of the generators of dream/time.py:233-413). *)
Definition run_trace {A} (p : prog A) : list run_event := fst (fst (p 0%nat)).
(** The outcome of a program from the beginning (of the generators of dream/time.py:233-413). *)
Definition run_outcome {A} (p : prog A) : result A := snd (p 0%nat).
(** No action fails (in dream/time.py:233-413). *)
Definition no_faults : nat -> option exn := fun _ => None.
