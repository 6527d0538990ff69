(** Model of solving several times with one configuration in pseudo time. *)
From Coq Require Import List QArith ZArith.
From Verif Require Import Base M_Scheme.
Import ListNotations.

(** The time step after solves of the given numbers of iterations (dream/time.py:369-389, dream/solver.py:435-437): [start_solution_routine]
    begins with the step the timer has, which line 401 of the previous solve has assigned, and counts the iterations from 0. *)
Fixpoint pseudo_solves (c : pseudo) (h0 : Q) (ns : list nat) : result Q :=
  match ns with
  | [] => Ok h0
  | n :: ns' => let* h := pseudo_time_step c h0 n in pseudo_solves c h ns'
  end.
