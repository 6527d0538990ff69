(** Model of the solution routine of [PseudoTimeSteppingConfig] with the values of the unknowns
    (dream/time.py:368-389, 160-166; dream/solver.py:195-211): one nonlinear solve, at each of whose yields the time levels
    are shifted and the time step is updated.

    The unknowns are numbered as in [M_Condense]. The mass matrix of all variables with a temporal integrator, the form
    without the temporal part and the factorisations are results of NGSolve and arbitrary here. The levels of all variables
    are kept in one vector: rows and columns of the mass matrix are zero for unknowns without temporal integrator. *)
From Coq Require Import String List Bool QArith Qreals Reals.
From Verif Require Import Base Dict M_Scheme M_March M_Solve M_Condense.
Import ListNotations.
Local Open Scope R_scope.

Section Pseudo.
(** Number of unknowns and the option of static condensation (dream/solver.py:238-253). *)
Variable n : nat.
(** The option [static_condensation] (dream/solver.py:244). *)
Variable condense : bool.
(** Criterion and damping of the nonlinear solver (dream/solver.py:141-179). *)
Variables crit damping : R.
(** The options of the pseudo time stepping and its scheme (dream/time.py:337-355). *)
Variable c : pseudo.
(** [scheme] (dream/time.py:337-339). *)
Variable sc : scheme_kind.
(** The matrix of the temporal integrators, the remaining form, the right side (dream/time.py:144-153, dream/solver.py:241). *)
Variable mass : nat -> nat -> R.
(** All other forms (dream/solver.py:241). *)
Variable spatial : (nat -> R) -> nat -> R.
(** [lf.vec] (dream/solver.py:241). *)
Variable load : nat -> R.
(** The linearization at a time step and a state (dream/solver.py:242-249). *)
Variable factorise : R -> (nat -> R) -> factors.

(** [gfus] of one variable (dream/time.py:86-100): the vector of all unknowns. *)
Definition levels_of (g : dict (dict (nat -> R))) : result (dict (nat -> R)) :=
  match dget g "U"%string with Some gv => Ok gv | None => Err KeyError end.

(** [blf.Apply] (dream/solver.py:241) at the state [u], which is the last level (aliasing, dream/time.py:99): the temporal form
    (dream/time.py:144-153) and the rest. *)
Definition pseudo_apply (h : R) (g : dict (dict (nat -> R))) (u : nat -> R) : result (nat -> R) :=
  let* gv := levels_of g in
  let* d := get_time_derivative sc h (dset gv "n+1"%string u) in
  Ok (fun i => times n mass d i + spatial u i).

(** The loop of [NonlinearSolver.solve] with the body of the routine at its yields (dream/solver.py:195-211,
    dream/time.py:376-379): shift of the levels, update of the time step, then the Newton step. The result: final state, final
    flags, final time step, final levels and the number of steps computed. Redrawing and logging are left out. *)
Fixpoint pseudo_iterate (it k : nat) (h : Q) (g : dict (dict (nat -> R))) (u : nat -> R) (st : status)
  : result ((nat -> R) * status * Q * dict (dict (nat -> R)) * nat) :=
  match k with
  | O => Ok (u, st, h, g, it)
  | S k' =>
      let* g1 := scheme_update (time_levels sc) g in
      let* h1 := solver_iteration_update c h it in
      let* a := pseudo_apply (Q2R h1) g1 u in
      let (du, ip) := update_step n condense (fun _ => a) load (factorise (Q2R h1)) it u in
      let st' := set_iteration_error crit st ip in
      if st_nan st' then Ok (u, st', h1, g1, S it)
      else
        let u' := update_solution damping u du in
        let g2 := solver_writes (fun _ => u') g1 in
        if st_converged st' then Ok (u', st', h1, g2, S it)
        else pseudo_iterate (S it) k' h1 g2 u' st'
  end.

(** The whole routine from the initial conditions [u0] and the time step [h0] (dream/time.py:368-389, 405-407). *)
Definition pseudo_solve (max_iterations : nat) (h0 : Q) (u0 : nat -> R)
  : result ((nat -> R) * status * Q * dict (dict (nat -> R)) * nat) :=
  let* g := scheme_start (time_levels sc) (fun _ => 0) [("U"%string, u0)] in
  pseudo_iterate 0 max_iterations h0 g u0 reset_status.

End Pseudo.

(** The defaults of [max_time_step], [increment_at], [increment_factor] (dream/time.py:345-355). *)
Definition default_pseudo : pseudo := mk_pseudo 1 10 10.
(** The default of [max_iterations] (dream/solver.py:163-167). *)
Definition default_max_iterations : nat := 10.
