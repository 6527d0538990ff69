(** Model of [NonlinearSolver] and [NewtonsMethod]
    (dream/solver.py:129-218). *)
From Coq Require Import Reals List Bool.
Import ListNotations.
Local Open Scope R_scope.

(** A floating point value: overflow and invalid results are kept apart from ordinary numbers (both infinities are one
    value: only their square is used) (Python floats in dream/solver.py:185-193). *)
Inductive fval := Fin (r : R) | Inf | NaN.

(** [error = ngs.sqrt(ngs.InnerProduct(du, residual)**2)] (dream/solver.py:186). *)
Definition iteration_error (ip : fval) : fval :=
  match ip with
  | Fin r => Fin (sqrt (r ^ 2))
  | Inf => Inf
  | NaN => NaN
  end.

(** [error < self.convergence_criterion]; comparisons with nan are false
    (dream/solver.py:188). *)
Definition below (e : fval) (crit : R) : bool :=
  match e with
  | Fin r => if Rlt_dec r crit then true else false
  | _ => false
  end.

(** [isnan(error)] (dream/solver.py:191). *)
Definition fval_isnan (e : fval) : bool := match e with NaN => true | _ => false end.

(** The flags [is_converged], [is_nan] (dream/solver.py:181-183). *)
Record status := mk_status { st_converged : bool; st_nan : bool }.

(** [NonlinearSolver.reset_status] (dream/solver.py:181-183). *)
Definition reset_status : status := mk_status false false.

(** [NonlinearSolver.set_iteration_error] (dream/solver.py:185-193): [is_nan]
    is only ever set to true here. *)
Definition set_iteration_error (crit : R) (st : status) (ip : fval) : status :=
  let e := iteration_error ip in
  mk_status (below e crit) (if fval_isnan e then true else st_nan st).

(** What an observer sees: the generator's yields, update steps computed, corrections applied
    (dream/solver.py:200-208). *)
Inductive nl_event := NYield (it : nat) | NStep (it : nat) | NApply (it : nat).

Section Solve.
(** Index set of the unknowns of the grid function. *)
Context {I : Type}.

(** [NewtonsMethod.update_solution] (dream/solver.py:151-152). *)
Definition update_solution (damping : R) (u du : I -> R) : I -> R :=
  fun i => u i - damping * du i.

(** [NonlinearSolver.solve] (dream/solver.py:195-211).  [upd it u] is
    [solve_update_step]: the correction vector and the inner product of
    correction and residual; assembly and inversion are an arbitrary function.
    [k] counts the remaining values of [range(max_iterations)]. *)
Fixpoint solve_loop (crit damping : R) (upd : nat -> (I -> R) -> (I -> R) * fval)
  (it k : nat) (u : I -> R) (st : status) : list nl_event * (I -> R) * status :=
  match k with
  | O => ([], u, st)
  | S k' =>
      let '(du, ip) := upd it u in
      let st' := set_iteration_error crit st ip in
      if st_nan st' then ([NYield it; NStep it], u, st')
      else
        let u' := update_solution damping u du in
        if st_converged st' then ([NYield it; NStep it; NApply it], u', st')
        else
          let '(tr, uf, stf) := solve_loop crit damping upd (S it) k' u' st' in
          (NYield it :: NStep it :: NApply it :: tr, uf, stf)
  end.

(** [solve] from its beginning (dream/solver.py:195-199); a negative
    [max_iterations] gives an empty range, as 0 does. *)
Definition nl_solve (max_iterations : nat) (crit damping : R)
  (upd : nat -> (I -> R) -> (I -> R) * fval) (u0 : I -> R) : list nl_event * (I -> R) * status :=
  solve_loop crit damping upd 0 max_iterations u0 reset_status.

End Solve.
