(** Model of [DirectNonlinearSolver.solve_update_step] (dream/solver.py:221-253) with the linear algebra of NGSolve.

    The unknowns of the grid function are numbered below [n]; vectors and matrices are functions of these numbers.
    Apply, linearization, factorisations and the operators of static condensation are results of NGSolve: arbitrary here,
    what NGSolve promises of them is stated in [S_Condense] (trusted base). Exceptions of a singular factorisation are not
    modelled. *)
From Coq Require Import Reals List Arith Bool.
From Verif Require Import M_Solve.
Open Scope R_scope.

(** The sum [f 0 + ... + f (n-1)] (NGSolve vector operations, dream/solver.py:241-253). *)
Fixpoint sum (n : nat) (f : nat -> R) : R := match n with O => 0 | S k => sum k f + f k end.

(** A matrix times a vector (NGSolve, dream/solver.py:246-251). *)
Definition times (n : nat) (M : nat -> nat -> R) (x : nat -> R) (i : nat) : R := sum n (fun j => M i j * x j).

(** [ngs.InnerProduct] (dream/solver.py:186). *)
Definition product (n : nat) (x y : nat -> R) : R := sum n (fun i => x i * y i).

(** What NGSolve provides after [AssembleLinearization] (dream/solver.py:242-249): the inverse of [blf.mat] on the
    selected unknowns, [harmonic_extension], [harmonic_extension_trans] and [inner_solve]. *)
Record factors := mk_factors {
  inv : nat -> nat -> R; extension : nat -> nat -> R; extension_trans : nat -> nat -> R; inner_solve : nat -> nat -> R }.

(** [solve_update_step] (dream/solver.py:238-253) up to the error: the new [temporary] and [residual].
    [apply]: [blf.Apply]; [load]: [lf.vec]; [factorise]: the linearization at the current state. *)
Definition solve_update_step (n : nat) (condense : bool) (apply : (nat -> R) -> nat -> R) (load : nat -> R)
  (factorise : (nat -> R) -> factors) (u : nat -> R) : (nat -> R) * (nat -> R) :=
  let residual := fun i => apply u i - load i in
  let f := factorise u in
  if condense then
    let residual' := fun i => residual i + times n (extension_trans f) residual i in
    let t1 := times n (inv f) residual' in
    let t2 := fun i => t1 i + times n (extension f) t1 i in
    let t3 := fun i => t2 i + times n (inner_solve f) residual' i in
    (t3, residual')
  else (times n (inv f) residual, residual).

(** The step as the loop of [NonlinearSolver.solve] sees it: correction and inner product
    (dream/solver.py:185-186, 253). *)
Definition update_step (n : nat) (condense : bool) (apply : (nat -> R) -> nat -> R) (load : nat -> R)
  (factorise : (nat -> R) -> factors) (it : nat) (u : nat -> R) : (nat -> R) * fval :=
  let (du, residual) := solve_update_step n condense apply load factorise u in (du, Fin (product n du residual)).
