(** Vocabulary for pseudo time stepping: steady states, the matrix of an iteration, stable steady states. *)
From Coq Require Import Reals List Arith Bool QArith Qreals.
From Coquelicot Require Import Coquelicot.
From Verif Require Import Base M_Scheme M_March M_Condense S_Condense S_Newton.
Open Scope R_scope.

(** The steady equations hold in all free unknowns. *)
Definition steady (n : nat) (free : nat -> bool) (spatial : (nat -> R) -> nat -> R) (load u : nat -> R) : Prop :=
  forall i, (i < n)%nat -> free i = true -> spatial u i = load i.

(** The weight of the newest level in the time derivative. *)
Definition lead (sc : scheme_kind) : R := match sc with ImplicitEuler => 1 | BDF2 => 3 / 2 end.

(** The derivative of the unsteady equations at the time step [h]: [B] is the derivative of the steady ones. *)
Definition shifted (sc : scheme_kind) (mass : nat -> nat -> R) (h : R) (B : nat -> nat -> R) (i j : nat) : R :=
  lead sc / h * mass i j + B i j.

(** What the time derivative adds to the steady equations in an iteration from [u] with the iterate [before] it. *)
Definition drift (sc : scheme_kind) (n : nat) (mass : nat -> nat -> R) (h : R) (before u : nat -> R) (i : nat) : R :=
  match sc with ImplicitEuler => 0 | BDF2 => times n mass (fun j => (before j - u j) / (2 * h)) i end.

(** A symmetric positive semidefinite matrix with eigenvalues up to [m]. *)
Definition mass_matrix (n : nat) (mass : nat -> nat -> R) (m : R) : Prop :=
  (forall i j, (i < n)%nat -> (j < n)%nat -> mass i j = mass j i) /\
  forall w, 0 <= product n w (times n mass w) <= m * product n w w.

(** A steady state; up to the distance [r], [B] is the derivative of the steady equations, changes at most by [L] times the
    distance, and perturbations decay at least at the rate [c]. *)
Record stable_state (n : nat) (free : nat -> bool) (spatial : (nat -> R) -> nat -> R) (load : nat -> R)
    (B : (nat -> R) -> nat -> nat -> R) (s : nat -> R) (r L c : R) : Prop := {
  ss_steady : steady n free spatial load s;
  ss_derivative : forall u, around n free s r u -> forall i, (i < n)%nat -> free i = true -> forall t, 0 <= t <= 1 ->
    is_derive (fun t => spatial (line s u t) i) t (times n (B (line s u t)) (fun j => u j - s j) i);
  ss_change : forall u v w, around n free s r u -> around n free s r v -> within n free w ->
    length_of n (only free (fun i => times n (B u) w i - times n (B v) w i)) <= L * distance n u v * length_of n w;
  ss_decay : forall u w, around n free s r u -> within n free w -> c * product n w w <= product n w (times n (B u) w) }.
