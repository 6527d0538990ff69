(** Vocabulary for the convergence of Newton's method: distances of vectors of
    unknowns and a solution with a regular linearization around it. *)
From Coq Require Import Reals List Arith Bool.
From Coquelicot Require Import Coquelicot.
From Verif Require Import M_Condense.
Open Scope R_scope.

(** Length of a vector of [n] unknowns, and of its free part. *)
Definition length_of (n : nat) (x : nat -> R) : R := sqrt (sum n (fun i => x i * x i)).
Definition only (free : nat -> bool) (x : nat -> R) (i : nat) : R := if free i then x i else 0.
Definition distance (n : nat) (x y : nat -> R) : R := length_of n (fun i => x i - y i).

(** The states that agree with [s] in the unknowns that are not free and are
    no farther from it than [r]. *)
Definition around (n : nat) (free : nat -> bool) (s : nat -> R) (r : R) (u : nat -> R) : Prop :=
  (forall i, (i < n)%nat -> free i = false -> u i = s i) /\ distance n u s <= r.

(** The point at [t] of the straight line from [v] to [u]. *)
Definition line (v u : nat -> R) (t : R) (i : nat) : R := v i + t * (u i - v i).

(** A vector without entries outside the free unknowns. *)
Definition within (n : nat) (free : nat -> bool) (w : nat -> R) : Prop := forall i, (i < n)%nat -> free i = false -> w i = 0.

(** [s] is a solution of [F = 0] in the free unknowns; up to the distance [r], [A] is
    the derivative of [F], changes at most by [L] times the distance, and its inverse is bounded by [M]. *)
Record regular_solution (n : nat) (free : nat -> bool) (F : (nat -> R) -> nat -> R) (A : (nat -> R) -> nat -> nat -> R)
    (s : nat -> R) (r L M : R) : Prop := {
  rs_solution : forall i, (i < n)%nat -> free i = true -> F s i = 0;
  rs_derivative : forall u, around n free s r u -> forall i, (i < n)%nat -> free i = true -> forall t, 0 <= t <= 1 ->
    is_derive (fun t => F (line s u t) i) t (times n (A (line s u t)) (fun j => u j - s j) i);
  rs_change : forall u v w, around n free s r u -> around n free s r v -> within n free w ->
    length_of n (only free (fun i => times n (A u) w i - times n (A v) w i)) <= L * distance n u v * length_of n w;
  rs_inverse : forall u w, around n free s r u -> within n free w ->
    length_of n w <= M * length_of n (only free (times n (A u) w)) }.
