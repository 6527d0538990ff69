(** Vocabulary for linear systems and static condensation: what NGSolve promises. *)
From Coq Require Import Reals List Arith Bool.
From Verif Require Import M_Condense.
Open Scope R_scope.

(** The part of a matrix with rows in [p] and columns in [q]. *)
Definition block (p q : nat -> bool) (A : nat -> nat -> R) (i j : nat) : R := if p i && q j then A i j else 0.

(** The product of two matrices. *)
Definition compose (n : nat) (A B : nat -> nat -> R) (i j : nat) : R := sum n (fun k => A i k * B k j).

Definition same_matrix (n : nat) (A B : nat -> nat -> R) : Prop := forall i j, (i < n)%nat -> (j < n)%nat -> A i j = B i j.

(** [B] is the inverse of the part of [A] in [p], and zero outside. *)
Definition inverse_on (n : nat) (p : nat -> bool) (A B : nat -> nat -> R) : Prop :=
  (forall i j, (i < n)%nat -> (j < n)%nat -> p i && p j = false -> B i j = 0) /\
  (forall i j, (i < n)%nat -> (j < n)%nat -> p i = true -> p j = true ->
     compose n (block p p A) B i j = (if (i =? j)%nat then 1 else 0) /\
     compose n B (block p p A) i j = (if (i =? j)%nat then 1 else 0)).

Definition global (loc : nat -> bool) (i : nat) : bool := negb (loc i).

(** What NGSolve provides without condensation: the inverse on the free unknowns. *)
Definition full_factors (n : nat) (free : nat -> bool) (A : nat -> nat -> R) (f : factors) : Prop := inverse_on n free A (inv f).

(** What it provides with condensation: [loc] are the unknowns that are eliminated in the elements (all of them free),
    the matrix is the Schur complement. *)
Definition condensed_factors (n : nat) (free loc : nat -> bool) (A : nat -> nat -> R) (f : factors) : Prop :=
  let g := global loc in
  (forall i, (i < n)%nat -> loc i = true -> free i = true) /\
  inverse_on n loc A (inner_solve f) /\
  same_matrix n (extension f) (fun i j => - compose n (inner_solve f) (block loc g A) i j) /\
  same_matrix n (extension_trans f) (fun i j => - compose n (block g loc A) (inner_solve f) i j) /\
  inverse_on n (fun i => free i && g i)
    (fun i j => A i j - compose n (compose n (block g loc A) (inner_solve f)) (block loc g A) i j) (inv f).

(** [x] solves the linear system with matrix [A] and right side [r] in the free unknowns and is zero in the others. *)
Definition solves_system (n : nat) (free : nat -> bool) (A : nat -> nat -> R) (r x : nat -> R) : Prop :=
  forall i, (i < n)%nat -> if free i then times n A x i = r i else x i = 0.

(** The factors are those of NGSolve for the matrix [A], with or without condensation. *)
Definition factors_for (condense : bool) (n : nat) (free loc : nat -> bool) (A : nat -> nat -> R) (f : factors) : Prop :=
  if condense then condensed_factors n free loc A f else full_factors n free A f.
