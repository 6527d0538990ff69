(** Vocabulary for the viscous terms: deformation of a flow from its velocity gradient (entry (i, j): derivative of
    component i in direction j). *)
From Coq Require Import Reals List.
From Verif Require Import Base M_Bla M_Flow S_Flow S_Chars.
Import ListNotations.
Open Scope R_scope.

Definition symmetric (d : nat) (m : matrix) : Prop := forall i j, (i < d)%nat -> (j < d)%nat -> entry m i j = entry m j i.

(** A rigid motion: the velocity gradient is skew-symmetric. *)
Definition rigid (d : nat) (du : matrix) : Prop := forall i j, (i < d)%nat -> (j < d)%nat -> entry du i j = - entry du j i.

Definition divergence (d : nat) (du : matrix) : R := total d (fun i => entry du i i).

Definition zero_matrix (d : nat) (m : matrix) : Prop := forall i j, (i < d)%nat -> (j < d)%nat -> entry m i j = 0.

(** Power of a stress in a deformation. *)
Definition power (d : nat) (tau du : matrix) : R := total d (fun i => total d (fun j => entry tau i j * entry du i j)).

(** A gas whose strain rate [eps] and temperature gradient [dT] are known. *)
Definition viscous_gradients (s : settings) (eps : matrix) (dT : list R) (dU : grads) : Prop :=
  strain_rate_tensor s dU = Ok eps /\ shape (s_dim s) eps /\ g_T dU = Some dT /\ length dT = s_dim s.
