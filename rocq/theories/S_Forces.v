(** Vocabulary for the aerodynamic coefficients: forces on surfaces and reference quantities. *)
From Coq Require Import Reals List.
From Verif Require Import Base M_Bla M_Flow S_Flow S_Chars.
Import ListNotations.
Open Scope R_scope.

(** Component [i] of the force per area that the material on the side of the normal [n] exerts across a surface:
    pressure [p] pushes against the normal, [tau] is the viscous stress. *)
Definition traction (d : nat) (p : R) (tau : nat -> nat -> R) (n : list R) (i : nat) : R :=
  - p * nth i n 0 + total d (fun j => tau i j * nth j n 0).

(** Component of the vector [v] in the direction of the arrow [a]. *)
Definition component (d : nat) (v : nat -> R) (a : list R) : R :=
  total d (fun i => v i * nth i a 0) / sqrt (total d (fun i => nth i a 0 ^ 2)).

(** Dynamic pressure of a state. *)
Definition dynamic_pressure (s : state) : R := st_rho s * total (length (st_u s)) (fun i => nth i (st_u s) 0 ^ 2) / 2.

(** The same state in other units: density multiplied by [a], velocity by [b], pressure by [a b^2]. *)
Definition rescale (a b : R) (s : state) : state := mk_state (a * st_rho s) (map (Rmult b) (st_u s)) (a * b ^ 2 * st_p s).

(** No viscous stress. *)
Definition no_stress (i j : nat) : R := 0.

(** A surface given by areas and normals; it is closed if the area vectors add up to zero. *)
Definition surface := list (R * list R).
Fixpoint over (q : surface) (f : list R -> R) : R := match q with [] => 0 | (w, n) :: q' => w * f n + over q' f end.
Definition closed (d : nat) (q : surface) : Prop := forall i, (i < d)%nat -> over q (fun n => nth i n 0) = 0.
