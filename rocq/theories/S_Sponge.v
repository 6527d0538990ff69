(** Vocabulary for the damping in sponge layers. *)
From Coq Require Import Reals List.
From Verif Require Import Base M_Bla M_Flow S_Flow S_Chars M_Weak S_Formulation S_Weak.
Import ListNotations.
Open Scope R_scope.

(** Square of the distance of two vectors of [n] components. *)
Definition distance2 (n : nat) (U V : list R) : R := total n (fun k => (nth k U 0 - nth k V 0) ^ 2).

(** [U'] is the implicit Euler step of U' = w (V - U) from [U] with time step [dt]. *)
Definition relaxes (n : nat) (dt w : R) (U V U' : list R) : Prop :=
  length U' = n /\ forall k, (k < n)%nat -> (nth k U' 0 - nth k U 0) / dt = w * (nth k V 0 - nth k U' 0).

(** The layer covers what the rule [q] covers: both integrate the test function to the same value. *)
Definition covers (d : nat) (l q : rule) (t : test) : Prop :=
  forall k, (k < d + 2)%nat -> weighted l (fun x => nth k (tV t x) 0) = weighted q (fun x => nth k (tV t x) 0).

(** [U2] is the BDF2 step of U' = w (V - U) from the levels [U1] and, before it, [U0] with time step [dt]. *)
Definition relaxes2 (n : nat) (dt w : R) (U0 U1 V U2 : list R) : Prop :=
  length U2 = n /\ forall k, (k < n)%nat -> (3 * nth k U2 0 - 4 * nth k U1 0 + nth k U0 0) / (2 * dt) = w * (nth k V 0 - nth k U2 0).
