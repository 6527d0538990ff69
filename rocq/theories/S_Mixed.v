(** Vocabulary for the mixed forms. *)
From Coq Require Import Reals String List Arith Bool.
From Verif Require Import Base M_Bla M_Flow M_Formulation M_Weak M_Mixed S_Flow S_Chars S_Formulation S_Weak.
Import ListNotations.
Open Scope R_scope.
Open Scope list_scope.

(** Integration by parts for the function with values [a] in the elements and [ahat] on their boundaries and with
    gradient [da], against component [k] of the test function and direction [j]. *)
Definition by_parts (m : mesh) (dx vol bnd : rule) (a ahat : nat -> R) (da : nat -> list R) (P : mixed_test) : Prop :=
  forall k j, (k < 5)%nat -> (j < 2)%nat ->
    weighted vol (fun x => a x * entry (tdP P x) k j) + weighted dx (fun x => nth j (da x) 0 * nth k (tP P x) 0)
    = weighted bnd (fun y => ahat y * (nth k (tP P y) 0 * nth j (normal m y) 0)).

(** The symmetric matrix that the unknown stores as (xx, xy, yy). *)
Definition stored (Q : list R) (i j : nat) : R := nth (i + j) Q 0.

(** The strain rate of the velocity gradient [du]: symmetric part without a third of the divergence. *)
Definition strain (du : nat -> nat -> R) (i j : nat) : R :=
  (du i j + du j i) / 2 - (du 0%nat 0%nat + du 1%nat 1%nat) / 3 * delta i j.

(** Flow fields in two dimensions: the unknowns are those of the states. *)
Definition flow_of (s : settings) (u : unknowns) (st sthat : nat -> state) : Prop :=
  forall x, valid (st x) /\ valid (sthat x) /\ length (st_u (st x)) = 2%nat /\ length (st_u (sthat x)) = 2%nat /\
    uU u x = conservative_list (s_gamma s) (st x) /\ uUhat u x = conservative_list (s_gamma s) (sthat x).

(** The unknown and the test function have five components. *)
Definition five (Q : nat -> list R) (P : mixed_test) : Prop := forall x, length (Q x) = 5%nat /\ length (tP P x) = 5%nat.

(** How far the mixed unknown is from the strain rate and the temperature gradient, measured with the test function. *)
Definition defect (Q : list R) (du : nat -> nat -> R) (dT : list R) (p : list R) : R :=
  total 2 (fun i => total 2 (fun j => (stored Q i j - strain du i j) * stored p i j))
  + total 2 (fun j => (nth (3 + j) Q 0 - nth j dT 0) * nth (3 + j) p 0).

(** The mixed test function that is 1 in component [k] on the chosen elements. *)
Definition constant_mixed (m : mesh) (k : nat) (A : nat -> bool) : mixed_test :=
  mk_mixed_test (fun x => if A (element m x) then basis 5 k else repeat 0 5) (fun _ => tabulate 5 2 (fun _ _ => 0)).
