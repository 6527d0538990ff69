(** Specification vocabulary for the cylinder geometry; independent of the model. *)
From Coq Require Import Reals List.
Import ListNotations.
Local Open Scope R_scope.

(** Distance of a point from the axis of the cylinder, squared. *)
Definition square_distance (p : R * R) : R := fst p ^ 2 + snd p ^ 2.

(** [p] lies further from the axis than [r] and not further than [r']. *)
Definition between (r r' : R) (p : R * R) : Prop :=
  r ^ 2 < square_distance p <= r' ^ 2.

(** [l] starts at [a], ends at [b] and strictly increases. *)
Definition ladder (a b : R) (l : list R) : Prop :=
  nth_error l 0 = Some a /\ nth_error l (length l - 1) = Some b /\
  forall i j x y, (i < j)%nat -> nth_error l i = Some x -> nth_error l j = Some y -> x < y.

(** Thickness of the layer between step [i] and the next one of a ladder. *)
Definition thickness (l : list R) (i : nat) : R := nth (i + 1) l 0 - nth i l 0.
