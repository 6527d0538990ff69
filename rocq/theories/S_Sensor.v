(** Vocabulary for what sensors measure. *)
From Coq Require Import Reals String List Arith.
From Verif Require Import Base M_Header M_Conditions S_Header S_Conditions M_Sensor.
Import ListNotations.
Local Open Scope R_scope.
Local Open Scope list_scope.

(** The elements that a sensor of this kind is about, the names of their regions, and the values of a field there. *)
Definition part (k : kind) (m : smesh) : list element := match k with Domain => volume m | Boundary => surface m end.
Definition region_names (k : kind) (m : smesh) : list string := match k with Domain => materials m | Boundary => boundaries m end.
Definition values (k : kind) (f : field) : nat -> R := match k with Domain => in_volume f | Boundary => on_surface f end.

(** Every element belongs to a region of the mesh; the separator occurs in no name. *)
Definition well_named (k : kind) (m : smesh) : Prop :=
  (forall e, In e (part k m) -> In (e_name e) (region_names k m)) /\ forall n, In n (region_names k m) -> ~ has_bar n.

(** The number of components of all fields. *)
Fixpoint components (fs : list (string * list nat)) : nat :=
  match fs with [] => 0%nat | (_, dims) :: r => (fold_right Nat.mul 1 dims + components r)%nat end.

(** A weighted sum of values. *)
Fixpoint weigh (q : list (R * nat)) (f : nat -> R) : R := match q with [] => 0 | (w, x) :: q' => w * f x + weigh q' f end.

(** The integral over the elements in the regions with the given names. *)
Fixpoint over (es : list element) (names : list string) (f : nat -> R) : R :=
  match es with
  | [] => 0
  | e :: es' => (if in_dec string_dec (e_name e) names then weigh (e_rule e) f else 0) + over es' names f
  end.

(** The members of a list without repetitions, in the order of their first mention. *)
Fixpoint first_mentions (l : list string) : list string :=
  match l with [] => [] | x :: r => x :: filter (fun y => if string_dec y x then false else true) (first_mentions r) end.

(** The row of values: one per column of the table. *)
Definition row_of (es : list element) (covered : string -> list string) (f : string -> nat -> nat -> R) (cols : list (column string)) : list R :=
  map (fun c => over es (covered (col_loc c)) (f (col_field c) (col_index c))) cols.

(** The sum of squares of [n] components at a point. *)
Fixpoint squares (f : nat -> nat -> R) (n : nat) (x : nat) : R :=
  match n with O => 0 | S n' => squares f n' x + f n' x ^ 2 end.

(** The L2 norm of a field with [n] components on some regions. *)
Definition norm (es : list element) (names : list string) (f : nat -> nat -> R) (n : nat) : R := sqrt (over es names (squares f n)).

(** Quadrature rules with positive weights. *)
Definition positive (es : list element) : Prop := forall e w x, In e es -> In (w, x) (e_rule e) -> 0 < w.

(** A point of one of the regions. *)
Definition point_of (es : list element) (names : list string) (x : nat) : Prop :=
  exists e w, In e es /\ In (e_name e) names /\ In (w, x) (e_rule e).
