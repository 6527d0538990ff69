(** Vocabulary for the states on the facets between two elements. *)
From Coq Require Import Reals List Arith Bool.
From Verif Require Import Base M_Bla M_Flow M_Formulation M_Weak S_Flow S_Chars S_Formulation S_Weak.
Import ListNotations.
Open Scope R_scope.

(** What leaves one element with state [U] through a facet with state [st] and normal [n] enters the other, with state [U']. *)
Definition balanced (s : settings) (U U' : list R) (st : state) (n : list R) : Prop :=
  exists f f', get_convective_numerical_flux s U (conservative_list (s_gamma s) st) n = Ok f /\
    get_convective_numerical_flux s U' (conservative_list (s_gamma s) st) (map Ropp n) = Ok f' /\
    forall i, (i < s_dim s + 2)%nat -> nth i f 0 + nth i f' 0 = 0.

(** [W] is the mean of [U] and [U'] with the weights [a] and [b]. *)
Definition mean_of (d : nat) (a b : R) (U U' W : list R) : Prop :=
  forall i, (i < d + 2)%nat -> nth i W 0 = (a * nth i U 0 + b * nth i U' 0) / (a + b).

(** The fastest waves leaving and entering. *)
Definition leaving (un c : R) : R := Rmax (un + c) 0.
Definition entering (un c : R) : R := Rmax (c - un) 0.

(** The number a wave has for the neighbour: the acoustic waves change places. *)
Definition mirror (k : nat) : nat := match k with 0%nat => 3%nat | 3%nat => 0%nat | _ => k end.

(** The same state with another density: a contact. *)
Definition with_density (r : R) (s : state) : state := mk_state r (st_u s) (st_p s).

(** The same unknowns with other states on the facets. *)
Definition with_facets (w : nat -> list R) (u : unknowns) : unknowns := mk_unknowns (uU u) w (uQ u).

(** A test function of the facets alone. *)
Definition facet_test (d : nat) (twin : nat -> nat) (t : test) : Prop :=
  well_formed d t /\ single_valued twin t /\ forall x, tV t x = repeat 0 (d + 2) /\ tdV t x = tabulate (d + 2) d (fun _ _ => 0).

(** The points of the facets between elements. *)
Definition inner_points (m : mesh) (bnd : rule) : rule := at_points (fun y => negb (outer_facet m (facet m y))) bnd.
