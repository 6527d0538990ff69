(** Vocabulary for the positivity of density and pressure (C85). *)
From Coq Require Import Reals String List Arith Bool.
From Verif Require Import Base M_Bla M_Flow M_Formulation M_Weak S_Flow S_Chars S_Formulation S_Weak.
Import ListNotations.
Open Scope R_scope.
Open Scope list_scope.

(** The unknowns are constant on each element (order 0 of the finite element space). *)
Definition piecewise_constant (m : mesh) (U : nat -> list R) : Prop := forall x y, element m x = element m y -> U x = U y.

(** The weights of a rule are positive. *)
Definition positive_rule (q : rule) : Prop := forall w x, In (w, x) q -> 0 < w.

(** What a time step starts from: the last level, and for BDF2 the weighted difference of the last two. *)
Definition carried (sc : scheme) (x : nat) : list R :=
  match sc with
  | IE _ n => n x
  | BDF _ n nm1 => map (fun k => (4 * nth k (n x) 0 - nth k (nm1 x) 0) / 3) (seq 0 (length (n x)))
  end.

(** The length of the step. *)
Definition step_of (sc : scheme) : R := match sc with IE dt _ => dt | BDF dt _ _ => dt end.

(** The boundary points of a rule have unit normals of the dimension [d]. *)
Definition unit_normals (d : nat) (m : mesh) (q : rule) : Prop :=
  forall w y, In (w, y) q -> length (normal m y) = d /\ inner (normal m y) (normal m y) = 1.

(** The flow on the facets is physical. *)
Definition physical_facets (d : nat) (u : unknowns) (q : rule) : Prop := forall w y, In (w, y) q -> physical d (uUhat u y).

(** Sponge layers have nowhere negative functions and physical target states. *)
Definition proper_sponges (s : settings) (ls : list sponge) : Prop :=
  forall l w x, In l ls -> In (w, x) (s_rule l) -> 0 < w /\ 0 <= s_function l x /\
    exists v, conservative_vector s (s_target l x) = Ok v /\ physical (s_dim s) v.

(** Density, energy and momentum at most these. *)
Definition bounded_by (d : nat) (M E : R) (U : list R) : Prop :=
  0 < nth 0 U 0 <= M /\ 0 < nth (d + 1) U 0 <= E /\ total d (fun j => nth (j + 1) U 0 ^ 2) < 2 * M * E.
