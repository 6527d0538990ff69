(** Vocabulary for the weak forms: contents, fluxes, test functions. *)
From Coq Require Import Reals String List Arith Bool Permutation.
From Verif Require Import Base M_Bla M_Flow M_Formulation M_Weak S_Flow S_Chars S_Formulation.
Import ListNotations.
Open Scope R_scope.
Open Scope list_scope.

(** The weighted sum of the values [f]. *)
Fixpoint weighted (q : rule) (f : nat -> R) : R := match q with [] => 0 | (w, x) :: q' => w * f x + weighted q' f end.

(** The part of a rule at the points that satisfy [p]. *)
Definition at_points (p : nat -> bool) (q : rule) : rule := filter (fun wx => p (snd wx)) q.

(** How much of component [k] there is, e.g. the mass for [k = 0]. *)
Definition content (q : rule) (U : nat -> list R) (k : nat) : R := weighted q (fun x => nth k (U x) 0).

(** Component [k] of a vector that the code computes. *)
Definition component (v : nat -> result (list R)) (k : nat) (x : nat) : R := match v x with Ok l => nth k l 0 | Err _ => 0 end.

Definition computed (q : rule) (v : nat -> result (list R)) : Prop := forall w x, In (w, x) q -> exists l, v x = Ok l.

(** What flows out through the boundary points of a rule: convection minus diffusion. *)
Definition outflow (s : settings) (m : mesh) (r : rules) (u : unknowns) (p : nat -> bool) (k : nat) : R :=
  weighted (at_points p (r_cbnd r)) (component (convection_Fn s m u) k)
  - match s_law s with Inviscid => 0 | _ => weighted (at_points p (r_dbnd r)) (component (diffusion_Gn s m u) k) end.

(** What sponge layers take away. *)
Fixpoint damped (s : settings) (ls : list sponge) (u : unknowns) (p : nat -> bool) (k : nat) : R :=
  match ls with
  | [] => 0
  | l :: ls' => weighted (at_points p (s_rule l)) (component (fun x => sponge_residual s (s_target l x) (s_function l x) (uU u x)) k) + damped s ls' u p k
  end.

(** The rate at which the scheme changes component [k] at a point. *)
Definition rate (sc : scheme) (u : unknowns) (k : nat) (x : nat) : R :=
  match sc with
  | IE dt n => (nth k (uU u x) 0 - nth k (n x) 0) / dt
  | BDF dt n nm1 => (3 * nth k (uU u x) 0 - 4 * nth k (n x) 0 + nth k (nm1 x) 0) / (2 * dt)
  end.

(** All values of the scheme have [k] components. *)
Definition levels_have (k : nat) (sc : scheme) : Prop :=
  match sc with IE _ n => forall x, length (n x) = k | BDF _ n nm1 => forall x, length (n x) = k /\ length (nm1 x) = k end.

(** The vector with 1 at position [k]. *)
Definition basis (n k : nat) : list R := map (fun i => delta k i) (seq 0 n).

(** The test function that is 1 in component [k] on the chosen elements and facets and 0 elsewhere; its gradient in the
    elements is 0. *)
Definition constant_test (d : nat) (m : mesh) (k : nat) (A B : nat -> bool) : test :=
  mk_test (fun x => if A (element m x) then basis (d + 2) k else repeat 0 (d + 2))
          (fun _ => tabulate (d + 2) d (fun _ _ => 0))
          (fun y => if B (facet m y) then basis (d + 2) k else repeat 0 (d + 2)).

(** The discontinuous element space and the facet space contain the functions that are constant on each element and on
    each facet. *)
Definition has_constants (d : nat) (m : mesh) (W : test -> Prop) : Prop :=
  forall k A B, (k < d + 2)%nat -> W (constant_test d m k A B).

(** The unknowns solve the discrete problem of a time step. *)
Definition solves (s : settings) (m : mesh) (r : rules) (bs : list bterm) (ls : list sponge) (sc : scheme) (W : test -> Prop) (u : unknowns) : Prop :=
  forall t, W t -> weak_form s m r bs ls sc u t = Ok 0.

(** Boundary conditions are given on domain boundaries. *)
Definition on_domain_boundary (m : mesh) (bs : list bterm) : Prop :=
  forall b w y, In b bs -> In (w, y) (b_rule b) -> outer_facet m (facet m y) = true.

(** Every boundary point of an interior facet has a partner on the other side: same weight, opposite normal, same value
    of the facet functions. *)
Definition two_sided (m : mesh) (bnd : rule) (twin : nat -> nat) : Prop :=
  let interior := at_points (fun y => negb (outer_facet m (facet m y))) bnd in
  Permutation (map (fun wy => (fst wy, twin (snd wy))) interior) interior /\
  forall w y, In (w, y) interior -> normal m (twin y) = map Ropp (normal m y).

(** The rules integrate the product rule exactly: divergence theorem of component [k] in direction [j]. *)
Definition gauss (d : nat) (m : mesh) (vol bnd : rule) (t : test) : Prop :=
  forall k j, (k < d + 2)%nat -> (j < d)%nat ->
    weighted vol (fun x => entry (tdV t x) k j) = weighted bnd (fun y => nth k (tV t y) 0 * nth j (normal m y) 0).

(** The condition of an inviscid wall (or a symmetry) holds at the boundary point [y]. *)
Definition slips (s : settings) (m : mesh) (u : unknowns) (y : nat) : Prop :=
  length (normal m y) = s_dim s /\ inner (normal m y) (normal m y) = 1 /\ length (uUhat u y) = (s_dim s + 2)%nat /\
  (exists st, valid st /\ length (st_u st) = s_dim s /\ uU u y = conservative_list (s_gamma s) st) /\
  exists r, inviscid_wall_residual s (uU u y) (uUhat u y) (normal m y) = Ok r /\ vanishes r.

(** The condition of an isothermal wall holds at the boundary point [y]. *)
Definition sticks (s : settings) (m : mesh) (u : unknowns) (T : R) (y : nat) : Prop :=
  0 < T /\ length (normal m y) = s_dim s /\ length (uUhat u y) = (s_dim s + 2)%nat /\
  (exists st, valid st /\ length (st_u st) = s_dim s /\ uU u y = conservative_list (s_gamma s) st) /\
  exists r, isothermal_wall_residual s T (uU u y) (uUhat u y) = Ok r /\ vanishes r.

(** A test function has the components of the spaces. *)
Definition well_formed (d : nat) (t : test) : Prop :=
  forall x, length (tV t x) = (d + 2)%nat /\ length (tVhat t x) = (d + 2)%nat /\
    rows (tdV t x) = (d + 2)%nat /\ cols (tdV t x) = d /\ length (entries (tdV t x)) = ((d + 2) * d)%nat.

(** The facet function has the same value on both sides. *)
Definition single_valued (twin : nat -> nat) (t : test) : Prop := forall y, tVhat t (twin y) = tVhat t y.

(** The unknowns are those of the uniform flow [st]. *)
Definition uniform (s : settings) (u : unknowns) (st : state) : Prop :=
  forall x, uU u x = conservative_list (s_gamma s) st /\ uUhat u x = conservative_list (s_gamma s) st.

(** All levels of the scheme hold the uniform flow. *)
Definition steady (s : settings) (sc : scheme) (st : state) : Prop :=
  match sc with
  | IE _ n => forall x, n x = conservative_list (s_gamma s) st
  | BDF _ n nm1 => forall x, n x = conservative_list (s_gamma s) st /\ nm1 x = conservative_list (s_gamma s) st
  end.
