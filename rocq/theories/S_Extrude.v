(** Vocabulary for plane flows in three dimensions (C88). *)
From Coq Require Import Reals String List Arith Bool.
From Verif Require Import Base M_Bla M_Flow M_Formulation M_Weak S_Weak.
Import ListNotations.
Open Scope R_scope.
Open Scope list_scope.

(** The settings for three dimensions. *)
Definition deep (s : settings) : settings :=
  mk_settings (s_gamma s) (s_mach s) (s_reynolds s) (s_prandtl s) (s_scaling s) (s_law s) (s_riemann s) (s_ref_T s) 3.

(** Density, momentum and energy of a plane flow, with no momentum in the third direction. *)
Definition lift (l : list R) : list R := [nth 0 l 0; nth 1 l 0; nth 2 l 0; 0; nth 3 l 0].

(** A stack of layers over a plane mesh: points and weights in the third direction, the lower and upper sides of the layers
    with the direction of their normals, the point at a given height above a point of the plane mesh, and its projection
    to a side of a layer. *)
Record stack := mk_stack { heights : rule; lids : rule; at_height : nat -> nat -> nat; at_lid : nat -> nat -> nat }.

(** Quadrature over the prisms above the plane mesh, and over the sides of the layers. *)
Definition prism_rule (K : stack) (q : rule) : rule := concat (map (fun wx => map (fun vj => (fst wx * fst vj, at_height K (snd wx) (snd vj))) (heights K)) q).
Definition lid_rule (K : stack) (q : rule) : rule := concat (map (fun wx => map (fun ge => (fst wx, at_lid K (snd wx) (snd ge))) (lids K)) q).
Definition prism_rules (K : stack) (r : rules) : rules :=
  mk_rules (prism_rule K (r_cvol r)) (prism_rule K (r_cbnd r) ++ lid_rule K (r_cvol r)) [] [] (prism_rule K (r_time r)).

(** The mesh of the prisms: upright sides have the normals of the plane mesh, the sides of the layers vertical ones. *)
Definition prisms (K : stack) (m m3 : mesh) : Prop :=
  (forall y j, normal m3 (at_height K y j) = normal m y ++ [0]) /\
  (forall g e x, In (g, e) (lids K) -> (g = 1 \/ g = -1) /\ normal m3 (at_lid K x e) = [0; 0; g]) /\
  (forall y j, outer_facet m3 (facet m3 (at_height K y j)) = outer_facet m (facet m y)).

(** The flow is the plane flow at every height. *)
Definition plane_flow (K : stack) (u u3 : unknowns) : Prop :=
  (forall x j, uU u3 (at_height K x j) = lift (uU u x) /\ uUhat u3 (at_height K x j) = lift (uUhat u x)) /\
  (forall x g e, In (g, e) (lids K) -> uU u3 (at_lid K x e) = lift (uU u x) /\ uUhat u3 (at_lid K x e) = lift (uU u x)).

Definition plane_scheme (K : stack) (sc sc3 : scheme) : Prop :=
  match sc, sc3 with
  | IE dt n, IE dt' n' => dt' = dt /\ forall x j, n' (at_height K x j) = lift (n x)
  | BDF dt n nm1, BDF dt' n' nm1' => dt' = dt /\ forall x j, n' (at_height K x j) = lift (n x) /\ nm1' (at_height K x j) = lift (nm1 x)
  | _, _ => False
  end.
Definition plane_levels (sc : scheme) : Prop :=
  match sc with IE _ n => forall x, length (n x) = 4%nat | BDF _ n nm1 => forall x, length (n x) = 4%nat /\ length (nm1 x) = 4%nat end.

(** A boundary condition or sponge layer of the plane flow, above all its points. *)
Definition plane_term (K : stack) (b b3 : bterm) : Prop :=
  b_rule b3 = prism_rule K (b_rule b) /\ forall y j r, b_vector b y = Ok r -> length r = 4%nat /\ b_vector b3 (at_height K y j) = Ok (lift r).
Definition plane_layer (s : settings) (K : stack) (l l3 : sponge) : Prop :=
  s_rule l3 = prism_rule K (s_rule l) /\ forall x j U r, length U = 4%nat -> sponge_residual s (s_target l x) (s_function l x) U = Ok r ->
    length r = 4%nat /\ sponge_residual (deep s) (s_target l3 (at_height K x j)) (s_function l3 (at_height K x j)) (lift U) = Ok (lift r).

(** What the plane problem sees of a test function: its integral over the height. *)
Definition over_height (K : stack) (f : nat -> R) : R := weighted (heights K) f.
Definition flatten (K : stack) (t : test) : test :=
  mk_test (fun x => map (fun k => over_height K (fun j => nth k (tV t (at_height K x j)) 0)) [0; 1; 2; 4]%nat)
          (fun x => mk_matrix 4 2 (flat_map (fun k => map (fun l => over_height K (fun j => entry (tdV t (at_height K x j)) k l)) [0; 1]%nat) [0; 1; 2; 4]%nat))
          (fun x => map (fun k => over_height K (fun j => nth k (tVhat t (at_height K x j)) 0)) [0; 1; 2; 4]%nat).

(** The quadrature over the height is exact for vertical derivatives, and the facet functions of the sides of layers between
    two layers have one value. *)
Definition vertical (K : stack) (m3 : mesh) (t : test) : Prop := forall x,
  over_height K (fun j => entry (tdV t (at_height K x j)) 3 2) = weighted (lids K) (fun e => nth 3 (tV t (at_lid K x e)) 0) /\
  weighted (lids K) (fun e => (if outer_facet m3 (facet m3 (at_lid K x e)) then 0 else 1) * nth 3 (tVhat t (at_lid K x e)) 0) = 0.
