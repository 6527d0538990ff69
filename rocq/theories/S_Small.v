(** Vocabulary for small disturbances of a uniform flow in the plane: disturbances of density, velocity and pressure,
    their energy, boundaries that let waves out or reflect them, spaces of test functions. *)
From Coq Require Import Reals String List Arith Bool Permutation.
From Coquelicot Require Import Coquelicot.
From Verif Require Import Base M_Bla M_Flow M_Formulation M_Weak S_Flow S_Chars S_Formulation S_Weak S_March.
Import ListNotations.
Open Scope R_scope.
Open Scope list_scope.

(** The unknowns [u eps] are those of the uniform flow [st] for [eps = 0]; [e] is the rate at which they leave it. *)
Definition family (s : settings) (st : state) (u : R -> unknowns) (e : test) : Prop :=
  uniform s (u 0) st /\
  forall x, (forall eps, length (uU (u eps) x) = 4%nat /\ length (uUhat (u eps) x) = 4%nat) /\
    forall k, (k < 4)%nat ->
      is_derive (fun eps => nth k (uU (u eps) x) 0) 0 (nth k (tV e x) 0) /\
      is_derive (fun eps => nth k (uUhat (u eps) x) 0) 0 (nth k (tVhat e x) 0).

(** The changes of density, velocity and pressure that belong to the change [v] of mass, momentum and energy. *)
Definition d_density (v : list R) : R := nth 0 v 0.
Definition d_velocity (st : state) (v : list R) (i : nat) : R := (nth (i + 1) v 0 - nth i (st_u st) 0 * nth 0 v 0) / st_rho st.
Definition d_pressure (g : R) (st : state) (v : list R) : R :=
  let ux := nth 0 (st_u st) 0 in let uy := nth 1 (st_u st) 0 in
  (g - 1) * (nth 3 v 0 - (ux * nth 1 v 0 + uy * nth 2 v 0) + (ux * ux + uy * uy) / 2 * nth 0 v 0).

(** The energy of a disturbance: motion, compression, and [al] times the part of the density that is not due to compression. *)
Definition disturbance_energy (g : R) (st : state) (al : R) (v : list R) : R :=
  let c := q_c g st in
  st_rho st / 2 * (d_velocity st v 0 ^ 2 + d_velocity st v 1 ^ 2) + d_pressure g st v ^ 2 / (2 * st_rho st * c ^ 2)
  + al / 2 * (d_density v - d_pressure g st v / c ^ 2) ^ 2.

(** The energy of the disturbance in the domain. *)
Definition disturbance (g : R) (st : state) (al : R) (q : rule) (e : test) : R :=
  weighted q (fun x => disturbance_energy g st al (tV e x)).

(** A boundary: far field (with or without Jacobian) or inviscid wall and symmetry. *)
Inductive edge := FarEdge (identity : bool) (fields : flow) | SlipEdge.

(** What multiplies the test function of the facets on a boundary ([M_Formulation]). *)
Definition edge_vector (s : settings) (m : mesh) (u : unknowns) (k : edge) (y : nat) : result (list R) :=
  match k with
  | FarEdge b fields => farfield_residual s fields b (uU u y) (uUhat u y) (normal m y)
  | SlipEdge => inviscid_wall_residual s (uU u y) (uUhat u y) (normal m y)
  end.
Definition edge_terms (s : settings) (m : mesh) (bs : list (rule * edge)) (u : unknowns) : list bterm :=
  map (fun qk => mk_bterm (fst qk) (edge_vector s m u (snd qk))) bs.

(** The uniform flow suits the boundary: a far field has its values and no wave stands still there, a wall is parallel to the flow.
    (Upwind at walls is excluded.) *)
Definition suits (s : settings) (st : state) (n : list R) (k : edge) : Prop :=
  match k with
  | FarEdge _ fields => conservative_vector s fields = Ok (conservative_list (s_gamma s) st) /\
      forall j, (j < 4)%nat -> wave_speed (inner (st_u st) n) (q_c (s_gamma s) st) j <> 0
  | SlipEdge => inner (st_u st) n = 0 /\ s_riemann s <> Upwind
  end.

(** Every point of the domain boundary belongs to one boundary; the facets of the domain boundary are straight. *)
Definition enclosed (s : settings) (m : mesh) (st : state) (bnd : rule) (bs : list (rule * edge)) : Prop :=
  Permutation (at_points (fun y => outer_facet m (facet m y)) bnd) (concat (map fst bs)) /\
  exists (side : nat -> edge) (direction : nat -> list R), forall q k w y, In (q, k) bs -> In (w, y) q ->
    side (facet m y) = k /\ direction (facet m y) = normal m y /\ suits s st (normal m y) k.

(** Sponge layers pull towards the uniform flow. *)
Definition calms (s : settings) (st : state) (ls : list sponge) : Prop :=
  forall l, In l ls -> nonnegative (s_rule l) /\
    forall w x, In (w, x) (s_rule l) -> conservative_vector s (s_target l x) = Ok (conservative_list (s_gamma s) st) /\ 0 <= s_function l x.

(** Unit normals and nonnegative weights. *)
Definition plane_mesh (m : mesh) (bnd : rule) : Prop :=
  nonnegative bnd /\ forall w y, In (w, y) bnd -> exists n0 n1, unit2 (normal m y) n0 n1.

(** The components mixed by [H] in all elements and by [K f] on facet [f]. *)
Definition mixed (m : mesh) (H : matrix) (K : nat -> matrix) (t : test) : test :=
  mk_test (fun x => mvmul H (tV t x)) (fun x => mmul H (tdV t x)) (fun y => mvmul (K (facet m y)) (tVhat t y)).

(** The rules integrate the product rule for the products of two components exactly. *)
Definition gauss_products (m : mesh) (vol bnd : rule) (t : test) : Prop :=
  forall k l j, (k < 4)%nat -> (l < 4)%nat -> (j < 2)%nat ->
    weighted vol (fun x => nth k (tV t x) 0 * entry (tdV t x) l j + entry (tdV t x) k j * nth l (tV t x) 0) =
    weighted bnd (fun y => nth k (tV t y) 0 * nth l (tV t y) 0 * nth j (normal m y) 0).

(** All components have the same space, facet functions have one value and are independent of each other on different facets. *)
Definition test_space (m : mesh) (r : rules) (twin : nat -> nat) (W : test -> Prop) : Prop :=
  forall t, W t -> well_formed 2 t /\ single_valued twin t /\ gauss_products m (r_cvol r) (r_cbnd r) t /\
    forall H K, shape 4 H -> (forall f, shape 4 (K f)) -> W (mixed m H K t).
