(** Model of the weak forms of the conservative formulation
    (dream/compressible/formulations/conservative.py, dream/time.py:144-204).

    NGSolve integrates by weighted sums over quadrature points, so an integral is modelled by such a sum; every form may
    have its own points and weights (the code gives different integration orders).  A point is a number; a point on the
    boundary of an element belongs to that element, so the two sides of a facet have different points.  Functions of the
    element and of the facet spaces are given by their values at the points.  The mixed form is modelled separately, it
    is the only one that has the test function of the mixed unknown and it has no other. *)
From Coq Require Import Reals String List Arith Bool.
From Verif Require Import Base M_Bla M_Flow M_Formulation.
Import ListNotations.
Open Scope R_scope.
Open Scope list_scope.

(** A quadrature rule: weights and points (NGSolve [dx], [dx(element_boundary=True)], [ds(skeleton=True)]). *)
Definition rule := list (R * nat).

(** The value of an integral; the first exception while the integrand is built is raised (NGSolve, trusted base). *)
Fixpoint integral (q : rule) (f : nat -> result R) : result R :=
  match q with
  | [] => Ok 0
  | (w, x) :: q' => let* a := f x in let* b := integral q' f in Ok (w * a + b)
  end.

(** What the forms know of the mesh (NGSolve): the element of a point, the facet of a boundary point, the outward unit
    normal there, and the facets of the domain boundaries, where [get_domain_boundary_mask] (conservative.py:774-786)
    is 0. *)
Record mesh := mk_mesh { element : nat -> nat; facet : nat -> nat; normal : nat -> list R; outer_facet : nat -> bool }.

(** [get_domain_boundary_mask] (conservative.py:774-786). *)
Definition mask (m : mesh) (y : nat) : R := if outer_facet m (facet m y) then 0 else 1.

(** Values of the unknowns: element unknown, facet unknown and mixed unknown (conservative.py:428-429, 449-451). *)
Record unknowns := mk_unknowns { uU : nat -> list R; uUhat : nat -> list R; uQ : nat -> grads }.

(** Values of the test functions: element function, its gradient, facet function (conservative.py:428-429). *)
Record test := mk_test { tV : nat -> list R; tdV : nat -> matrix; tVhat : nat -> list R }.

(** [F] of [add_convection_form] (conservative.py:431-434). *)
Definition convection_F (s : settings) (u : unknowns) (x : nat) : result matrix :=
  let* U := get_conservative_fields s (uU u x) in get_convective_flux s false U.
(** [Fn] of [add_convection_form] (conservative.py:431-432, 435). *)
Definition convection_Fn (s : settings) (m : mesh) (u : unknowns) (y : nat) : result (list R) :=
  get_convective_numerical_flux s (uU u y) (uUhat u y) (normal m y).

(** [add_convection_form] (conservative.py:420-439); [vol], [bnd]: the rules of the integrals. *)
Definition convection_form (s : settings) (m : mesh) (vol bnd : rule) (u : unknowns) (t : test) : result R :=
  let* a := integral vol (fun x => let* F := convection_F s u x in Ok (- inner (entries F) (entries (tdV t x)))) in
  let* b := integral bnd (fun y => let* Fn := convection_Fn s m u y in Ok (inner Fn (tV t y))) in
  let* c := integral bnd (fun y => let* Fn := convection_Fn s m u y in Ok (- mask m y * inner Fn (tVhat t y))) in
  Ok (a + b + c).

(** [G] of [add_diffusion_form] (conservative.py:453-457). *)
Definition diffusion_G (s : settings) (u : unknowns) (x : nat) : result matrix :=
  let* U := get_conservative_fields s (uU u x) in get_diffusive_flux s false U (uQ u x).
(** [Gn] of [add_diffusion_form] (conservative.py:453-458). *)
Definition diffusion_Gn (s : settings) (m : mesh) (u : unknowns) (y : nat) : result (list R) :=
  get_diffusive_numerical_flux s (uU u y) (uUhat u y) (uQ u y) (normal m y).

(** [add_diffusion_form] (conservative.py:441-462). *)
Definition diffusion_form (s : settings) (m : mesh) (vol bnd : rule) (u : unknowns) (t : test) : result R :=
  let* a := integral vol (fun x => let* G := diffusion_G s u x in Ok (inner (entries G) (entries (tdV t x)))) in
  let* b := integral bnd (fun y => let* Gn := diffusion_Gn s m u y in Ok (inner Gn (tV t y))) in
  let* c := integral bnd (fun y => let* Gn := diffusion_Gn s m u y in Ok (mask m y * inner Gn (tVhat t y))) in
  Ok (a - b + c).

(** A boundary condition: its rule and the vector that multiplies the test function of the facets
    (conservative.py:546, 564, 620, 641, 659, 688; the vectors are modelled in [M_Formulation]). *)
Record bterm := mk_bterm { b_rule : rule; b_vector : nat -> result (list R) }.

(** [add_boundary_conditions] (conservative.py:464-496): the sum of the terms. *)
Fixpoint boundary_form (bs : list bterm) (t : test) : result R :=
  match bs with
  | [] => Ok 0
  | b :: bs' =>
      let* a := integral (b_rule b) (fun y => let* r := b_vector b y in Ok (inner r (tVhat t y))) in
      let* c := boundary_form bs' t in Ok (a + c)
  end.

(** A sponge layer: its rule, target state and function (conservative.py:690-703). *)
Record sponge := mk_sponge { s_rule : rule; s_target : nat -> flow; s_function : nat -> R }.

(** [add_domain_conditions] (conservative.py:498-518): the sum of the terms of the sponge layers. *)
Fixpoint domain_form (s : settings) (ls : list sponge) (u : unknowns) (t : test) : result R :=
  match ls with
  | [] => Ok 0
  | l :: ls' =>
      let* a := integral (s_rule l) (fun x => let* r := sponge_residual s (s_target l x) (s_function l x) (uU u x) in Ok (inner r (tV t x))) in
      let* c := domain_form s ls' u t in Ok (a + c)
  end.

(** The time scheme with the older levels of the element unknown (dream/time.py:169-204). *)
Inductive scheme := IE (dt : R) (n : nat -> list R) | BDF (dt : R) (n nm1 : nat -> list R).

(** [get_time_derivative] (dream/time.py:175-176, 192-193). *)
Definition time_derivative (sc : scheme) (U : list R) (x : nat) : list R :=
  match sc with
  | IE dt n => vdiv (vsub U (n x)) dt
  | BDF dt n nm1 => vdiv (vadd (vsub (vscale 3 U) (vscale 4 (n x))) (nm1 x)) (2 * dt)
  end.

(** [ImplicitSchemes.add_symbolic_temporal_forms] (dream/time.py:144-153) for the element unknown. *)
Definition time_form (sc : scheme) (q : rule) (u : unknowns) (t : test) : result R :=
  integral q (fun x => Ok (inner (time_derivative sc (uU u x) x) (tV t x))).

(** The rules of all integrals over elements and element boundaries (conservative.py:437-439, 459-462;
    dream/time.py:144-153). *)
Record rules := mk_rules { r_cvol : rule; r_cbnd : rule; r_dvol : rule; r_dbnd : rule; r_time : rule }.

(** The forms of the problem that have the test functions of the flow unknowns
    ([ConservativeFiniteElementMethod.add_symbolic_spatial_forms] and [add_symbolic_temporal_forms],
    conservative.py:832-851; dream/solver.py:400-405). *)
Definition weak_form (s : settings) (m : mesh) (r : rules) (bs : list bterm) (ls : list sponge) (sc : scheme)
  (u : unknowns) (t : test) : result R :=
  let* c := convection_form s m (r_cvol r) (r_cbnd r) u t in
  let* d := match s_law s with Inviscid => Ok 0 | _ => diffusion_form s m (r_dvol r) (r_dbnd r) u t end in
  let* b := boundary_form bs t in
  let* l := domain_form s ls u t in
  let* h := time_form sc (r_time r) u t in
  Ok (c + d + b + l + h).
