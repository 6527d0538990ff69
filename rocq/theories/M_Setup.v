(** Model of setting up a problem: [initialize] of the solver (dream/solver.py:358-419) for the conservative HDG
    formulation (dream/compressible/formulations/conservative.py).

    While the spaces, the initial values and the symbolic forms are built, the code evaluates the equations on symbolic
    unknowns.  Here they are evaluated on the values of the unknowns at one point, a [sample]; whether the set-up
    succeeds is a result about all samples.  The integrals themselves are modelled in [M_Weak].  The NGSolve spaces and
    grid functions are represented by their numbers of components. *)
From Coq Require Import Reals String List Arith Bool.
From Verif Require Import Base Dict M_Bla M_Flow M_Formulation M_Mixed M_Viscous M_Conditions.
Import ListNotations.
Open Scope R_scope.
Open Scope string_scope.
Open Scope list_scope.

(** What the user has given as fields of a condition: nothing, a mapping such as a dictionary, or the container
    [flowfields] (dream/compressible/config.py:29-69, 86-92, 108-115). *)
Inductive fields_value := Unset | Mapping (f : flow) | Fields (f : flow).

(** [fields] of a far field, outflow, characteristic condition or isothermal wall: a mapping is converted when it is
    assigned, reading an unset value raises ValueError (dream/compressible/config.py:86-96, 108-121, 129-138, 234-246). *)
Definition read_fields (g : fields_value) : result flow :=
  match g with Unset => Err ValueError | Mapping f | Fields f => Ok f end.

(** [fields] of an initial condition and [target_state] of a sponge layer are stored as they are
    (dream/mesh.py:268-275, 396-403); a plain mapping has no attribute [rho]. *)
Definition read_container (g : fields_value) : result flow :=
  match g with Unset => Err ValueError | Mapping _ => Err AttributeError | Fields f => Ok f end.

(** The options of a condition object (dream/compressible/config.py:82-253, dream/mesh.py:264-470); a condition uses
    those its class has. *)
Record options := mk_options {
  o_fields : fields_value;                (** [fields] *)
  o_identity : bool;               (** [identity_jacobian] *)
  o_target : cbc_target;           (** [target] *)
  o_factor : factor_value;         (** [relaxation_factor] *)
  o_beta : R;                      (** [tangential_relaxation] *)
  o_viscous : bool;                (** [is_viscous_fluxes] *)
  o_length : R;                    (** [length] *)
  o_target_state : fields_value;          (** [target_state] *)
  o_function : option R;           (** [function], its value at the point *)
  o_high_order : nat }.            (** [high_order] *)

(** A configured solver (dream/solver.py:311-345, dream/compressible/solver.py:21-138, conservative.py:815-826):
    [p_transient] is true for the transient and the pseudo time stepping configuration, which have a scheme and a timer
    (dream/time.py:277-289, 332-347), and false for the stationary one; [p_periodic]: the mesh has identified
    boundaries. *)
Record problem := mk_problem {
  p_settings : settings; p_order : nat; p_mixed : mixed_method; p_transient : bool; p_periodic : bool;
  p_bcs : conditions; p_dcs : conditions; p_options : cond -> options }.

(** The iteration orders of the sets that [to_pattern] goes through (dream/mesh.py:504-517). *)
Record orders := mk_orders { i_bcs : list cond; i_dcs : list cond; i_psponge : list cond; i_initial : list cond }.

(** The values of the unknowns at a point: element, facet and mixed unknown, the derivatives of the element and mixed
    unknown, the derivative of the facet unknown along the tangent, old level of the facet unknown, time step of the
    timer and of the scheme, normal, tangent (conservative.py:428-429, 449-451, 571-613). *)
Record sample := mk_sample {
  x_U : list R; x_Uhat : list R; x_Q : list R; x_dU : matrix; x_dQ : matrix; x_slope : list R; x_old : list R;
  x_step : R; x_dt : R; x_n : list R; x_t : list R }.

(** A vector of the wrong size cannot be combined with the unknowns (NGSolve, trusted base). *)
Definition fits (s : settings) (v : list R) : result unit :=
  if (length v =? s_dim s + 2)%nat then Ok tt else Err NgException.

(** The check of [reduce_psponge_layers_order_elementwise] and [..._facetwise] for every layer
    (dream/mesh.py:656-657, 689-690). *)
Fixpoint psponge_orders (order : nat) (o : cond -> options) (items : dict cond) : result unit :=
  match items with
  | [] => Ok tt
  | (_, c) :: rest => if (order <? o_high_order (o c))%nat then Err ValueError else psponge_orders order o rest
  end.

(** [HDG.add_finite_element_spaces] (conservative.py:401-418); the numbers of components of the spaces. *)
Definition hdg_spaces (P : problem) (is : orders) : result (dict nat) :=
  let s := p_settings P in
  let layers := to_pattern (p_dcs P) (i_psponge is) in
  let* _ := psponge_orders (p_order P) (p_options P) layers in
  let* _ := match layers with [] => Ok tt | _ => if (s_dim s =? 2)%nat then psponge_orders (p_order P) (p_options P) layers else Err NotImplementedError end in
  Ok [("U", s_dim s + 2); ("Uhat", s_dim s + 2)]%nat.

(** [is_inviscid] (dream/compressible/viscosity.py:15-17). *)
Definition is_inviscid (s : settings) : bool := match s_law s with Inviscid => true | _ => false end.

(** [add_mixed_finite_element_spaces] (conservative.py:67-70, 77-88, 280-291). *)
Definition mixed_spaces (P : problem) (is : orders) (fes : dict nat) : result (dict nat) :=
  let s := p_settings P in
  let layers := to_pattern (p_dcs P) (i_psponge is) in
  match p_mixed P with
  | MInactive => if negb (is_inviscid s) then Err TypeError else Ok fes
  | MStrainHeat =>
      if is_inviscid s then Err TypeError else
      let* _ := psponge_orders (p_order P) (p_options P) layers in Ok (dset fes "Q" (4 * s_dim s - 3)%nat)
  | MGradient =>
      if is_inviscid s then Err TypeError else
      let* _ := psponge_orders (p_order P) (p_options P) layers in Ok (dset fes "Q" (s_dim s * (s_dim s + 2))%nat)
  end.

(** [TimeSchemes.initialize] (dream/time.py:86-96) with [get_temporal_integrators] (conservative.py:768-772): the
    variables with older time levels must be unknowns. *)
Definition time_initialize (P : problem) (fes : dict nat) : result (list string) :=
  if p_transient P then
    let* cbc := has_condition (p_bcs P) (QClass "CBC") in
    let variables := "U" :: (if cbc : bool then ["Uhat"] else []) in
    if forallb (fun v => match dget fes v with Some _ => true | None => false end) variables then Ok variables else Err KeyError
  else Ok [].

(** [ConservativeFiniteElementMethod.set_initial_conditions] (conservative.py:882-890, dream/time.py:226-227): the
    initial vector of every domain.  The case of no initial condition at all is NGSolve's. *)
Fixpoint initial_values (P : problem) (items : dict cond) : result unit :=
  match items with
  | [] => Ok tt
  | (_, c) :: rest =>
      let* f := read_container (o_fields (p_options P c)) in
      let* v := conservative_vector (p_settings P) f in
      let* _ := fits (p_settings P) v in
      initial_values P rest
  end.

(** [add_convection_form] (conservative.py:420-439). *)
Definition setup_convection (P : problem) (x : sample) : result unit :=
  let s := p_settings P in
  let* U := get_conservative_fields s (x_U x) in
  let* _ := get_convective_flux s false U in
  let* _ := get_convective_numerical_flux s (x_U x) (x_Uhat x) (x_n x) in
  Ok tt.

(** [get_mixed_fields] (conservative.py:160-174, 305-318) of the mixed unknown; the inactive method has no unknown
    of that name.  The rows of the unknown of the gradient method. *)
Definition mixed_fields (P : problem) (x : sample) : result grads :=
  let d := s_dim (p_settings P) in
  match p_mixed P with
  | MInactive => Err KeyError
  | MStrainHeat => strain_heat_fields (p_settings P) (x_Q x)
  | MGradient => Ok (gradient_fields (p_settings P) (map (fun i => firstn d (skipn (i * d) (x_Q x))) (seq 0 (d + 2))))
  end.

(** [add_diffusion_form] (conservative.py:441-462), for a viscous solver only (conservative.py:838-839). *)
Definition setup_diffusion (P : problem) (x : sample) : result (list string) :=
  let s := p_settings P in
  if is_inviscid s then Ok [] else
  let* U := get_conservative_fields s (x_U x) in
  let* q := mixed_fields P x in
  let* _ := get_diffusive_flux s false U q in
  let* _ := get_diffusive_numerical_flux s (x_U x) (x_Uhat x) q (x_n x) in
  Ok ["diffusion"].

(** [add_mixed_form] (conservative.py:46-49, 90-122, 291-303). *)
Definition setup_mixed (P : problem) (x : sample) : result (list string) :=
  let s := p_settings P in
  match p_mixed P with
  | MInactive => Ok []
  | MStrainHeat =>
      if (s_dim s =? 3)%nat then Err NotImplementedError else
      let* _ := velocity_and_temperature s (x_U x) in
      let* _ := velocity_and_temperature s (x_Uhat x) in
      let* q := mixed_parts s (x_Q x) in
      let* _ := dev_zeta s (fst q) in
      Ok ["mixed"]
  | MGradient => Ok ["mixed"]
  end.

(** [add_farfield_formulation] (conservative.py:520-546). *)
Definition setup_farfield (P : problem) (x : sample) (o : options) : result unit :=
  let* f := read_fields (o_fields o) in
  let* v := conservative_vector (p_settings P) f in
  let* _ := farfield_residual (p_settings P) f (o_identity o) (x_U x) (x_Uhat x) (x_n x) in
  fits (p_settings P) v.

(** [add_outflow_formulation] (conservative.py:548-564); without pressure the container is built with a missing field. *)
Definition setup_outflow (P : problem) (x : sample) (o : options) : result unit :=
  let* f := read_fields (o_fields o) in
  match f_p f with
  | None => Err TypeError
  | Some p => let* _ := outflow_residual (p_settings P) p (x_U x) (x_Uhat x) in Ok tt
  end.

(** The kind of a characteristic condition (dream/compressible/config.py:185-217); the base class has none. *)
Definition kind_of (c : cond) (o : options) : option cbc_kind :=
  if is_kind c "NSCBC" then Some (KNSCBC (o_length o)) else if is_kind c "GRCBC" then Some KGRCBC else None.

(** [get_relaxation_matrix] as called by [add_cbc_formulation] (conservative.py:602-604). *)
Definition relaxation_matrix (s : settings) (k : cbc_kind) (f : factors) (step c : R) : result matrix :=
  match k with
  | KGRCBC => grcbc_relaxation_matrix (s_dim s) f (Some step)
  | KNSCBC len => nscbc_relaxation_matrix (s_dim s) f len (Some c) (Some (s_mach s))
  end.

(** [add_cbc_formulation] (conservative.py:566-620); the stationary configuration has no scheme.  The base class gives a
    dictionary instead of a matrix (dream/compressible/config.py:170-176), which is no factor. *)
Definition setup_cbc (P : problem) (x : sample) (c : cond) (o : options) : result unit :=
  let s := p_settings P in
  if negb (p_transient P) then Err AttributeError else
  let f := relaxation_factor (o_factor o) in
  let* g := read_fields (o_fields o) in
  let* v := cbc_state s (o_target o) g (x_U x) in
  let* Vhat := get_conservative_fields s (x_Uhat x) in
  let* a := speed_of_sound s Vhat in
  match kind_of c o with
  | None =>
      let* _ := relaxation_values (s_dim s) f in
      let* _ := conservative_from_characteristic s Vhat (x_n x) in
      let* _ := characteristic_from_conservative s Vhat (x_n x) in
      Err TypeError
  | Some k =>
  let* D := relaxation_matrix s k f (x_step x) a in
  let* _ := transform_characteristic_to_conservative s D Vhat (x_n x) in
  if negb (rows D =? s_dim s + 2)%nat then Err NgException else
  let* _ := cbc_residual s k (o_target o) f (o_beta o) g (x_step x) (x_dt x) (x_old x) (x_U x) (x_Uhat x) (x_slope x) (x_n x) (x_t x) None in
  let* _ := fits s v in
  if o_viscous o then
    let* w := cbc_viscous_terms s (p_mixed P) (o_target o) (x_U x) (x_Q x) (x_dU x) (x_dQ x) (x_n x) (x_t x) in
    let* _ := cbc_residual s k (o_target o) f (o_beta o) g (x_step x) (x_dt x) (x_old x) (x_U x) (x_Uhat x) (x_slope x) (x_n x) (x_t x) (Some w) in
    Ok tt
  else Ok tt
  end.

(** [add_isothermal_wall_formulation] (conservative.py:643-659). *)
Definition setup_isothermal (P : problem) (x : sample) (o : options) : result unit :=
  let* f := read_fields (o_fields o) in
  match f_T f with
  | None => Err TypeError
  | Some T => let* _ := isothermal_wall_residual (p_settings P) T (x_U x) (x_Uhat x) in Ok tt
  end.

(** One pass of the loop of [add_boundary_conditions] (conservative.py:470-496). *)
Definition setup_boundary (P : problem) (x : sample) (c : cond) : result (option formulation) :=
  let o := p_options P c in
  let term (r : result unit) (f : formulation) := let* _ := r in Ok (Some f) in
  if is_kind c "FarField" then term (setup_farfield P x o) FFarField
  else if is_kind c "CBC" then term (setup_cbc P x c o) FCbc
  else if is_kind c "Outflow" then term (setup_outflow P x o) FOutflow
  else if is_kind c "InviscidWall" || is_kind c "Symmetry" then
    term (let* _ := inviscid_wall_residual (p_settings P) (x_U x) (x_Uhat x) (x_n x) in Ok tt) FInviscidWall
  else if is_kind c "IsothermalWall" then term (setup_isothermal P x o) FIsothermalWall
  else if is_kind c "Periodic" then Ok None
  else if is_kind c "AdiabaticWall" then
    term (let* _ := adiabatic_wall_residual (p_settings P) (p_mixed P) (x_U x) (x_Uhat x) (x_Q x) (x_n x) in Ok tt) FAdiabaticWall
  else Err TypeError.

(** [add_sponge_layer_formulation] (conservative.py:690-703); reading an unset function raises ValueError
    (dream/mesh.py:307-310). *)
Definition setup_sponge (P : problem) (x : sample) (o : options) : result unit :=
  let* f := read_container (o_target_state o) in
  let* v := conservative_vector (p_settings P) f in
  match o_function o with
  | None => Err ValueError
  | Some w => let* _ := sponge_residual (p_settings P) f w (x_U x) in fits (p_settings P) v
  end.

(** One pass of the loop of [add_domain_conditions] (conservative.py:504-518); a polynomial layer is a sponge layer,
    its own branch is never reached. *)
Definition setup_domain (P : problem) (x : sample) (c : cond) : result (option formulation) :=
  if is_kind c "SpongeLayer" then let* _ := setup_sponge P x (p_options P c) in Ok (Some FSponge)
  else if is_kind c "PSpongeLayer" then let* _ := setup_sponge P x (p_options P c) in Ok (Some FPSponge)
  else if is_kind c "Initial" then Ok None
  else Err TypeError.

(** What is built: the spaces, the variables with older levels, the forms of the equations, the terms of the
    conditions (dream/solver.py:369-405). *)
Record built := mk_built { b_spaces : dict nat; b_levels : list string; b_forms : list string; b_terms : dict (formulation * string * cond) }.

(** [SolverConfiguration.initialize] (dream/solver.py:358-367, 369-373, 400-405, 415-419; conservative.py:828-849;
    dream/time.py:215-227, 289-302). *)
Definition initialize (P : problem) (is : orders) (x : sample) : result built :=
  let* fes := hdg_spaces P is in
  let* fes := mixed_spaces P is fes in
  let* _ := set_boundary_conditions (p_periodic P) (p_bcs P) in
  let* levels := time_initialize P fes in
  let* _ := initial_values P (to_pattern (p_dcs P) (i_initial is)) in
  let* _ := setup_convection P x in
  let* diffusion := setup_diffusion P x in
  let* mixed := setup_mixed P x in
  let* terms := add_terms (setup_boundary P x) (to_pattern (p_bcs P) (i_bcs is)) [] in
  let* terms := add_terms (setup_domain P x) (to_pattern (p_dcs P) (i_dcs is)) terms in
  Ok (mk_built fes levels ("convection" :: diffusion ++ mixed ++ (if p_transient P then ["time"] else [])) terms).
