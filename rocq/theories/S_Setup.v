(** Vocabulary for the statements about setting up a problem: what a user has to provide. *)
From Coq Require Import Reals String List Arith Bool.
From Verif Require Import Base Dict M_Bla M_Flow M_Formulation M_Conditions M_Setup S_Flow S_Conditions.
Import ListNotations.
Open Scope R_scope.
Open Scope string_scope.
Open Scope list_scope.

(** The fields that determine density, momentum and energy. *)
Definition density_from : list (list fname) := [[Rho]; [Pp; Tt]; [Pp; Cc]; [RhoEi; Tt]].
Definition momentum_from : list (list fname) := [[RhoU]; [Rho; Uu]].
Definition inner_energy_from : list (list fname) := [[RhoEi]; [Pp]; [Rho; Tt]; [RhoE; RhoEk]].
Definition kinetic_energy_from : list (list fname) := [[RhoEk]; [Rho; Uu]; [Rho; RhoU]; [RhoE; RhoEi]; [Rho; Eke]].

(** The fields describe a complete state in [d] dimensions: density, momentum and energy (or inner and kinetic energy)
    are determined by them, and the momentum (or, without it, the velocity) has [d] components. *)
Definition complete (d : nat) (f : flow) : Prop :=
  determined density_from f /\ determined momentum_from f /\
  (determined [[RhoE]; [Rho; Ee]] f \/ determined inner_energy_from f /\ determined kinetic_energy_from f) /\
  (forall m, f_rho_u f = Some m -> length m = d) /\
  (f_rho_u f = None -> forall u, f_u f = Some u -> length u = d).

(** The fields were given, as a mapping or as a container; or as a container. *)
Definition provides (g : fields_value) (f : flow) : Prop := g = Mapping f \/ g = Fields f.

(** The relaxation factor: one number, or at least one number for each of the five characteristic names. *)
Definition usable_factor (v : factor_value) : Prop :=
  match v with
  | FScalar _ => True
  | FSequence l => (5 <= length l)%nat
  | FDict l => (5 <= length l)%nat
  | FOther => False
  end.

(** The fields a characteristic condition needs for its target. *)
Definition target_fields (d : nat) (t : cbc_target) (f : flow) : Prop :=
  match t with
  | TFarfield => complete d f
  | TOutflow => f_p f <> None
  | TMassInflow => f_rho f <> None /\ f_rho_Ek f <> None /\ exists m, f_rho_u f = Some m /\ length m = d
  | TTemperatureInflow => f_rho f <> None /\ (f_p f <> None \/ f_T f <> None) /\ exists u, f_u f = Some u /\ length u = d
  end.

(** A boundary condition that can be set up. *)
Inductive boundary_ready (P : problem) (c : cond) : Prop :=
| ready_farfield f : isa (c_class c) "FarField" -> s_dim (p_settings P) = 2%nat -> provides (o_fields (p_options P c)) f -> complete 2 f -> boundary_ready P c
| ready_cbc f : isa (c_class c) "GRCBC" \/ isa (c_class c) "NSCBC" -> s_dim (p_settings P) = 2%nat -> p_transient P = true ->
    provides (o_fields (p_options P c)) f -> target_fields 2 (o_target (p_options P c)) f -> usable_factor (o_factor (p_options P c)) -> boundary_ready P c
| ready_outflow f : isa (c_class c) "Outflow" -> provides (o_fields (p_options P c)) f -> f_p f <> None -> boundary_ready P c
| ready_wall : isa (c_class c) "InviscidWall" \/ isa (c_class c) "Symmetry" -> boundary_ready P c
| ready_isothermal f : isa (c_class c) "IsothermalWall" -> provides (o_fields (p_options P c)) f -> f_T f <> None -> boundary_ready P c
| ready_periodic : isa (c_class c) "Periodic" -> boundary_ready P c.

(** A domain condition that can be set up. *)
Inductive domain_ready (P : problem) (c : cond) : Prop :=
| ready_sponge f : isa (c_class c) "SpongeLayer" -> o_target_state (p_options P c) = Fields f -> complete (s_dim (p_settings P)) f ->
    o_function (p_options P c) <> None -> domain_ready P c
| ready_initial : isa (c_class c) "Initial" -> domain_ready P c.

(** An initial condition that gives a state. *)
Definition initial_ready (P : problem) (c : cond) : Prop :=
  exists f, o_fields (p_options P c) = Fields f /\ complete (s_dim (p_settings P)) f.

(** The physical model: an inviscid solver without mixed method, or a viscous solver with the strain-heat method in two
    dimensions (Sutherland's law with aerodynamic scaling needs a positive Mach number); in three dimensions only the
    Lax-Friedrich and the HLL flux. *)
Definition physics_ready (P : problem) : Prop :=
  let s := p_settings P in
  (s_law s = Inviscid /\ p_mixed P = MInactive \/
   s_law s <> Inviscid /\ p_mixed P = MStrainHeat /\ s_dim s = 2%nat /\
   (forall m, s_law s = Sutherland m -> s_scaling s = Aerodynamic -> 0 < s_mach s)) /\
  (s_dim s = 2%nat \/ s_riemann s = LaxFriedrich \/ s_riemann s = HLL).

(** The polynomial layers reduce the order, in two dimensions. *)
Definition layer_ready (P : problem) (c : cond) : Prop :=
  s_dim (p_settings P) = 2%nat /\ (o_high_order (p_options P c) <= p_order P)%nat.

(** The mesh agrees with the conditions. *)
Definition mesh_ready (P : problem) : Prop :=
  p_periodic P = true -> exists r c, carries (p_bcs P) r c /\ isa (c_class c) "Periodic".

(** The condition is the one in effect on some regions. *)
Definition in_effect (k : conditions) (order : list cond) (c : cond) : Prop := exists p, In (p, c) (to_pattern k order).

(** Everything that is in effect can be set up. *)
Definition supported (P : problem) (is : orders) : Prop :=
  physics_ready P /\ mesh_ready P /\
  (forall c, in_effect (p_dcs P) (i_psponge is) c -> layer_ready P c) /\
  (forall c, in_effect (p_dcs P) (i_initial is) c -> initial_ready P c) /\
  (forall c, in_effect (p_bcs P) (i_bcs is) c -> boundary_ready P c) /\
  (forall c, in_effect (p_dcs P) (i_dcs is) c -> domain_ready P c).

(** Everything that is attached can be set up. *)
Definition all_ready (P : problem) : Prop :=
  physics_ready P /\ mesh_ready P /\
  (forall r c, carries (p_bcs P) r c -> boundary_ready P c) /\
  (forall r c, carries (p_dcs P) r c -> domain_ready P c /\
     (isa (c_class c) "Initial" -> initial_ready P c) /\ (isa (c_class c) "PSpongeLayer" -> layer_ready P c)).

(** The unknowns of the problem: a sample has the right numbers of components. *)
Definition sample_of (P : problem) (x : sample) : Prop :=
  let d := s_dim (p_settings P) in
  length (x_U x) = (d + 2)%nat /\ length (x_Uhat x) = (d + 2)%nat /\ length (x_n x) = d /\ length (x_t x) = d /\
  length (x_old x) = (d + 2)%nat /\ length (x_slope x) = (d + 2)%nat /\
  length (x_Q x) = (match p_mixed P with MInactive => 0 | MStrainHeat => 4 * d - 3 | MGradient => d * (d + 2) end)%nat.

(** Iteration orders of the sets of conditions. *)
Definition orders_of (P : problem) (is : orders) : Prop :=
  iteration_order (p_bcs P) "Condition" (i_bcs is) /\ iteration_order (p_dcs P) "Condition" (i_dcs is) /\
  iteration_order (p_dcs P) "PSpongeLayer" (i_psponge is) /\ iteration_order (p_dcs P) "Initial" (i_initial is).
