(** Model of the conservative formulation, point by point
    (dream/compressible/formulations/conservative.py, dream/compressible/config.py).

    The integrals of the weak forms are not modelled.  A boundary condition is modelled by the vector that is
    multiplied with the test function on the boundary, at one point with unit normal [n], from the values of the
    unknowns at that point: [U] the element unknown, [Uhat] the facet unknown, lists of mass, momentum and energy. *)
From Coq Require Import Reals String List Arith Bool.
From Verif Require Import Base M_Bla M_Flow.
Import ListNotations.
Open Scope R_scope.
Open Scope list_scope.

(** ** Fields *)

(** [get_conservative_fields] (conservative.py:341-361).  The unknowns are never NGSolve's zero function. *)
Definition get_conservative_fields (s : settings) (U : list R) : result flow :=
  let d := s_dim s in
  let rho := nth 0 U 0 in
  let m := firstn d (skipn 1 U) in
  let e := nth (d + 1) U 0 in
  let* u := velocity false (mk_flow (Some rho) None (Some m) None None (Some e) None None None None None None None None) in
  let* k := kinetic_energy (mk_flow (Some rho) (Some u) (Some m) None None (Some e) None None None None None None None None) in
  let* i := inner_energy s (mk_flow (Some rho) (Some u) (Some m) None None (Some e) None None None (Some k) None None None None) in
  let* p := pressure s (mk_flow (Some rho) (Some u) (Some m) None None (Some e) None (Some i) None (Some k) None None None None) in
  let* T := temperature s (mk_flow (Some rho) (Some u) (Some m) (Some p) None (Some e) None (Some i) None (Some k) None None None None) in
  let* c := speed_of_sound s (mk_flow (Some rho) (Some u) (Some m) (Some p) (Some T) (Some e) None (Some i) None (Some k) None None None None) in
  Ok (mk_flow (Some rho) (Some u) (Some m) (Some p) (Some T) (Some e) None (Some i) None (Some k) None None None (Some c)).

(** [get_conservative_gradient_fields] (conservative.py:363-380) of a grid function; [dU]: the rows of its gradient. *)
Definition get_conservative_gradient_fields (s : settings) (U : list R) (dU : list (list R)) : result (flow * grads) :=
  let d := s_dim s in
  let* V := get_conservative_fields s U in
  let drho := nth 0 dU [] in
  let dm := mk_matrix d d (concat (firstn d (skipn 1 dU))) in
  let de := nth (d + 1) dU [] in
  let* du := velocity_gradient V (mk_grads (Some drho) None (Some dm) None None (Some de) None None None None None None None) in
  let* dk := kinetic_energy_gradient V (mk_grads (Some drho) (Some du) (Some dm) None None (Some de) None None None None None None None) in
  let* di := inner_energy_gradient (mk_grads (Some drho) (Some du) (Some dm) None None (Some de) None None None (Some dk) None None None) in
  let* dp := pressure_gradient s V (mk_grads (Some drho) (Some du) (Some dm) None None (Some de) None (Some di) None (Some dk) None None None) in
  let* dT := temperature_gradient s V (mk_grads (Some drho) (Some du) (Some dm) (Some dp) None (Some de) None (Some di) None (Some dk) None None None) in
  Ok (V, mk_grads (Some drho) (Some du) (Some dm) (Some dp) (Some dT) (Some de) None (Some di) None (Some dk) None None None).

(** The vector of density, momentum and energy of given fields (conservative.py:382-390, 531-534, 560,
    580-583, 697-700). *)
Definition conservative_vector (s : settings) (U : flow) : result (list R) :=
  let* rho := density s U in
  let* m := momentum U in
  let* e := energy s U in
  Ok (rho :: m ++ [e]).

(** The mixed methods (conservative.py:63-318). *)
Inductive mixed_method := MInactive | MStrainHeat | MGradient.

(** [StrainHeat.get_mixed_fields] (conservative.py:160-174). *)
Definition strain_heat_fields (s : settings) (Q : list R) : result grads :=
  let k := (3 * s_dim s - 3)%nat in
  let* eps := symmetric_matrix (firstn k Q) 1 in
  Ok (mk_grads None None None None (Some (skipn k Q)) None None None None None None None (Some eps)).

(** [Gradient.get_mixed_fields] (conservative.py:305-318); [Q]: the rows of the unknown. *)
Definition gradient_fields (s : settings) (Q : list (list R)) : grads :=
  let d := s_dim s in
  mk_grads (Some (nth 0 Q [])) None (Some (mk_matrix d d (concat (firstn d (skipn 1 Q))))) None None
    (Some (nth (d + 1) Q [])) None None None None None None None.

(** ** Numerical fluxes *)

(** [get_diffusive_stabilisation_matrix] (conservative.py:54-60). *)
Definition get_diffusive_stabilisation_matrix (s : settings) (U : flow) : result matrix :=
  let* re := reference_reynolds_number s in
  let* pr := prandtl_number s in
  let* mu := viscosity s U in
  Ok (mdiv (scale mu (diagonal (0 :: repeat 1 (s_dim s) ++ [1 / pr]))) re).

(** [get_convective_numerical_flux] (conservative.py:731-747). *)
Definition get_convective_numerical_flux (s : settings) (U Uhat n : list R) : result (list R) :=
  let* Vhat := get_conservative_fields s Uhat in
  let* tau := get_convective_stabilisation_matrix s false Vhat n in
  let* F := get_convective_flux s false Vhat in
  Ok (vadd (mvmul F n) (mvmul tau (vsub U Uhat))).

(** [get_diffusive_numerical_flux] (conservative.py:749-766). *)
Definition get_diffusive_numerical_flux (s : settings) (U Uhat : list R) (Q : grads) (n : list R) : result (list R) :=
  let* Vhat := get_conservative_fields s Uhat in
  let* tau := get_diffusive_stabilisation_matrix s Vhat in
  let* G := get_diffusive_flux s false Vhat Q in
  Ok (vsub (mvmul G n) (mvmul tau (vsub U Uhat))).

(** ** Boundary conditions: the vector multiplied with the facet test function *)

(** [add_farfield_formulation] (conservative.py:520-546). *)
Definition farfield_residual (s : settings) (fields : flow) (identity_jacobian : bool) (U Uhat n : list R) : result (list R) :=
  let* Vhat := get_conservative_fields s Uhat in
  let* U_infty := conservative_vector s fields in
  if identity_jacobian then
    let* Q_in := get_conservative_convective_identity s Vhat n Incoming in
    let* Q_out := get_conservative_convective_identity s Vhat n Outgoing in
    Ok (vsub (vsub Uhat (mvmul Q_out U)) (mvmul Q_in U_infty))
  else
    let* An_in := get_conservative_convective_jacobian s Vhat n Incoming in
    let* An_out := get_conservative_convective_jacobian s Vhat n Outgoing in
    Ok (vsub (mvmul An_out (vsub Uhat U)) (mvmul An_in (vsub Uhat U_infty))).

(** The boundary state of [add_outflow_formulation] (conservative.py:548-564); [p]: pressure of the condition. *)
Definition outflow_state (s : settings) (p : R) (U : list R) : result (list R) :=
  let* V := get_conservative_fields s U in
  conservative_vector s (mk_flow (f_rho V) None (f_rho_u V) (Some p) None None None None None (f_rho_Ek V) None None None None).
(** The vector of [add_outflow_formulation] (conservative.py:563). *)
Definition outflow_residual (s : settings) (p : R) (U Uhat : list R) : result (list R) :=
  let* U_bc := outflow_state s p U in Ok (vsub Uhat U_bc).

(** The boundary state of [add_inviscid_wall_formulation] (conservative.py:622-641). *)
Definition inviscid_wall_state (s : settings) (U n : list R) : result (list R) :=
  let* V := get_conservative_fields s U in
  let* rho := density s V in
  let* m := momentum V in
  let* e := energy s V in
  Ok (rho :: vsub m (vscale (inner m n) n) ++ [e]).
(** The vector of [add_inviscid_wall_formulation] (conservative.py:640). *)
Definition inviscid_wall_residual (s : settings) (U Uhat n : list R) : result (list R) :=
  let* U_bc := inviscid_wall_state s U n in Ok (vsub Uhat U_bc).

(** The boundary state of [add_isothermal_wall_formulation] (conservative.py:643-659); [T]: temperature of the
    condition. *)
Definition isothermal_wall_state (s : settings) (T : R) (U : list R) : result (list R) :=
  let* V := get_conservative_fields s U in
  let U_bc := mk_flow (f_rho V) None (Some (repeat 0 (s_dim s))) None (Some T) None None None None (Some 0) None None None None in
  let* rho := density s U_bc in
  let* m := momentum U_bc in
  let* e := inner_energy s U_bc in
  Ok (rho :: m ++ [e]).
(** The vector of [add_isothermal_wall_formulation] (conservative.py:658). *)
Definition isothermal_wall_residual (s : settings) (T : R) (U Uhat : list R) : result (list R) :=
  let* U_bc := isothermal_wall_state s T U in Ok (vsub Uhat U_bc).

(** Difference of coefficient functions; NGSolve refuses different numbers of components (trusted base). *)
Definition cf_sub (a b : list R) : result (list R) :=
  if (length a =? length b)%nat then Ok (vsub a b) else Err NgException.

(** [add_adiabatic_wall_formulation] (conservative.py:661-688).  The stabilisation matrix times a number is a matrix,
    whose entries all become components of the boundary state. *)
Definition adiabatic_wall_residual (s : settings) (mm : mixed_method) (U Uhat Q n : list R) : result (list R) :=
  match mm with
  | MStrainHeat =>
      let* V := get_conservative_fields s U in
      let* Vhat := get_conservative_fields s Uhat in
      let* dQ := strain_heat_fields s Q in
      let* tau := get_diffusive_stabilisation_matrix s V in
      let* dT := temperature_gradient s V dQ in
      match f_rho V, f_rho Vhat, f_rho_u Vhat, f_rho_E V, f_rho_E Vhat with
      | Some rho, Some rhohat, Some mhat, Some e, Some ehat =>
          cf_sub Uhat ((rhohat - rho) :: mhat ++ entries (scale (ehat - e + inner dT n) tau))
      | _, _, _, _, _ => Err TypeError
      end
  | _ => Err NotImplementedError
  end.

(** ** Characteristic boundary conditions *)

(** What can be assigned to [relaxation_factor] (config.py:151-160). *)
Inductive factor_value := FScalar (x : R) | FSequence (l : list R) | FDict (l : list (string * R)) | FOther.

(** What is stored: a dictionary, or the list of names if the value is of no known kind
    (dream/compressible/config.py:153-160). *)
Inductive factors := Factors (l : list (string * R)) | Names (l : list string).

(** The names of the waves (dream/compressible/config.py:153). *)
Definition characteristic_names : list string := ["acoustic_in"; "entropy"; "vorticity_0"; "vorticity_1"; "acoustic_out"]%string.

(** [CBC.relaxation_factor] (config.py:151-160). *)
Definition relaxation_factor (v : factor_value) : factors :=
  match v with
  | FScalar x => Factors (map (fun k => (k, x)) characteristic_names)
  | FSequence l => Factors (combine characteristic_names l)
  | FDict l => Factors (combine characteristic_names (map snd l))
  | FOther => Names characteristic_names
  end.

(** [dict.pop] without default (Python; used in dream/compressible/config.py:174). *)
Fixpoint pop (k : string) (l : list (string * R)) : result (list (string * R)) :=
  match l with
  | [] => Err KeyError
  | (k', x) :: l' => if String.eqb k k' then Ok l' else let* r := pop k l' in Ok ((k', x) :: r)
  end.

(** [CBC.get_relaxation_matrix] (config.py:170-176) and the values its callers take from it (config.py:195, 212, 214);
    [list.pop] of a name raises TypeError, a list has no [values]. *)
Definition relaxation_values (d : nat) (f : factors) : result (list R) :=
  match f with
  | Factors l => let* l' := (if (d =? 2)%nat then pop "vorticity_1" l else Ok l) in Ok (map snd l')
  | Names _ => if (d =? 2)%nat then Err TypeError else Err AttributeError
  end.

(** [GRCBC.get_relaxation_matrix] (config.py:189-196). *)
Definition grcbc_relaxation_matrix (d : nat) (f : factors) (dt : option R) : result matrix :=
  match dt with
  | None => Err ValueError
  | Some dt => let* C := relaxation_values d f in Ok (mdiv (diagonal C) dt)
  end.

(** [NSCBC.get_relaxation_matrix] (config.py:206-215). *)
Definition nscbc_relaxation_matrix (d : nat) (f : factors) (len : R) (c M : option R) : result matrix :=
  match c, M with
  | Some c, Some M =>
      let* sigmas := relaxation_values d f in
      let eig := (c * (1 - M ^ 2)) :: repeat c d ++ [c * (1 - M ^ 2)] in
      Ok (diagonal (map (fun fe => fst fe * snd fe / len) (combine sigmas eig)))
  | _, _ => Err ValueError
  end.

(** The kinds of characteristic conditions (config.py:185-217). *)
Inductive cbc_kind := KGRCBC | KNSCBC (len : R).

(** [CBC.target] (config.py:140-149). *)
Inductive cbc_target := TFarfield | TOutflow | TMassInflow | TTemperatureInflow.

(** The boundary state of [add_cbc_formulation] (conservative.py:579-598).  A container that is built with a missing
    field raises TypeError (dream/config.py:104-111: [CF(None)], trusted base). *)
Definition cbc_state (s : settings) (t : cbc_target) (fields : flow) (U : list R) : result (list R) :=
  let* V := get_conservative_fields s U in
  match t with
  | TFarfield => conservative_vector s fields
  | TOutflow =>
      match f_p fields with
      | Some p => conservative_vector s (mk_flow (f_rho V) None (f_rho_u V) (Some p) None None None None None (f_rho_Ek V) None None None None)
      | None => Err TypeError
      end
  | TMassInflow =>
      match f_rho fields, f_rho_u fields, f_rho_Ek fields with
      | Some rho, Some m, Some k => conservative_vector s (mk_flow (Some rho) None (Some m) (f_p V) None None None None None (Some k) None None None None)
      | _, _, _ => Err TypeError
      end
  | TTemperatureInflow =>
      let* rho := isentropic_density s V fields in
      match f_u fields with
      | Some u =>
          let* k := specific_kinetic_energy (mk_flow (Some rho) (Some u) None None (f_T V) None None None None None None None None None) in
          conservative_vector s (mk_flow (Some rho) (Some u) None None (f_T V) None None None None None (Some k) None None None)
      | None => Err TypeError
      end
  end.

(** [add_cbc_formulation] (conservative.py:566-620).  [step]: time step of the timer, [dt], [Uhat_n]: normalised step
    and level of the time scheme (dream/time.py:169-204), [slope]: derivative of the facet unknown along the tangent [t],
    [beta]: tangential relaxation, [viscous]: the viscous terms if asked for. *)
Definition cbc_residual (s : settings) (k : cbc_kind) (tg : cbc_target) (f : factors) (beta : R) (fields : flow)
    (step dt : R) (Uhat_n U Uhat slope n t : list R) (viscous : option (list R)) : result (list R) :=
  let* Vhat := get_conservative_fields s Uhat in
  let* U_bc := cbc_state s tg fields U in
  let* c := speed_of_sound s Vhat in
  let* D0 := match k with
             | KGRCBC => grcbc_relaxation_matrix (s_dim s) f (Some step)
             | KNSCBC len => nscbc_relaxation_matrix (s_dim s) f len (Some c) (Some (s_mach s))
             end in
  let* D := transform_characteristic_to_conservative s D0 Vhat n in
  let* Qin := get_conservative_convective_identity s Vhat n Incoming in
  let* Qout := get_conservative_convective_identity s Vhat n Outgoing in
  let* B := get_conservative_convective_jacobian s Vhat t Full in
  let r := vsub (vsub Uhat (mvmul Qout U)) (mvmul Qin Uhat_n) in
  let r := vsub r (mvmul (mmul (scale dt Qin) D) (vsub U_bc Uhat)) in
  let r := vadd r (mvmul (mmul (scale (dt * beta) Qin) B) slope) in
  Ok match viscous with Some v => vsub r (mvmul (scale dt Qin) v) | None => r end.

(** ** Sponge layers: the vector multiplied with the element test function *)

(** [add_sponge_layer_formulation] (conservative.py:690-703) and the equal-order case of
    [add_psponge_layer_formulation] (conservative.py:713-720, 728); [w]: value of the layer function. *)
Definition sponge_residual (s : settings) (target : flow) (w : R) (U : list R) : result (list R) :=
  let* V := conservative_vector s target in Ok (vscale w (vsub U V)).
