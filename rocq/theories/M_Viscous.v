(** Model of the Jacobians of the diffusive flux and of the viscous terms of the characteristic boundary condition
    (dream/compressible/formulations/conservative.py:51-52, 124-158, 176-273). *)
From Coq Require Import Reals String List Arith Bool.
From Verif Require Import Base M_Bla M_Flow M_Formulation.
Import ListNotations.
Open Scope R_scope.
Open Scope list_scope.

(** [ux, uy = U.u] (conservative.py:184, 203, 233, 253): a missing velocity can not be unpacked (TypeError), another
    number of components is a ValueError. *)
Definition unpack2 (u : option (list R)) : result (R * R) :=
  match u with Some [ux; uy] => Ok (ux, uy) | Some _ => Err ValueError | None => Err TypeError end.

(** [get_conservative_diffusive_jacobian_x] (conservative.py:176-193). *)
Definition conservative_diffusive_jacobian_x (s : settings) (U : flow) (Q : grads) : result matrix :=
  if (s_dim s =? 3)%nat then Err NotImplementedError else
  let* rho := density s U in
  let* tau := deviatoric_stress_tensor s U Q in
  let txx := entry tau 0 0 in
  let txy := entry tau 0 1 in
  let* u := unpack2 (f_u U) in
  Ok (mk_matrix 4 4 [0; 0; 0; 0;
                     0; 0; 0; 0;
                     0; 0; 0; 0;
                     - txx * fst u / rho - txy * snd u / rho; txx / rho; txy / rho; 0]).

(** [get_conservative_diffusive_jacobian_y] (conservative.py:195-212). *)
Definition conservative_diffusive_jacobian_y (s : settings) (U : flow) (Q : grads) : result matrix :=
  if (s_dim s =? 3)%nat then Err NotImplementedError else
  let* rho := density s U in
  let* tau := deviatoric_stress_tensor s U Q in
  let tyx := entry tau 1 0 in
  let tyy := entry tau 1 1 in
  let* u := unpack2 (f_u U) in
  Ok (mk_matrix 4 4 [0; 0; 0; 0;
                     0; 0; 0; 0;
                     0; 0; 0; 0;
                     - tyx * fst u / rho - tyy * snd u / rho; tyx / rho; tyy / rho; 0]).

(** [get_conservative_diffusive_jacobian] (conservative.py:214-223). *)
Definition conservative_diffusive_jacobian (s : settings) (U : flow) (Q : grads) (n : list R) : result matrix :=
  if (s_dim s =? 3)%nat then Err NotImplementedError else
  let* A := conservative_diffusive_jacobian_x s U Q in
  let* B := conservative_diffusive_jacobian_y s U Q in
  Ok (madd (scale (nth 0 n 0) A) (scale (nth 1 n 0) B)).

(** [get_mixed_diffusive_jacobian_x] (conservative.py:225-243). *)
Definition mixed_diffusive_jacobian_x (s : settings) (U : flow) : result matrix :=
  if (s_dim s =? 3)%nat then Err NotImplementedError else
  let* re := reference_reynolds_number s in
  let* pr := prandtl_number s in
  let* mu := viscosity s U in
  let* u := unpack2 (f_u U) in
  Ok (scale (mu / re) (mk_matrix 4 5 [0; 0; 0; 0; 0;
                                      2; 0; 0; 0; 0;
                                      0; 2; 0; 0; 0;
                                      2 * fst u; 2 * snd u; 0; 1 / pr; 0])).

(** [get_mixed_diffusive_jacobian_y] (conservative.py:245-263). *)
Definition mixed_diffusive_jacobian_y (s : settings) (U : flow) : result matrix :=
  if (s_dim s =? 3)%nat then Err NotImplementedError else
  let* re := reference_reynolds_number s in
  let* pr := prandtl_number s in
  let* mu := viscosity s U in
  let* u := unpack2 (f_u U) in
  Ok (scale (mu / re) (mk_matrix 4 5 [0; 0; 0; 0; 0;
                                      0; 2; 0; 0; 0;
                                      0; 0; 2; 0; 0;
                                      0; 2 * fst u; 2 * snd u; 0; 1 / pr])).

(** [get_mixed_diffusive_jacobian] (conservative.py:265-273). *)
Definition mixed_diffusive_jacobian (s : settings) (U : flow) (n : list R) : result matrix :=
  if (s_dim s =? 3)%nat then Err NotImplementedError else
  let* A := mixed_diffusive_jacobian_x s U in
  let* B := mixed_diffusive_jacobian_y s U in
  Ok (madd (scale (nth 0 n 0) A) (scale (nth 1 n 0) B)).

(** A matrix coefficient function indexed with one number (conservative.py:147-153): its entries row by row. *)
Definition flat (m : matrix) (k : nat) : R := nth k (entries m) 0.

(** [StrainHeat.get_cbc_viscous_terms] (conservative.py:124-158).  [U], [Q]: the unknowns, [dU], [dQ]: the matrices of
    their derivatives, [n], [t]: normal and tangent of the mesh. *)
Definition strain_heat_viscous_terms (s : settings) (tg : cbc_target) (U Q : list R) (dU dQ : matrix) (n t : list R) : result (list R) :=
  if (s_dim s =? 3)%nat then Err NotImplementedError else
  let* V := get_conservative_fields s U in
  let* q := strain_heat_fields s Q in
  let Rm := mtrans (mk_matrix 2 2 (n ++ t)) in
  let g := mvmul dQ n in
  let G k := nth k g 0 in
  let e := mmul (mmul (mtrans Rm) (mk_matrix 2 2 [G 0%nat; G 1%nat; G 1%nat; G 2%nat])) Rm in
  let '(e', h) :=
    match tg with
    | TOutflow => (mmul (mmul Rm (mk_matrix 2 2 [flat e 0; 0; 0; flat e 2])) (mtrans Rm),
                   mvmul Rm [0; nth 1 (mvmul (mtrans Rm) [G 3%nat; G 4%nat]) 0])
    | _ => (mmul (mmul Rm (mk_matrix 2 2 [0; flat e 1; flat e 1; flat e 2])) (mtrans Rm), [G 3%nat; G 4%nat])
    end in
  let g' := [flat e' 0; flat e' 1; flat e' 2; nth 0 h 0; nth 1 h 0] in
  let* Jt := conservative_diffusive_jacobian s V q t in
  let* Jn := conservative_diffusive_jacobian s V q n in
  let* Kt := mixed_diffusive_jacobian s V t in
  let* Kn := mixed_diffusive_jacobian s V n in
  Ok (vadd (vadd (vadd (mvmul Jt (mvmul dU t)) (mvmul Jn (mvmul dU n))) (mvmul Kt (mvmul dQ t))) (mvmul Kn g')).

(** [get_cbc_viscous_terms] of the mixed methods (conservative.py:51-52, 124-158): the inactive and the gradient method
    have only the default of the base class. *)
Definition cbc_viscous_terms (s : settings) (mm : mixed_method) (tg : cbc_target) (U Q : list R) (dU dQ : matrix) (n t : list R) : result (list R) :=
  match mm with
  | MStrainHeat => strain_heat_viscous_terms s tg U Q dU dQ n t
  | _ => Ok (repeat 0 (s_dim s + 2))
  end.
