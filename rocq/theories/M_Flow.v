(** The ideal gas, the equations of the compressible flow solver, viscosity laws, scalings and Riemann solvers
    (dream/compressible/eos.py, solver.py, viscosity.py, scaling.py, riemann_solver.py).
    Coefficient functions are represented by their value at a point; scalars are real numbers (rounding is not
    modelled); vectors are lists and matrices as in [M_Bla].  A shape mismatch inside an NGSolve operation is not
    represented.  A coefficient function counts as true in [all((...))] because it is a non-empty object. *)
From Coq Require Import Reals List Bool Arith.
From Verif Require Import Base M_Bla.
Import ListNotations.
Open Scope R_scope.

(** ** NGSolve arithmetic *)

(** [bla.abs], [bla.max], [bla.min] of coefficient functions (dream/bla.py:19-45); compare [M_Bla.bla_abs] etc. *)
Definition cf_abs (x : R) : R := ifpos x x (- x).
(** [bla.max] of coefficient functions (dream/bla.py:28-31). *)
Definition cf_max (x y : R) : R := ifpos (x - y) x y.
(** [bla.min] of coefficient functions (dream/bla.py:38-41). *)
Definition cf_min (x y : R) : R := ifpos (x - y) y x.

(** Sum, difference, multiple and quotient of vectors (NGSolve; used in dream/compressible/solver.py:323-640). *)
Fixpoint vadd (x y : list R) : list R := match x, y with a :: x', b :: y' => (a + b) :: vadd x' y' | _, _ => [] end.
(** Difference of vectors (NGSolve; used in dream/compressible/solver.py:323-726). *)
Fixpoint vsub (x y : list R) : list R := match x, y with a :: x', b :: y' => (a - b) :: vsub x' y' | _, _ => [] end.
(** Multiple of a vector (NGSolve; used in dream/compressible/solver.py:323-726). *)
Definition vscale (f : R) (x : list R) : list R := map (Rmult f) x.
(** Quotient of a vector and a number (NGSolve; used in dream/compressible/solver.py:323-726). *)
Definition vdiv (x : list R) (f : R) : list R := map (fun a => a / f) x.

(** A matrix given by a function of row and column (NGSolve [CF(..., dims=...)]). *)
Definition tabulate (n m : nat) (f : nat -> nat -> R) : matrix :=
  mk_matrix n m (flat_map (fun i => map (f i) (seq 0 m)) (seq 0 n)).

(** Sum of a list (NGSolve products). *)
Definition rsum (l : list R) : R := fold_right Rplus 0 l.

(** Product of matrices, matrix times vector, transposed matrix, identity (NGSolve [*], [.trans], [Id]). *)
Definition mmul (a b : matrix) : matrix :=
  tabulate (rows a) (cols b) (fun i j => rsum (map (fun k => entry a i k * entry b k j) (seq 0 (cols a)))).
(** Matrix times vector (NGSolve [*]; used in dream/compressible/formulations/conservative.py:745). *)
Definition mvmul (a : matrix) (x : list R) : list R :=
  map (fun i => rsum (map (fun k => entry a i k * nth k x 0) (seq 0 (cols a)))) (seq 0 (rows a)).
(** Transposed matrix (NGSolve [.trans]; used in dream/compressible/solver.py:607). *)
Definition mtrans (a : matrix) : matrix := tabulate (cols a) (rows a) (fun i j => entry a j i).
(** Identity matrix (NGSolve [Id]; used in dream/compressible/solver.py:227). *)
Definition idm (n : nat) : matrix := tabulate n n (fun i j => if (i =? j)%nat then 1 else 0).

(** Sum and difference of matrices, entry by entry (NGSolve). *)
Definition madd (a b : matrix) : matrix := mk_matrix (rows a) (cols a) (vadd (entries a) (entries b)).
(** Difference of matrices (NGSolve). *)
Definition msub (a b : matrix) : matrix := mk_matrix (rows a) (cols a) (vsub (entries a) (entries b)).
(** Quotient of a matrix and a number (NGSolve). *)
Definition mdiv (a : matrix) (f : R) : matrix := mk_matrix (rows a) (cols a) (vdiv (entries a) f).

(** ** Fields *)

(** [flowfields] as the equations read them: a value or None for each quantity
    (dream/compressible/config.py:29-54; the container is modelled in [M_Fields]). *)
Record flow := mk_flow {
  f_rho : option R; f_u : option (list R); f_rho_u : option (list R); f_p : option R; f_T : option R;
  f_rho_E : option R; f_E : option R; f_rho_Ei : option R; f_Ei : option R; f_rho_Ek : option R; f_Ek : option R;
  f_rho_H : option R; f_H : option R; f_c : option R }.

(** The gradients among the [flowfields] (dream/compressible/config.py:55-69). *)
Record grads := mk_grads {
  g_rho : option (list R); g_u : option matrix; g_rho_u : option matrix; g_p : option (list R); g_T : option (list R);
  g_rho_E : option (list R); g_E : option (list R); g_rho_Ei : option (list R); g_Ei : option (list R);
  g_rho_Ek : option (list R); g_Ek : option (list R); g_rho_H : option (list R); g_eps : option matrix }.

(** [@equation] (dream/config.py:29-46). *)
Definition equation {A} (q : result (option A)) : result A :=
  match q with Ok (Some v) => Ok v | Ok None => Err ValueError | Err e => Err e end.

(** ** The ideal gas (dream/compressible/eos.py); [g]: heat capacity ratio *)

(** [IdealGas.density] (eos.py:99-126). *)
Definition eos_density (g : R) (U : flow) : option R :=
  match f_rho U with Some rho => Some rho | None =>
  match f_p U, f_T U with Some p, Some T => Some (g / (g - 1) * p / T) | _, _ =>
  match f_p U, f_c U with Some p, Some c => Some (g * p / c ^ 2) | _, _ =>
  match f_rho_Ei U, f_T U with Some e, Some T => Some (g * e / T) | _, _ => None
  end end end end.

(** [IdealGas.pressure] (eos.py:128-155). *)
Definition eos_pressure (g : R) (U : flow) : option R :=
  match f_p U with Some p => Some p | None =>
  match f_rho U, f_T U with Some rho, Some T => Some ((g - 1) / g * rho * T) | _, _ =>
  match f_rho_Ei U with Some e => Some ((g - 1) * e) | None =>
  match f_rho U, f_c U with Some rho, Some c => Some (rho * c ^ 2 / g) | _, _ => None
  end end end end.

(** [IdealGas.temperature] (eos.py:157-184). *)
Definition eos_temperature (g : R) (U : flow) : option R :=
  match f_T U with Some T => Some T | None =>
  match f_p U, f_rho U with Some p, Some rho => Some (g / (g - 1) * p / rho) | _, _ =>
  match f_Ei U with Some e => Some (g * e) | None =>
  match f_c U with Some c => Some (c ^ 2 / (g - 1)) | None => None
  end end end end.

(** [IdealGas.inner_energy] (eos.py:186-208). *)
Definition eos_inner_energy (g : R) (U : flow) : option R :=
  match f_rho_Ei U with Some e => Some e | None =>
  match f_p U with Some p => Some (p / (g - 1)) | None =>
  match f_rho U, f_T U with Some rho, Some T => Some (rho * T / g) | _, _ => None
  end end end.

(** [IdealGas.specific_inner_energy] (eos.py:210-232). *)
Definition eos_specific_inner_energy (g : R) (U : flow) : option R :=
  match f_Ei U with Some e => Some e | None =>
  match f_T U with Some T => Some (T / g) | None =>
  match f_rho U, f_p U with Some rho, Some p => Some (p / (g - 1) / rho) | _, _ => None
  end end end.

(** [IdealGas.speed_of_sound] (eos.py:234-261). *)
Definition eos_speed_of_sound (g : R) (U : flow) : option R :=
  match f_c U with Some c => Some c | None =>
  match f_rho U, f_p U with Some rho, Some p => Some (sqrt (g * p / rho)) | _, _ =>
  match f_T U with Some T => Some (sqrt ((g - 1) * T)) | None =>
  match f_Ei U with Some e => Some (sqrt ((g - 1) * e / g)) | None => None
  end end end end.

(** [IdealGas.density_gradient] (eos.py:263-283). *)
Definition eos_density_gradient (g : R) (U : flow) (dU : grads) : option (list R) :=
  match g_rho dU with Some d => Some d | None =>
  match f_p U, f_T U, g_p dU, g_T dU with
  | Some p, Some T, Some dp, Some dT => Some (vscale (g / (g - 1)) (vsub (vdiv dp T) (vdiv (vscale p dT) (T ^ 2))))
  | _, _, _, _ =>
  match f_T U, f_rho_Ei U, g_T dU, g_rho_Ei dU with
  | Some T, Some e, Some dT, Some de => Some (vscale g (vsub (vdiv de T) (vdiv (vscale e dT) (T ^ 2))))
  | _, _, _, _ => None
  end end end.

(** [IdealGas.pressure_gradient] (eos.py:285-305). *)
Definition eos_pressure_gradient (g : R) (U : flow) (dU : grads) : option (list R) :=
  match g_p dU with Some d => Some d | None =>
  match f_rho U, f_T U, g_rho dU, g_T dU with
  | Some rho, Some T, Some drho, Some dT => Some (vscale ((g - 1) / g) (vadd (vscale T drho) (vscale rho dT)))
  | _, _, _, _ =>
  match g_rho_Ei dU with Some de => Some (vscale (g - 1) de) | None => None
  end end end.

(** [IdealGas.temperature_gradient] (eos.py:307-327). *)
Definition eos_temperature_gradient (g : R) (U : flow) (dU : grads) : option (list R) :=
  match g_T dU with Some d => Some d | None =>
  match f_rho U, f_p U, g_p dU, g_rho dU with
  | Some rho, Some p, Some dp, Some drho =>
      Some (vscale (g / (g - 1)) (vsub (vdiv dp rho) (vdiv (vscale p drho) (rho ^ 2))))
  | _, _, _, _ =>
  match g_Ei dU with Some de => Some (vscale g de) | None => None
  end end end.

(** The option [type]: None, one of the accepted strings, any other string (eos.py:341-361). *)
Inductive split := Full | Absolute | Incoming | Outgoing | OtherSplit.

(** Action of the option on one velocity (eos.py:341-361). *)
Definition split_velocity (t : split) (x : R) : result R :=
  match t with
  | Full => Ok x
  | Absolute => Ok (cf_abs x)
  | Incoming => Ok (cf_min x 0)
  | Outgoing => Ok (cf_max x 0)
  | OtherSplit => Err ValueError
  end.

(** [IdealGas.characteristic_velocities] (eos.py:329-363). *)
Definition eos_characteristic_velocities (U : flow) (n : list R) (t : split) : result (option (list R)) :=
  match f_u U, f_c U with
  | Some u, Some c =>
      let un := inner u n in
      let* m := split_velocity t (un - c) in
      let* z := split_velocity t un in
      let* q := split_velocity t (un + c) in
      Ok (Some (m :: repeat z (length u) ++ [q]))
  | _, _ => Ok None
  end.

(** [IdealGas.characteristic_variables] (eos.py:365-388). *)
Definition eos_characteristic_variables (U : flow) (dU : grads) (n : list R) : result (option (list R)) :=
  match f_rho U, f_c U, g_rho dU, g_p dU, g_u dU with
  | Some rho, Some c, Some drho, Some dp, Some du =>
      match n with
      | [n0; n1] =>
          let rn := inner drho n in
          let pn := inner dp n in
          let un := mvmul du n in
          Ok (Some [pn - inner un n * c * rho; rn * c ^ 2 - pn; nth 0 un 0 * n1 - nth 1 un 0 * n0; pn + inner un n * c * rho])
      | _ => Err NotImplementedError
      end
  | _, _, _, _, _ => Ok None
  end.

(** [IdealGas.characteristic_amplitudes] (eos.py:390-404). *)
Definition eos_characteristic_amplitudes (U : flow) (dU : grads) (n : list R) (t : split) : result (option (list R)) :=
  let* v := eos_characteristic_velocities U n t in
  let* w := eos_characteristic_variables U dU n in
  match v, w with
  | Some v, Some w => Ok (Some (map (fun ab => fst ab * snd ab) (combine v w)))
  | _, _ => Ok None
  end.

(** A 4 by 4 matrix from its entries row by row ([bla.as_matrix(..., dims=(4, 4))], dream/bla.py:119-138). *)
Definition mat4 (l : list R) : matrix := mk_matrix 4 4 l.

(** [IdealGas.conservative_from_primitive] (eos.py:406-441). *)
Definition eos_M (g : R) (U : flow) : result (option matrix) :=
  match f_rho U, f_u U with
  | Some rho, Some u =>
      match u with
      | [ux; uy] => Ok (Some (mat4
          [1; 0; 0; 0;
           ux; rho; 0; 0;
           uy; 0; rho; 0;
           (1 / 2) * inner u u; rho * ux; rho * uy; 1 / (g - 1)]))
      | _ => Err NotImplementedError
      end
  | _, _ => Ok None
  end.

(** [IdealGas.primitive_from_conservative] (eos.py:443-480). *)
Definition eos_Minv (g : R) (U : flow) : result (option matrix) :=
  match f_rho U, f_u U with
  | Some rho, Some u =>
      match u with
      | [ux; uy] => Ok (Some (mat4
          [1; 0; 0; 0;
           - ux / rho; 1 / rho; 0; 0;
           - uy / rho; 0; 1 / rho; 0;
           (g - 1) / 2 * inner u u; - (g - 1) * ux; - (g - 1) * uy; g - 1]))
      | _ => Err NotImplementedError
      end
  | _, _ => Ok None
  end.

(** A value that is a matrix, or the exception object that the code returns instead of raising
    (eos.py:510, 544). *)
Inductive matval := MMat (m : matrix) | MExn (e : exn).

(** [IdealGas.primitive_from_characteristic] (eos.py:482-513); in three dimensions the exception object is
    returned. *)
Definition eos_L (U : flow) (n : list R) : result (option matval) :=
  match f_rho U, f_c U with
  | Some rho, Some c =>
      match n with
      | [d0; d1] => Ok (Some (MMat (mat4
          [(1 / 2) / c ^ 2; 1 / c ^ 2; 0; (1 / 2) / c ^ 2;
           - d0 / (2 * c * rho); 0; d1; d0 / (2 * c * rho);
           - d1 / (2 * c * rho); 0; - d0; d1 / (2 * c * rho);
           1 / 2; 0; 0; 1 / 2])))
      | _ => Ok (Some (MExn NotImplementedError))
      end
  | _, _ => Ok None
  end.

(** [IdealGas.characteristic_from_primitive] (eos.py:515-546). *)
Definition eos_Linv (U : flow) (n : list R) : result (option matval) :=
  match f_rho U, f_c U with
  | Some rho, Some c =>
      match n with
      | [d0; d1] => Ok (Some (MMat (mat4
          [0; - rho * c * d0; - rho * c * d1; 1;
           c ^ 2; 0; 0; - 1;
           0; d1; - d0; 0;
           0; rho * c * d0; rho * c * d1; 1])))
      | _ => Ok (Some (MExn NotImplementedError))
      end
  | _, _ => Ok None
  end.

(** [IdealGas.primitive_convective_jacobian_x] (eos.py:548-564). *)
Definition eos_primitive_jacobian_x (U : flow) : result (option matrix) :=
  match f_u U, f_rho U, f_c U with
  | Some u, Some rho, Some c =>
      match u with
      | [ux; _] => Ok (Some (mat4
          [ux; rho; 0; 0;
           0; ux; 0; 1 / rho;
           0; 0; ux; 0;
           0; rho * c ^ 2; 0; ux]))
      | _ => Err NotImplementedError
      end
  | _, _, _ => Ok None
  end.

(** [IdealGas.primitive_convective_jacobian_y] (eos.py:566-582). *)
Definition eos_primitive_jacobian_y (U : flow) : result (option matrix) :=
  match f_u U, f_rho U, f_c U with
  | Some u, Some rho, Some c =>
      match u with
      | [_; uy] => Ok (Some (mat4
          [uy; 0; rho; 0;
           0; uy; 0; 0;
           0; 0; uy; 1 / rho;
           0; 0; rho * c ^ 2; uy]))
      | _ => Err NotImplementedError
      end
  | _, _, _ => Ok None
  end.

(** [IdealGas.conservative_from_characteristic] (eos.py:584-625). *)
Definition eos_P (g : R) (U : flow) (n : list R) : result (option matrix) :=
  match f_rho U, f_c U, f_u U with
  | Some rho, Some c, Some u =>
      match n, u with
      | [d0; d1], [ux; uy] => Ok (Some (mat4
          [1 / (2 * c ^ 2); 1 / c ^ 2; 0; 1 / (2 * c ^ 2);
           - d0 / (2 * c) + ux / (2 * c ^ 2); ux / c ^ 2; d1 * rho; d0 / (2 * c) + ux / (2 * c ^ 2);
           - d1 / (2 * c) + uy / (2 * c ^ 2); uy / c ^ 2; - d0 * rho; d1 / (2 * c) + uy / (2 * c ^ 2);
           (1 / 2) / (g - 1) - d0 * ux / (2 * c) - d1 * uy / (2 * c) + inner u u / (4 * c ^ 2); inner u u / (2 * c ^ 2);
           - d0 * rho * uy + d1 * rho * ux; (1 / 2) / (g - 1) + d0 * ux / (2 * c) + d1 * uy / (2 * c) + inner u u / (4 * c ^ 2)]))
      | _, _ => Err NotImplementedError
      end
  | _, _, _ => Ok None
  end.

(** [IdealGas.characteristic_from_conservative] (eos.py:627-661). *)
Definition eos_Pinv (g : R) (U : flow) (n : list R) : result (option matrix) :=
  match f_rho U, f_c U, f_u U with
  | Some rho, Some c, Some u =>
      match n, u with
      | [d0; d1], [ux; uy] => Ok (Some (mat4
          [c * d0 * ux + c * d1 * uy + (g - 1) * inner u u / 2; - c * d0 + ux * (1 - g); - c * d1 + uy * (1 - g); g - 1;
           c ^ 2 - (g - 1) * inner u u / 2; - ux * (1 - g); - uy * (1 - g); 1 - g;
           d0 * uy / rho - d1 * ux / rho; d1 / rho; - d0 / rho; 0;
           - c * d0 * ux - c * d1 * uy + (g - 1) * inner u u / 2; c * d0 + ux * (1 - g); c * d1 + uy * (1 - g); g - 1]))
      | _, _ => Err NotImplementedError
      end
  | _, _, _ => Ok None
  end.

(** [IdealGas.conservative_convective_jacobian_x] (eos.py:663-698). *)
Definition eos_conservative_jacobian_x (g : R) (U : flow) : result (option matrix) :=
  match f_u U, f_E U with
  | Some u, Some E =>
      match u with
      | [ux; uy] => Ok (Some (mat4
          [0; 1; 0; 0;
           (g - 3) / 2 * ux ^ 2 + (g - 1) / 2 * uy ^ 2; (3 - g) * ux; - (g - 1) * uy; g - 1;
           - ux * uy; uy; ux; 0;
           - g * ux * E + (g - 1) * ux * inner u u; g * E - (g - 1) / 2 * (uy ^ 2 + 3 * ux ^ 2); - (g - 1) * ux * uy; g * ux]))
      | _ => Err NotImplementedError
      end
  | _, _ => Ok None
  end.

(** [IdealGas.conservative_convective_jacobian_y] (eos.py:700-738). *)
Definition eos_conservative_jacobian_y (g : R) (U : flow) : result (option matrix) :=
  match f_u U, f_E U with
  | Some u, Some E =>
      match u with
      | [ux; uy] => Ok (Some (mat4
          [0; 0; 1; 0;
           - ux * uy; uy; ux; 0;
           (g - 3) / 2 * uy ^ 2 + (g - 1) / 2 * ux ^ 2; - (g - 1) * ux; (3 - g) * uy; g - 1;
           - g * uy * E + (g - 1) * uy * inner u u; - (g - 1) * ux * uy; g * E - (g - 1) / 2 * (ux ^ 2 + 3 * uy ^ 2); g * uy]))
      | _ => Err NotImplementedError
      end
  | _, _ => Ok None
  end.

(** [IdealGas.isentropic_density] (eos.py:744-759); powers of positive numbers. *)
Definition eos_isentropic_density (g : R) (U ref : flow) : option R :=
  match f_p U, f_rho ref, f_p ref with
  | Some p, Some rho, Some p0 => Some (rho * Rpower (p / p0) (1 / g))
  | _, _, _ =>
  match f_T U, f_rho ref, f_T ref with
  | Some T, Some rho, Some T0 => Some (rho * Rpower (T / T0) (1 / (g - 1)))
  | _, _, _ => None
  end end.

(** ** Settings of the solver *)

(** [scaling] (dream/compressible/scaling.py:45-113). *)
Inductive scaling := Aerodynamic | Acoustic | Aeroacoustic.

(** [dynamic_viscosity] with Sutherland's measurement temperature (dream/compressible/viscosity.py:23-62). *)
Inductive viscosity_law := Inviscid | Constant | Sutherland (measurement_temperature : R).

(** [riemann_solver] with the threshold of HLLEM (dream/compressible/riemann_solver.py:21-151). *)
Inductive riemann := Upwind | LaxFriedrich | Roe | HLL | HLLEM (theta_0 : R).

(** The settings the equations read (dream/compressible/solver.py:21-138); [s_ref_T] is the temperature among the
    dimensionful values (scaling.py:17-27), [s_dim] the dimension of the mesh. *)
Record settings := mk_settings {
  s_gamma : R; s_mach : R; s_reynolds : R; s_prandtl : R; s_scaling : scaling; s_law : viscosity_law;
  s_riemann : riemann; s_ref_T : R; s_dim : nat }.

(** [density] (scaling.py:29-30). *)
Definition scaling_density : R := 1.

(** [velocity_magnitude] (scaling.py:64-65, 86-87, 107-109). *)
Definition velocity_magnitude (s : scaling) (Ma : R) : R :=
  match s with Aerodynamic => 1 | Acoustic => Ma | Aeroacoustic => Ma / (1 + Ma) end.

(** [speed_of_sound] (scaling.py:56-69, 89-90, 111-113). *)
Definition scaling_speed_of_sound (s : scaling) (Ma : R) : result R :=
  match s with
  | Aerodynamic => if Rle_dec Ma 0 then Err ValueError else Ok (1 / Ma)
  | Acoustic => Ok 1
  | Aeroacoustic => Ok (1 / (1 + Ma))
  end.

(** [velocity] (scaling.py:38-40). *)
Definition scaling_velocity (s : scaling) (direction : list R) (Ma : R) : list R :=
  vscale (velocity_magnitude s Ma) (unit_vector direction).

(** Reading the Reynolds number (dream/compressible/solver.py:70-73). *)
Definition reynolds_number (s : settings) : result R :=
  match s_law s with Inviscid => Err ValueError | _ => Ok (s_reynolds s) end.
(** Reading the Prandtl number (dream/compressible/solver.py:90-93). *)
Definition prandtl_number (s : settings) : result R :=
  match s_law s with Inviscid => Err ValueError | _ => Ok (s_prandtl s) end.

(** [reference_reynolds_number] (scaling.py:47-54, 77-84, 98-105). *)
Definition reference_reynolds_number (s : settings) : result R :=
  let* re := reynolds_number s in Ok (re / velocity_magnitude (s_scaling s) (s_mach s)).

(** ** Equations (dream/compressible/solver.py:323-726) *)

(** A container without fields ([flowfields()]) (dream/compressible/config.py:29-69). *)
Definition no_flow : flow := mk_flow None None None None None None None None None None None None None None.

(** [density], [pressure], [temperature], [speed_of_sound] (solver.py:323-325, 349-355, 494-496). *)
Definition density (s : settings) (U : flow) : result R := equation (Ok (eos_density (s_gamma s) U)).
(** [pressure] (dream/compressible/solver.py:349-351). *)
Definition pressure (s : settings) (U : flow) : result R := equation (Ok (eos_pressure (s_gamma s) U)).
(** [temperature] (dream/compressible/solver.py:353-355). *)
Definition temperature (s : settings) (U : flow) : result R := equation (Ok (eos_temperature (s_gamma s) U)).
(** [speed_of_sound] (dream/compressible/solver.py:494-496). *)
Definition speed_of_sound (s : settings) (U : flow) : result R := equation (Ok (eos_speed_of_sound (s_gamma s) U)).

(** [velocity] (solver.py:327-338).  [zeros]: density and momentum are both NGSolve's zero function
    ([bla.is_zero], dream/bla.py:155-161). *)
Definition velocity (zeros : bool) (U : flow) : result (list R) := equation (Ok
  match f_u U with Some u => Some u | None =>
  match f_rho U, f_rho_u U with
  | Some rho, Some m => if zeros then Some (repeat 0 (length m)) else Some (vdiv m rho)
  | _, _ => None
  end end).

(** [momentum] (solver.py:340-347). *)
Definition momentum (U : flow) : result (list R) := equation (Ok
  match f_rho_u U with Some m => Some m | None =>
  match f_rho U, f_u U with Some rho, Some u => Some (vscale rho u) | _, _ => None end end).

(** [inner_energy] (solver.py:357-367). *)
Definition inner_energy (s : settings) (U : flow) : result R := equation (Ok
  match eos_inner_energy (s_gamma s) U with Some e => Some e | None =>
  match f_rho_E U, f_rho_Ek U with Some E, Some k => Some (E - k) | _, _ => None end end).

(** [specific_inner_energy] (solver.py:369-384). *)
Definition specific_inner_energy (s : settings) (U : flow) : result R := equation (Ok
  match eos_specific_inner_energy (s_gamma s) U with Some e => Some e | None =>
  match f_rho U, f_rho_Ei U with Some rho, Some e => Some (e / rho) | _, _ =>
  match f_E U, f_Ek U with Some E, Some k => Some (E - k) | _, _ => None end end end).

(** [kinetic_energy] (solver.py:386-407). *)
Definition kinetic_energy (U : flow) : result R := equation (Ok
  match f_rho_Ek U with Some k => Some k | None =>
  match f_rho U, f_u U with Some rho, Some u => Some ((1 / 2) * rho * inner u u) | _, _ =>
  match f_rho U, f_rho_u U with Some rho, Some m => Some ((1 / 2) * inner m m / rho) | _, _ =>
  match f_rho_E U, f_rho_Ei U with Some E, Some e => Some (E - e) | _, _ =>
  match f_rho U, f_Ek U with Some rho, Some k => Some (rho * k) | _, _ => None
  end end end end end).

(** [specific_kinetic_energy] (solver.py:409-430). *)
Definition specific_kinetic_energy (U : flow) : result R := equation (Ok
  match f_Ek U with Some k => Some k | None =>
  match f_u U with Some u => Some ((1 / 2) * inner u u) | None =>
  match f_rho U, f_rho_u U with Some rho, Some m => Some ((1 / 2) * inner m m / rho ^ 2) | _, _ =>
  match f_rho U, f_rho_Ek U with Some rho, Some k => Some (k / rho) | _, _ =>
  match f_E U, f_Ei U with Some E, Some e => Some (E - e) | _, _ => None
  end end end end end).

(** [energy] (solver.py:432-447). *)
Definition energy (s : settings) (U : flow) : result R := equation
  match f_rho_E U with Some E => Ok (Some E) | None =>
  match f_rho U, f_E U with Some rho, Some E => Ok (Some (rho * E)) | _, _ =>
  match f_rho_Ei U, f_rho_Ek U with Some e, Some k => Ok (Some (e + k)) | _, _ =>
    let* e := inner_energy s U in let* k := kinetic_energy U in Ok (Some (e + k))
  end end end.

(** [specific_energy] (solver.py:449-462). *)
Definition specific_energy (U : flow) : result R := equation (Ok
  match f_E U with Some E => Some E | None =>
  match f_rho U, f_rho_E U with Some rho, Some E => Some (E / rho) | _, _ =>
  match f_Ei U, f_Ek U with Some e, Some k => Some (e + k) | _, _ => None end end end).

(** [enthalpy] (solver.py:464-477). *)
Definition enthalpy (U : flow) : result R := equation (Ok
  match f_rho_H U with Some h => Some h | None =>
  match f_rho_E U, f_p U with Some E, Some p => Some (E + p) | _, _ =>
  match f_rho U, f_H U with Some rho, Some h => Some (rho * h) | _, _ => None end end end).

(** [specific_enthalpy] (solver.py:479-492): the last branch adds the specific energy, which may be None. *)
Definition specific_enthalpy (U : flow) : result R := equation
  match f_H U with Some h => Ok (Some h) | None =>
  match f_rho U, f_rho_H U with Some rho, Some h => Ok (Some (h / rho)) | _, _ =>
  match f_rho U, f_rho_E U, f_p U with
  | Some rho, Some _, Some p => match f_E U with Some E => Ok (Some (E + p / rho)) | None => Err TypeError end
  | _, _, _ => Ok None
  end end end.

(** [density_gradient], [pressure_gradient], [temperature_gradient] (solver.py:498-500, 518-524). *)
Definition density_gradient (s : settings) (U : flow) (dU : grads) : result (list R) := equation (Ok (eos_density_gradient (s_gamma s) U dU)).
(** [pressure_gradient] (dream/compressible/solver.py:518-520). *)
Definition pressure_gradient (s : settings) (U : flow) (dU : grads) : result (list R) := equation (Ok (eos_pressure_gradient (s_gamma s) U dU)).
(** [temperature_gradient] (dream/compressible/solver.py:522-524). *)
Definition temperature_gradient (s : settings) (U : flow) (dU : grads) : result (list R) := equation (Ok (eos_temperature_gradient (s_gamma s) U dU)).

(** [velocity_gradient] (solver.py:502-508). *)
Definition velocity_gradient (U : flow) (dU : grads) : result matrix := equation (Ok
  match g_u dU with Some d => Some d | None =>
  match f_rho U, f_rho_u U, g_rho dU, g_rho_u dU with
  | Some rho, Some m, Some drho, Some dm => Some (msub (mdiv dm rho) (mdiv (outer m drho) (rho ^ 2)))
  | _, _, _, _ => None
  end end).

(** [momentum_gradient] (solver.py:510-516). *)
Definition momentum_gradient (U : flow) (dU : grads) : result matrix := equation (Ok
  match g_rho_u dU with Some d => Some d | None =>
  match f_rho U, f_u U, g_rho dU, g_u dU with
  | Some rho, Some u, Some drho, Some du => Some (madd (scale rho du) (outer u drho))
  | _, _, _, _ => None
  end end).

(** [energy_gradient] (solver.py:526-532). *)
Definition energy_gradient (dU : grads) : result (list R) := equation (Ok
  match g_rho_E dU with Some d => Some d | None =>
  match g_rho_Ei dU, g_rho_Ek dU with Some e, Some k => Some (vadd e k) | _, _ => None end end).

(** [specific_energy_gradient] (solver.py:534-541). *)
Definition specific_energy_gradient (dU : grads) : result (list R) := equation (Ok
  match g_E dU with Some d => Some d | None =>
  match g_Ei dU, g_Ek dU with Some e, Some k => Some (vadd e k) | _, _ => None end end).

(** [inner_energy_gradient] (solver.py:543-549). *)
Definition inner_energy_gradient (dU : grads) : result (list R) := equation (Ok
  match g_rho_Ei dU with Some d => Some d | None =>
  match g_rho_E dU, g_rho_Ek dU with Some e, Some k => Some (vsub e k) | _, _ => None end end).

(** [specific_inner_energy_gradient] (solver.py:551-558). *)
Definition specific_inner_energy_gradient (dU : grads) : result (list R) := equation (Ok
  match g_Ei dU with Some d => Some d | None =>
  match g_E dU, g_Ek dU with Some e, Some k => Some (vsub e k) | _, _ => None end end).

(** [kinetic_energy_gradient] (solver.py:560-574). *)
Definition kinetic_energy_gradient (U : flow) (dU : grads) : result (list R) := equation (Ok
  match g_rho_Ek dU with Some d => Some d | None =>
  match g_rho_E dU, g_rho_Ei dU with Some e, Some i => Some (vsub e i) | _, _ =>
  match f_rho U, f_u U, g_rho dU, g_u dU with
  | Some rho, Some u, Some drho, Some du =>
      Some (vadd (vscale rho (mvmul (mtrans du) u)) (vscale (inner u u) (vscale (1 / 2) drho)))
  | _, _, _, _ =>
  match f_rho U, f_rho_u U, g_rho dU, g_rho_u dU with
  | Some rho, Some m, Some drho, Some dm =>
      Some (vsub (vdiv (mvmul (mtrans dm) m) rho) (vdiv (vscale (inner m m) (vscale (1 / 2) drho)) (rho ^ 2)))
  | _, _, _, _ => None
  end end end end).

(** [specific_kinetic_energy_gradient] (solver.py:576-591). *)
Definition specific_kinetic_energy_gradient (U : flow) (dU : grads) : result (list R) := equation (Ok
  match g_Ek dU with Some d => Some d | None =>
  match g_E dU, g_Ei dU with Some e, Some i => Some (vsub e i) | _, _ =>
  match f_u U, g_u dU with Some u, Some du => Some (mvmul (mtrans du) u) | _, _ =>
  match f_rho U, f_rho_u U, g_rho dU, g_rho_u dU with
  | Some rho, Some m, Some drho, Some dm =>
      Some (vsub (vdiv (mvmul (mtrans dm) m) (rho ^ 2)) (vdiv (vscale (inner m m) drho) (rho ^ 3)))
  | _, _, _, _ => None
  end end end end).

(** [enthalpy_gradient] (solver.py:593-599). *)
Definition enthalpy_gradient (dU : grads) : result (list R) := equation (Ok
  match g_rho_H dU with Some d => Some d | None =>
  match g_rho_E dU, g_p dU with Some e, Some p => Some (vadd e p) | _, _ => None end end).

(** [strain_rate_tensor] (solver.py:601-607). *)
Definition strain_rate_tensor (s : settings) (dU : grads) : result matrix := equation
  match g_eps dU with Some e => Ok (Some e) | None =>
  match g_u dU with
  | Some du =>
      let* tr := trace du in
      Ok (Some (msub (scale (1 / 2) (madd du (mtrans du))) (scale (1 / 3 * tr) (idm (s_dim s)))))
  | None => Ok None
  end end.

(** The laws of viscosity (viscosity.py:23-58); powers of positive numbers. *)
Definition law_viscosity (s : settings) (U : flow) : result (option R) :=
  match s_law s with
  | Inviscid => Err TypeError
  | Constant => Ok (Some 1)
  | Sutherland meas =>
      match f_T U with
      | None => Ok None
      | Some T =>
          let* c := scaling_speed_of_sound (s_scaling s) (s_mach s) in
          let* Tinf := temperature s (mk_flow (Some scaling_density) None None None None None None None None None None None None (Some c)) in
          let T0 := meas / s_ref_T s * Tinf in
          Ok (Some (Rpower (T / Tinf) (3 / 2) * (Tinf + T0) / (T + T0)))
      end
  end.

(** [viscosity] (solver.py:630-632). *)
Definition viscosity (s : settings) (U : flow) : result R := equation (law_viscosity s U).

(** [deviatoric_stress_tensor] (solver.py:609-628).  The constant law returns the number 1, which counts as
    true. *)
Definition deviatoric_stress_tensor (s : settings) (U : flow) (dU : grads) : result matrix := equation
  (let* mu := viscosity s U in
   let* re := reference_reynolds_number s in
   let* eps := strain_rate_tensor s dU in
   Ok (Some (scale (2 * mu / re) eps))).

(** [heat_flux] (solver.py:634-643). *)
Definition heat_flux (s : settings) (U : flow) (dU : grads) : result (list R) := equation
  (let* k := viscosity s U in
   let* re := reference_reynolds_number s in
   let* pr := prandtl_number s in
   match g_T dU with
   | Some dT => Ok (Some (vscale (- k / (re * pr)) dT))
   | None => Ok None
   end).

(** [stress_tensor] (solver.py:707-714). *)
Definition stress_tensor (s : settings) (U : flow) (dU : grads) : result matrix :=
  let* p := pressure s U in
  let sigma := scale (- p) (idm (s_dim s)) in
  match s_law s with
  | Inviscid => Ok sigma
  | _ => let* tau := deviatoric_stress_tensor s U dU in Ok (madd sigma tau)
  end.

(** [pressure_coefficient] (solver.py:703-705). *)
Definition pressure_coefficient (s : settings) (U ref : flow) : result R :=
  let* p := pressure s U in
  let* p0 := pressure s ref in
  let* k := kinetic_energy ref in
  Ok ((p - p0) / k).

(** [drag_coefficient] and [lift_coefficient] (solver.py:716-726); [normal]: the normal of the mesh. *)
Definition force_coefficient (s : settings) (U : flow) (dU : grads) (ref : flow) (direction normal : list R) : result R :=
  let* st := stress_tensor s U dU in
  let* k := kinetic_energy ref in
  Ok (inner (mvmul st normal) (unit_vector direction) / k).

(** [characteristic_velocities], [characteristic_variables], [characteristic_amplitudes] (solver.py:645-657). *)
Definition characteristic_velocities (U : flow) (n : list R) (t : split) : result (list R) := equation (eos_characteristic_velocities U n t).
(** [characteristic_variables] (dream/compressible/solver.py:649-652). *)
Definition characteristic_variables (U : flow) (dU : grads) (n : list R) : result (list R) := equation (eos_characteristic_variables U dU n).
(** [characteristic_amplitudes] (dream/compressible/solver.py:654-657). *)
Definition characteristic_amplitudes (U : flow) (dU : grads) (n : list R) (t : split) : result (list R) := equation (eos_characteristic_amplitudes U dU n t).

(** The transformation matrices and Jacobians (solver.py:659-701). *)
Definition primitive_from_conservative (s : settings) (U : flow) : result matrix := equation (eos_Minv (s_gamma s) U).
(** [conservative_from_primitive] (dream/compressible/solver.py:675-677). *)
Definition conservative_from_primitive (s : settings) (U : flow) : result matrix := equation (eos_M (s_gamma s) U).
(** [primitive_from_characteristic] (dream/compressible/solver.py:663-665). *)
Definition primitive_from_characteristic (U : flow) (n : list R) : result matval := equation (eos_L U n).
(** [characteristic_from_primitive] (dream/compressible/solver.py:691-693). *)
Definition characteristic_from_primitive (U : flow) (n : list R) : result matval := equation (eos_Linv U n).
(** [conservative_from_characteristic] (dream/compressible/solver.py:679-681). *)
Definition conservative_from_characteristic (s : settings) (U : flow) (n : list R) : result matrix := equation (eos_P (s_gamma s) U n).
(** [characteristic_from_conservative] (dream/compressible/solver.py:695-697). *)
Definition characteristic_from_conservative (s : settings) (U : flow) (n : list R) : result matrix := equation (eos_Pinv (s_gamma s) U n).
(** [primitive_convective_jacobian_x] (dream/compressible/solver.py:667-669). *)
Definition primitive_convective_jacobian_x (U : flow) : result matrix := equation (eos_primitive_jacobian_x U).
(** [primitive_convective_jacobian_y] (dream/compressible/solver.py:671-673). *)
Definition primitive_convective_jacobian_y (U : flow) : result matrix := equation (eos_primitive_jacobian_y U).
(** [conservative_convective_jacobian_x] (dream/compressible/solver.py:683-685). *)
Definition conservative_convective_jacobian_x (s : settings) (U : flow) : result matrix := equation (eos_conservative_jacobian_x (s_gamma s) U).
(** [conservative_convective_jacobian_y] (dream/compressible/solver.py:687-689). *)
Definition conservative_convective_jacobian_y (s : settings) (U : flow) : result matrix := equation (eos_conservative_jacobian_y (s_gamma s) U).
(** [isentropic_density] (dream/compressible/solver.py:699-701). *)
Definition isentropic_density (s : settings) (U ref : flow) : result R := equation (Ok (eos_isentropic_density (s_gamma s) U ref)).

(** ** States, fluxes, Jacobians (solver.py:140-321) *)

(** [get_farfield_state] (solver.py:140-195). *)
Definition get_farfield_state (s : settings) (direction : list R) : result flow :=
  let rho := scaling_density in
  let* c := scaling_speed_of_sound (s_scaling s) (s_mach s) in
  let U1 := mk_flow (Some rho) None None None None None None None None None None None None (Some c) in
  let* T := temperature s U1 in
  let U2 := mk_flow (Some rho) None None None (Some T) None None None None None None None None (Some c) in
  let* p := pressure s U2 in
  if negb (length direction =? s_dim s)%nat then Err ValueError else
  let u := scaling_velocity (s_scaling s) direction (s_mach s) in
  let U3 := mk_flow (Some rho) (Some u) None (Some p) (Some T) None None None None None None None None (Some c) in
  let* ei := inner_energy s U3 in
  let U4 := mk_flow (Some rho) (Some u) None (Some p) (Some T) None None (Some ei) None None None None None (Some c) in
  let* ek := kinetic_energy U4 in
  let U5 := mk_flow (Some rho) (Some u) None (Some p) (Some T) None None (Some ei) None (Some ek) None None None (Some c) in
  let* e := energy s U5 in
  Ok (mk_flow (Some rho) (Some u) None (Some p) (Some T) (Some e) None (Some ei) None (Some ek) None None None (Some c)).

(** [get_convective_flux] (solver.py:212-229). *)
Definition get_convective_flux (s : settings) (zeros : bool) (U : flow) : result matrix :=
  let* rho := density s U in
  let* m := momentum U in
  let* h := enthalpy U in
  let* u := velocity zeros U in
  let* p := pressure s U in
  let d := length u in
  Ok (mk_matrix (d + 2) d (m ++ entries (madd (mdiv (outer m m) rho) (scale p (idm d))) ++ vscale h u)).

(** [get_diffusive_flux] (solver.py:231-248). *)
Definition get_diffusive_flux (s : settings) (zeros : bool) (U : flow) (dU : grads) : result matrix :=
  let* u := velocity zeros U in
  let* tau := deviatoric_stress_tensor s U dU in
  let* q := heat_flux s U dU in
  let d := length u in
  Ok (mk_matrix (d + 2) d (repeat 0 d ++ entries tau ++ vsub (mvmul tau u) q)).

(** [get_local_mach_number] and [get_local_reynolds_number] (solver.py:250-275). *)
Definition get_local_mach_number (s : settings) (zeros : bool) (U : flow) : result R :=
  let* u := velocity zeros U in
  let* c := speed_of_sound s U in
  Ok (sqrt (inner u u) / c).
(** [get_local_reynolds_number] (dream/compressible/solver.py:263-275). *)
Definition get_local_reynolds_number (s : settings) (zeros : bool) (U : flow) : result R :=
  let* rho := density s U in
  let* u := velocity zeros U in
  let* mu := viscosity s U in
  Ok (rho * sqrt (inner u u) / mu).

(** [get_characteristic_identity] (solver.py:295-306). *)
Definition get_characteristic_identity (U : flow) (n : list R) (t : split) : result matrix :=
  let* lambdas := characteristic_velocities U n t in
  match t with
  | Incoming => Ok (diagonal (map (fun l => ifpos (- l) 1 0) lambdas))
  | Outgoing => Ok (diagonal (map (fun l => ifpos l 1 0) lambdas))
  | _ => Err ValueError
  end.

(** [transform_primitive_to_conservative] (solver.py:308-311). *)
Definition transform_primitive_to_conservative (s : settings) (m : matrix) (U : flow) : result matrix :=
  let* M := conservative_from_primitive s U in
  let* Minv := primitive_from_conservative s U in
  Ok (mmul (mmul M m) Minv).

(** [transform_characteristic_to_primitive] (solver.py:313-316); an exception object is no factor. *)
Definition transform_characteristic_to_primitive (m : matrix) (U : flow) (n : list R) : result matrix :=
  let* L := primitive_from_characteristic U n in
  let* Linv := characteristic_from_primitive U n in
  match L, Linv with
  | MMat L, MMat Linv => Ok (mmul (mmul L m) Linv)
  | _, _ => Err TypeError
  end.

(** [transform_characteristic_to_conservative] (solver.py:318-321). *)
Definition transform_characteristic_to_conservative (s : settings) (m : matrix) (U : flow) (n : list R) : result matrix :=
  let* P := conservative_from_characteristic s U n in
  let* Pinv := characteristic_from_conservative s U n in
  Ok (mmul (mmul P m) Pinv).

(** Jacobians and identities in primitive and conservative variables (solver.py:277-293). *)
Definition get_primitive_convective_jacobian (U : flow) (n : list R) (t : split) : result matrix :=
  let* l := characteristic_velocities U n t in transform_characteristic_to_primitive (diagonal l) U n.
(** [get_primitive_convective_identity] (dream/compressible/solver.py:282-284). *)
Definition get_primitive_convective_identity (U : flow) (n : list R) (t : split) : result matrix :=
  let* m := get_characteristic_identity U n t in transform_characteristic_to_primitive m U n.
(** [get_conservative_convective_jacobian] (dream/compressible/solver.py:286-289). *)
Definition get_conservative_convective_jacobian (s : settings) (U : flow) (n : list R) (t : split) : result matrix :=
  let* l := characteristic_velocities U n t in transform_characteristic_to_conservative s (diagonal l) U n.
(** [get_conservative_convective_identity] (dream/compressible/solver.py:291-293). *)
Definition get_conservative_convective_identity (s : settings) (U : flow) (n : list R) (t : split) : result matrix :=
  let* m := get_characteristic_identity U n t in transform_characteristic_to_conservative s m U n.

(** ** Riemann solvers (dream/compressible/riemann_solver.py) *)

(** [get_convective_stabilisation_matrix] (riemann_solver.py:25-32, 40-56, 63-76, 83-101, 121-151). *)
Definition get_convective_stabilisation_matrix (s : settings) (zeros : bool) (U : flow) (n : list R) : result matrix :=
  match s_riemann s with
  | Upwind => get_conservative_convective_jacobian s U n Outgoing
  | LaxFriedrich =>
      let* u := velocity zeros U in
      let* c := speed_of_sound s U in
      Ok (scale (cf_abs (inner u n) + c) (idm (length n + 2)))
  | Roe =>
      let* l := characteristic_velocities U n Absolute in
      transform_characteristic_to_conservative s (diagonal l) U n
  | HLL =>
      let* u := velocity zeros U in
      let* c := speed_of_sound s U in
      Ok (scale (cf_max (inner u n + c) 0) (idm (length n + 2)))
  | HLLEM theta_0 =>
      let* u := velocity zeros U in
      let* c := speed_of_sound s U in
      let un_abs := cf_abs (inner u n) in
      let theta := cf_max (un_abs / (un_abs + c)) theta_0 in
      let* m := transform_characteristic_to_conservative s (diagonal (1 :: repeat theta (length n) ++ [1])) U n in
      Ok (scale (cf_max (inner u n + c) 0) m)
  end.
