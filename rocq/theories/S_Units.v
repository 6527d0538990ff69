(** Vocabulary for the choice of the scaling: the same flow in the reference values of another scaling. *)
From Coq Require Import Reals String List Arith Bool.
From Verif Require Import Base M_Bla M_Flow M_Formulation M_Weak M_Mixed S_Flow S_Chars S_Formulation S_Scaling S_Stress S_Weak S_Mixed.
Import ListNotations.
Open Scope R_scope.
Open Scope list_scope.

(** The settings with another scaling. *)
Definition with_scaling (s : settings) (sc : scaling) : settings :=
  mk_settings (s_gamma s) (s_mach s) (s_reynolds s) (s_prandtl s) sc (s_law s) (s_riemann s) (s_ref_T s) (s_dim s).

(** Value of a velocity in the other scaling over its value in this one. *)
Definition unit_ratio (s : settings) (sc : scaling) : R := farfield_speed sc (s_mach s) / farfield_speed (s_scaling s) (s_mach s).

(** The same state with velocities in other units: the pressure goes with the square. *)
Definition convert_state (a : R) (st : state) : state := mk_state (st_rho st) (vscale a (st_u st)) (a * a * st_p st).

(** Mass keeps its value, momentum goes with the velocity, energy with its square. *)
Definition weight (d : nat) (a : R) (i : nat) : R := if (i =? 0)%nat then 1 else if (i <=? d)%nat then a else a * a.
Definition convert (d : nat) (a : R) (U : list R) : list R := map (fun i => weight d a i * nth i U 0) (seq 0 (d + 2)).

(** A container of fields. *)
Definition convert_flow (a : R) (U : flow) : flow :=
  let sq := option_map (Rmult (a * a)) in
  mk_flow (f_rho U) (option_map (vscale a) (f_u U)) (option_map (vscale a) (f_rho_u U)) (sq (f_p U)) (sq (f_T U)) (sq (f_rho_E U)) (sq (f_E U))
    (sq (f_rho_Ei U)) (sq (f_Ei U)) (sq (f_rho_Ek U)) (sq (f_Ek U)) (sq (f_rho_H U)) (sq (f_H U)) (option_map (Rmult a) (f_c U)).

(** The strain rate goes with the velocity, the temperature gradient with its square. *)
Definition converted_gradients (s : settings) (a : R) (dU dU' : grads) : Prop :=
  exists eps dT, viscous_gradients s eps dT dU /\ viscous_gradients s (scale a eps) (vscale (a * a) dT) dU'.

(** A vector that is computed is computed with factor [k] in the other scaling. *)
Definition converted_result (d : nat) (a k : R) (r r' : result (list R)) : Prop :=
  forall v, r = Ok v -> length v = (d + 2)%nat /\ r' = Ok (vscale k (convert d a v)).

(** ** The discrete problem *)

Definition convert_unknowns (d : nat) (a : R) (Q : nat -> grads) (u : unknowns) : unknowns :=
  mk_unknowns (fun x => convert d a (uU u x)) (fun x => convert d a (uUhat u x)) Q.

(** The same step of time. *)
Definition convert_scheme (d : nat) (a : R) (sc : scheme) : scheme :=
  match sc with IE dt n => IE (dt / a) (fun x => convert d a (n x)) | BDF dt n nm1 => BDF (dt / a) (fun x => convert d a (n x)) (fun x => convert d a (nm1 x)) end.

(** Boundary conditions on domain boundaries with the same rules, and vectors with a factor that depends on the facet only. *)
Definition converted_terms (d : nat) (a : R) (m : mesh) (kappa : nat -> R) : list bterm -> list bterm -> Prop :=
  Forall2 (fun b b' => b_rule b' = b_rule b /\ forall w y, In (w, y) (b_rule b) ->
    outer_facet m (facet m y) = true /\ converted_result d a (kappa (facet m y)) (b_vector b y) (b_vector b' y)).

(** Sponge layers with the same rules and the same targets, whose damping per time is the same. *)
Definition converted_layers (s : settings) (a : R) : list sponge -> list sponge -> Prop :=
  Forall2 (fun l l' => s_rule l' = s_rule l /\ forall w x, In (w, x) (s_rule l) ->
    s_function l' x = a * s_function l x /\ converted_result (s_dim s) a 1 (conservative_vector s (s_target l x)) (conservative_vector s (s_target l' x))).

(** The factor of an equation: [a] in the elements and on the facets between them, [kappa] on the domain boundary. *)
Definition facet_factor (a : R) (m : mesh) (kappa : nat -> R) (y : nat) : R := if outer_facet m (facet m y) then kappa (facet m y) else a.

(** Test functions with other weights of mass, momentum and energy and of the facets. *)
Definition reweight (d : nat) (a : R) (m : mesh) (kappa : nat -> R) (t : test) : test :=
  mk_test (fun x => vscale a (convert d a (tV t x)))
    (fun x => tabulate (d + 2) d (fun i j => a * (weight d a i * entry (tdV t x) i j)))
    (fun y => vscale (facet_factor a m kappa y) (convert d a (tVhat t y))).

(** ** The mixed unknown: strain rate (xx, xy, yy) and temperature gradient *)

Definition convert_five (a : R) (Q : list R) : list R :=
  [a * nth 0 Q 0; a * nth 1 Q 0; a * nth 2 Q 0; a * a * nth 3 Q 0; a * a * nth 4 Q 0].

Definition reweight_five (a : R) (P : mixed_test) : mixed_test :=
  mk_mixed_test (fun x => convert_five a (tP P x)) (fun x => tabulate 5 2 (fun k j => nth k (convert_five a (map (fun i => entry (tdP P x) i j) (seq 0 5))) 0)).
