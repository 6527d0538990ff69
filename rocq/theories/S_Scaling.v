(** Vocabulary for the scalings and the laws of viscosity: the reference values documented for the three scalings
    (docstring of [get_farfield_state], dream/compressible/solver.py:140-173) and Sutherland's law in units of
    measurement. *)
From Coq Require Import Reals List.
From Verif Require Import Base M_Bla M_Flow S_Flow.
Import ListNotations.
Open Scope R_scope.

Definition farfield_speed (sc : scaling) (Ma : R) : R :=
  match sc with Aerodynamic => 1 | Acoustic => Ma | Aeroacoustic => Ma / (1 + Ma) end.
Definition farfield_sound (sc : scaling) (Ma : R) : R :=
  match sc with Aerodynamic => 1 / Ma | Acoustic => 1 | Aeroacoustic => 1 / (1 + Ma) end.

(** Temperature and pressure as documented. *)
Definition documented_temperature (g : R) (sc : scaling) (Ma : R) : R :=
  match sc with Aerodynamic => 1 / ((g - 1) * Ma ^ 2) | Acoustic => 1 / (g - 1) | Aeroacoustic => 1 / ((g - 1) * (1 + Ma ^ 2)) end.
Definition documented_pressure (g : R) (sc : scaling) (Ma : R) : R :=
  match sc with Aerodynamic => 1 / (g * Ma ^ 2) | Acoustic => 1 / g | Aeroacoustic => 1 / (g * (1 + Ma ^ 2)) end.

(** The state that has density one, the documented sound speed, and the documented speed in the given direction. *)
Definition is_farfield (g : R) (sc : scaling) (Ma : R) (direction : list R) (s : state) : Prop :=
  valid s /\ st_rho s = 1 /\ q_c g s = farfield_sound sc Ma /\
  sqrt (inner (st_u s) (st_u s)) = farfield_speed sc Ma /\ length (st_u s) = length direction /\
  exists k, 0 <= k /\ forall i, nth i (st_u s) 0 = k * nth i direction 0.

(** Sutherland's law (White, Viscous fluid flow): viscosity at the temperature [T] (in Kelvin) over the viscosity at
    [T0], with Sutherland's constant [S]; the power 3/2 is x sqrt x. *)
Definition sutherland (S0 T0 T : R) : R := T / T0 * sqrt (T / T0) * ((T0 + S0) / (T + S0)).
