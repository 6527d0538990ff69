(** Vocabulary for the conservative formulation. *)
From Coq Require Import Reals List Arith Bool Lra.
From Verif Require Import Base M_Bla M_Flow M_Formulation S_Flow S_Chars.
Import ListNotations.
Open Scope R_scope.

(** Mass, momentum and energy of a state. *)
Definition conservative_list (g : R) (s : state) : list R := st_rho s :: q_rho_u s ++ [q_rho_E g s].

(** Component [i] of the flux of a state through a surface with normal [n]. *)
Definition normal_flux (g : R) (s : state) (n : list R) (i : nat) : R :=
  total (length (st_u s)) (fun j => euler_flux g (length (st_u s)) s i j * nth j n 0).

(** How strongly a Riemann solver damps wave [k] of a flow with normal velocity [un] and sound speed [c]. *)
Definition dissipation (r : riemann) (un c : R) (k : nat) : R :=
  match r with
  | Upwind => Rmax (wave_speed un c k) 0
  | LaxFriedrich => Rabs un + c
  | Roe => Rabs (wave_speed un c k)
  | HLL => Rmax (un + c) 0
  | HLLEM theta_0 => Rmax (un + c) 0 * match k with 1%nat | 2%nat => Rmax (Rabs un / (Rabs un + c)) theta_0 | _ => 1 end
  end.

(** The settings with another Riemann solver. *)
Definition with_riemann (s : settings) (r : riemann) : settings :=
  mk_settings (s_gamma s) (s_mach s) (s_reynolds s) (s_prandtl s) (s_scaling s) (s_law s) r (s_ref_T s) (s_dim s).

(** The stabilisation has the columns of [P] as eigenvectors and the eigenvalues [l]. *)
Definition damping (s : settings) (U : flow) (n : list R) (P : matrix) (l : nat -> R) : Prop :=
  exists tau, get_convective_stabilisation_matrix s false U n = Ok tau /\ eigenvectors 4 tau P l.

(** Unknowns with positive density and positive inner energy. *)
Definition physical (d : nat) (U : list R) : Prop :=
  length U = (d + 2)%nat /\ 0 < nth 0 U 0 /\ total d (fun j => nth (j + 1) U 0 ^ 2) < 2 * nth 0 U 0 * nth (d + 1) U 0.

(** All components of a vector vanish. *)
Definition vanishes (r : list R) : Prop := forall i, nth i r 0 = 0.

(** Amplitude of wave [k] in the vector [v], if the rows of [m] are the left eigenvectors. *)
Definition amplitude (m : matrix) (v : list R) (k : nat) : R := total 4 (fun j => entry m k j * nth j v 0).

(** An inviscid wall keeps density, all of the energy and the tangential velocity and removes the normal velocity; the
    energy of the normal motion becomes pressure. *)
Definition slip (s : state) (n : list R) (g : R) : state :=
  mk_state (st_rho s) (vsub (st_u s) (vscale (inner (st_u s) n) n)) (st_p s + (g - 1) / 2 * st_rho s * inner (st_u s) n ^ 2).

(** An isothermal wall keeps the density, stops the flow and has the prescribed temperature. *)
Definition isothermal (s : state) (d : nat) (T g : R) : state := mk_state (st_rho s) (repeat 0 d) ((g - 1) / g * st_rho s * T).

(** ** Characteristic conditions *)

(** The number of waves in [d] dimensions is [d + 2]. Reference speed of wave [i] in the relaxation of
    Navier-Stokes characteristic conditions: sound speed, reduced by the Mach number for the acoustic waves. *)
Definition reference_speed (d : nat) (c M : R) (i : nat) : R :=
  if (i =? 0)%nat || (i =? d + 1)%nat then c * (1 - M ^ 2) else c.

(** Rate at which wave [i] relaxes to the target, [C]: factors of the waves, [step]: time step. *)
Definition relaxation_rate (k : cbc_kind) (d : nat) (C : list R) (step c M : R) (i : nat) : R :=
  match k with KGRCBC => nth i C 0 / step | KNSCBC len => nth i C 0 * reference_speed d c M i / len end.

(** [m] is the diagonal matrix of size [n] with diagonal [f]. *)
Definition is_diagonal (n : nat) (m : matrix) (f : nat -> R) : Prop :=
  shape n m /\ forall i j, (i < n)%nat -> (j < n)%nat -> entry m i j = f i * delta i j.
