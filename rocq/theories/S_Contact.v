(** Vocabulary for flows of uniform velocity and pressure (C86). *)
From Coq Require Import Reals String List Arith Bool.
From Verif Require Import Base M_Bla M_Flow M_Formulation M_Weak S_Flow S_Chars S_Formulation S_Weak.
Import ListNotations.
Open Scope R_scope.
Open Scope list_scope.

(** The gas of density [rho] moving with velocity [v] under pressure [p]. *)
Definition parcel (v : list R) (p rho : R) : state := mk_state rho v p.

(** How much of each conserved quantity a unit of mass carries along: mass, momentum and kinetic energy. *)
Definition carries (v : list R) (k : nat) : R := nth k (1 :: v ++ [inner v v / 2]) 0.

(** The unknowns have velocity [v] and pressure [p] everywhere, and the densities [rho] in the elements and [rhohat] on the
    facets. *)
Definition drifts (s : settings) (v : list R) (p : R) (rho rhohat : nat -> R) (u : unknowns) : Prop :=
  forall x, uU u x = conservative_list (s_gamma s) (parcel v p (rho x)) /\ uUhat u x = conservative_list (s_gamma s) (parcel v p (rhohat x)).

(** Density of the older levels. *)
Inductive history := Euler (dt : R) (n : nat -> R) | Bdf2 (dt : R) (n nm1 : nat -> R).

Definition levels (s : settings) (v : list R) (p : R) (h : history) : scheme :=
  match h with
  | Euler dt n => IE dt (fun x => conservative_list (s_gamma s) (parcel v p (n x)))
  | Bdf2 dt n nm1 => BDF dt (fun x => conservative_list (s_gamma s) (parcel v p (n x))) (fun x => conservative_list (s_gamma s) (parcel v p (nm1 x)))
  end.

Definition density_rate (h : history) (rho : nat -> R) (x : nat) : R :=
  match h with
  | Euler dt n => (rho x - n x) / dt
  | Bdf2 dt n nm1 => (3 * rho x - 4 * n x + nm1 x) / (2 * dt)
  end.

Definition positive_history (h : history) : Prop :=
  match h with Euler _ n => forall x, 0 < n x | Bdf2 _ n nm1 => forall x, 0 < n x /\ 0 < nm1 x end.

(** The mass flux through a facet: transport of the facet density, and damping of the jump like for a wave that moves with
    the gas. *)
Definition mass_flux (s : settings) (m : mesh) (v : list R) (p : R) (rho rhohat : nat -> R) (y : nat) : R :=
  let un := inner v (normal m y) in
  rhohat y * un + dissipation (s_riemann s) un (q_c (s_gamma s) (parcel v p (rhohat y))) 1 * (rho y - rhohat y).

(** The weak form of the transport of a density with velocity [v], tested with a function with the values [a] and the
    gradient [da] in the elements and the values [ah] on the facets. *)
Definition transport (s : settings) (m : mesh) (r : rules) (h : history) (v : list R) (p : R) (rho rhohat : nat -> R)
  (a : nat -> R) (da : nat -> nat -> R) (ah : nat -> R) : R :=
  - weighted (r_cvol r) (fun x => rho x * total (s_dim s) (fun j => nth j v 0 * da x j))
  + weighted (r_cbnd r) (fun y => mass_flux s m v p rho rhohat y * a y)
  - weighted (r_cbnd r) (fun y => mask m y * (mass_flux s m v p rho rhohat y * ah y))
  + weighted (r_time r) (fun x => density_rate h rho x * a x).

(** What a test function sees of the transported mass. *)
Definition along (d : nat) (v : list R) (l : list R) : R := total (d + 2) (fun k => carries v k * nth k l 0).
Definition along_gradient (d : nat) (v : list R) (g : matrix) (j : nat) : R := total (d + 2) (fun k => carries v k * entry g k j).

(** The density solves the transport problem. *)
Definition transported (s : settings) (m : mesh) (r : rules) (h : history) (v : list R) (p : R) (rho rhohat : nat -> R) (W : test -> Prop) : Prop :=
  forall t, W t -> transport s m r h v p rho rhohat (fun x => along (s_dim s) v (tV t x)) (fun x => along_gradient (s_dim s) v (tdV t x)) (fun y => along (s_dim s) v (tVhat t y)) = 0.
