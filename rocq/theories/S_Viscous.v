(** Vocabulary for the viscous terms of the characteristic boundary condition, in two dimensions. *)
From Coq Require Import Reals List Arith.
From Coquelicot Require Import Coquelicot.
From Verif Require Import Base M_Bla M_Flow M_Formulation S_Flow S_Chars S_Formulation.
Import ListNotations.
Open Scope R_scope.

(** A flow and its mixed unknown along a line: states of the gas, strain rate (xx, xy, yy) and temperature gradient,
    with their derivatives at [x0]. *)
Definition flow_line (g : R) (st : R -> state) (Q : R -> list R) (x0 : R) (dU dQ : list R) : Prop :=
  (forall x, valid (st x) /\ length (st_u (st x)) = 2%nat /\ length (Q x) = 5%nat) /\
  length dU = 4%nat /\ length dQ = 5%nat /\
  (forall k, (k < 4)%nat -> is_derive (fun x => conservative g 2 (st x) k) x0 (nth k dU 0)) /\
  (forall k, (k < 5)%nat -> is_derive (fun x => nth k (Q x) 0) x0 (nth k dQ 0)).

(** The traction of the symmetric matrix (xx, xy, yy) on a line with normal [n], and its part along [m]. *)
Definition traction (e : list R) (n : list R) (i : nat) : R := nth i e 0 * nth 0 n 0 + nth (S i) e 0 * nth 1 n 0.
Definition along (e n m : list R) : R := traction e n 0 * nth 0 m 0 + traction e n 1 * nth 1 m 0.

(** The normal derivative of the viscous flux through the boundary that a condition keeps, from the normal derivative
    [dQ] of strain rate and temperature gradient: an outflow keeps the normal stress, the other conditions keep the
    shear stress and the heat flux; [k] = mu/Re, [h] = k/Pr. *)
Definition kept_stress (tg : cbc_target) (dQ n t : list R) (i : nat) : R :=
  match tg with TOutflow => along dQ n n * nth i n 0 | _ => along dQ n t * nth i t 0 end.
Definition kept_heat (tg : cbc_target) (dQ n : list R) : R :=
  match tg with TOutflow => 0 | _ => nth 3 dQ 0 * nth 0 n 0 + nth 4 dQ 0 * nth 1 n 0 end.
Definition kept (tg : cbc_target) (k h : R) (u dQ n t : list R) (i : nat) : R :=
  match i with
  | O => 0
  | 1%nat => 2 * k * kept_stress tg dQ n t 0
  | 2%nat => 2 * k * kept_stress tg dQ n t 1
  | _ => 2 * k * (nth 0 u 0 * kept_stress tg dQ n t 0 + nth 1 u 0 * kept_stress tg dQ n t 1) + h * kept_heat tg dQ n
  end.
