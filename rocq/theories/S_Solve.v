(** Specification of a nonlinear solve; independent of the solver model (only
    the value and event types are shared). *)
From Coq Require Import Reals List Bool Arith.
From Verif Require Import M_Solve.
Import ListNotations.
Local Open Scope R_scope.

(** A step whose residual product is a number below the criterion. *)
Definition small (crit : R) (ip : fval) : Prop := exists r, ip = Fin r /\ Rabs r < crit.

(** The events of one iteration: the correction is applied unless it is NaN. *)
Definition iteration_events (k : nat) (ip : fval) : list nl_event :=
  NYield k :: NStep k :: match ip with NaN => [] | _ => [NApply k] end.

(** Sum of the applied corrections among [outs] at component [i]. *)
Fixpoint applied_sum {I} (outs : list ((I -> R) * fval)) (i : I) : R :=
  match outs with
  | [] => 0
  | (du, ip) :: r => (match ip with NaN => 0 | _ => du i end) + applied_sum r i
  end.

(** [outs] are the outcomes of the update steps of a solve started at [u0]:
    step k is computed from the start minus the damped corrections before it. *)
Definition outcomes_of {I} (upd : nat -> (I -> R) -> (I -> R) * fval) (damping : R) (u0 : I -> R)
  (outs : list ((I -> R) * fval)) : Prop :=
  forall k o, nth_error outs k = Some o ->
    exists u, (forall i, u i = u0 i - damping * applied_sum (firstn k outs) i) /\ o = upd k u.

(** The whole specification of a solve. *)
Definition solve_spec {I} (max : nat) (crit damping : R) (upd : nat -> (I -> R) -> (I -> R) * fval)
  (u0 : I -> R) (trace : list nl_event) (uf : I -> R) (converged isnan : bool) : Prop :=
  exists outs : list ((I -> R) * fval),
    outcomes_of upd damping u0 outs /\
    (length outs <= max)%nat /\
    trace = concat (map (fun k => iteration_events k (snd (nth k outs (u0, NaN)))) (seq 0 (length outs))) /\
    (forall k o, nth_error outs k = Some o -> (S k < length outs)%nat -> snd o <> NaN /\ ~ small crit (snd o)) /\
    (forall o, nth_error outs (length outs - 1) = Some o -> (length outs < max)%nat -> snd o = NaN \/ small crit (snd o)) /\
    (outs = [] -> max = 0%nat) /\
    (forall i, uf i = u0 i - damping * applied_sum outs i) /\
    (converged = true <-> exists o, nth_error outs (length outs - 1) = Some o /\ small crit (snd o)) /\
    (isnan = true <-> exists o, nth_error outs (length outs - 1) = Some o /\ snd o = NaN).
