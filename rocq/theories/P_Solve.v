(** Solver and run properties C07, C08. *)
From Coq Require Import List Bool QArith Reals Lia Lra.
From Verif Require Import Base M_Solve S_Solve L_Solve M_Run S_Run L_Run M_Timer S_Timer L_Timer.
Import ListNotations.

(** * C07: a nonlinear solve stops and never applies a NaN correction *)

(** For every update step function: the specification [solve_spec] (S_Solve.v)
    holds - at most [max] steps, each step computed from the corrected state,
    every correction applied once except a NaN one, stop exactly after the first NaN or
    converged step, flags describe the last step, final state is the start
    minus the damped sum of the applied corrections. *)
Theorem c07_solve_meets_specification :
  forall {I} max crit damping (upd : nat -> (I -> R) -> (I -> R) * fval) u0 tr uf st,
  nl_solve max crit damping upd u0 = (tr, uf, st) ->
  solve_spec max crit damping upd u0 tr uf (st_converged st) (st_nan st).
Proof. exact @nl_solve_spec. Qed.
Print Assumptions c07_solve_meets_specification.

(** A scalar problem converging in its second step, damping 1/2. *)
Example c07_example :
  let upd := fun it (u : unit -> R) => (u, match it with O => Fin 1 | _ => Fin 0 end) in
  exists uf, nl_solve 10 (1/2) (1/2) upd (fun _ => 8%R) =
    ([NYield 0; NStep 0; NApply 0; NYield 1; NStep 1; NApply 1], uf, mk_status true false) /\
    uf tt = 2%R.
Proof.
  cbv zeta. unfold nl_solve, solve_loop, set_iteration_error, iteration_error, below, fval_isnan.
  cbn [st_nan st_converged reset_status pow].
  assert (E1 : sqrt (1 * (1 * 1)) = 1%R) by (replace (1 * (1 * 1))%R with 1%R by ring; apply sqrt_1).
  assert (E0 : sqrt (0 * (0 * 1)) = 0%R) by (replace (0 * (0 * 1))%R with 0%R by ring; apply sqrt_0).
  rewrite E1, E0.
  destruct (Rlt_dec 1 (1 / 2)) as [C|_]; [exfalso; lra|].
  destruct (Rlt_dec 0 (1 / 2)) as [_|C]; [|exfalso; lra].
  cbn [st_nan st_converged]. eexists. split; [reflexivity|]. unfold update_solution. cbn. lra.
Qed.

(** * C08: one solve, one shift, one yield, one save per time point *)

Theorem c08_complete_run : forall reassemble t0 ls, ls <> [] ->
  run_trace (transient_run no_faults reassemble t0 (Ok ls))
    = transient_expected reassemble t0 ls (List.last ls 0%Q) /\
  run_outcome (transient_run no_faults reassemble t0 (Ok ls)) = Ok tt.
Proof. exact transient_complete. Qed.
Print Assumptions c08_complete_run.

Theorem c08_consumer_sees_labels : forall reassemble t0 ls tl,
  yields (transient_expected reassemble t0 ls tl) = map Some ls.
Proof. exact transient_yields. Qed.
Print Assumptions c08_consumer_sees_labels.

Theorem c08_empty_timer_refuted : forall reassemble t0,
  run_trace (transient_run no_faults reassemble t0 (Ok [])) =
    (if reassemble then [RAssemble] else []) ++ [ROpen; RPreSave (Some t0); RClose] /\
  run_outcome (transient_run no_faults reassemble t0 (Ok [])) = Err UnboundLocalError.
Proof. exact transient_empty. Qed.
Print Assumptions c08_empty_timer_refuted.

(** Whatever fails or is abandoned: a failure before or in opening leaves no
    further event; afterwards the events are an initial part of the complete
    run, followed by exactly the closing of the streams. *)
Theorem c08_interrupted_run : forall faults reassemble t0 ls,
  let run := transient_run faults reassemble t0 ls in
  let ideal := transient_run no_faults reassemble t0 ls in
  let pre := if reassemble then [RAssemble] else [] in
  (run_trace run = pre /\ exists e, run_outcome run = Err e) \/
  (run_trace run = pre ++ [ROpen] /\ exists e, run_outcome run = Err e) \/
  (exists b bq, run_trace run = pre ++ ROpen :: b ++ [RClose] /\
     run_trace ideal = pre ++ ROpen :: bq ++ [RClose] /\
     ((b = bq /\ run_outcome run = run_outcome ideal) \/
      (initial_part b bq /\ exists e, run_outcome run = Err e))).
Proof. exact transient_faults. Qed.
Print Assumptions c08_interrupted_run.

Theorem c08_pseudo_complete_run : forall reassemble t k,
  run_trace (pseudo_run no_faults reassemble t k) = pseudo_expected reassemble t k /\
  run_outcome (pseudo_run no_faults reassemble t k) = Ok tt.
Proof. exact pseudo_complete. Qed.
Print Assumptions c08_pseudo_complete_run.

Theorem c08_pseudo_interrupted_run : forall faults reassemble t k,
  let run := pseudo_run faults reassemble t k in
  let ideal := pseudo_run no_faults reassemble t k in
  let pre := if reassemble then [RAssemble] else [] in
  (run_trace run = pre /\ exists e, run_outcome run = Err e) \/
  (run_trace run = pre ++ [ROpen] /\ exists e, run_outcome run = Err e) \/
  (exists b bq, run_trace run = pre ++ ROpen :: b ++ [RClose] /\
     run_trace ideal = pre ++ ROpen :: bq ++ [RClose] /\
     ((b = bq /\ run_outcome run = run_outcome ideal) \/
      (initial_part b bq /\ exists e, run_outcome run = Err e))).
Proof. exact pseudo_faults. Qed.
Print Assumptions c08_pseudo_interrupted_run.

(** A stationary run never yields and always raises. *)
Theorem c08_stationary_refuted : forall reassemble,
  run_trace (stationary_run no_faults reassemble) =
    (if reassemble then [RAssemble] else []) ++ [ROpen; RPreSave None; RClose] /\
  run_outcome (stationary_run no_faults reassemble) = Err AttributeError.
Proof. exact stationary_fails. Qed.
Print Assumptions c08_stationary_refuted.

(** Three time points of an actual timer, and the consumer leaving at the second. *)
Example c08_example :
  let tm := set_step timer_default (1#4) in
  (exists ls, timer_call tm = Ok ls /\ length ls = 4%nat /\
     length (run_trace (transient_run no_faults true 0 (Ok ls))) = 25%nat) /\
  run_trace (transient_run (fun n => if Nat.eqb n 10 then Some GeneratorExit else None) true 0
     (Ok [1; 2; 3]%Q)) =
  [RAssemble; ROpen; RPreSave (Some 0%Q); RSolve 1; RShift; RYield (Some 1%Q); RInSave 1 0; RRedraw;
   RSolve 2; RShift; RYield (Some 2%Q); RClose].
Proof.
  split.
  - eexists. split; [vm_compute; reflexivity|]. split; reflexivity.
  - reflexivity.
Qed.
