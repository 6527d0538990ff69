(** Specification of runs (only the event type is shared with the model). *)
From Coq Require Import List Bool QArith.
From Verif Require Import M_Run.
Import ListNotations.

(** What must happen for the time point with label [t] and counter [it]. *)
Definition time_point_events (it : nat) (t : Q) : list run_event :=
  [RSolve t; RShift; RYield (Some t); RInSave t it; RRedraw].

(** The expected trace of a complete transient run over the labels [ls]. *)
Definition transient_expected (reassemble : bool) (t0 : Q) (ls : list Q) (tlast : Q) : list run_event :=
  (if reassemble then [RAssemble] else []) ++ [ROpen; RPreSave (Some t0)] ++
  concat (map (fun p => time_point_events (fst p) (snd p)) (combine (seq 0 (length ls)) ls)) ++
  [RPostSave (Some tlast) (length ls - 1); RClose].

(** The expected trace of a complete pseudo time run with [n] iterations. *)
Definition pseudo_expected (reassemble : bool) (t : Q) (n : nat) : list run_event :=
  (if reassemble then [RAssemble] else []) ++ [ROpen; RPreSave (Some t)] ++
  concat (map (fun it => [RShift; RUpdateStep it; RRedraw; RSolverStep it]) (seq 0 n)) ++
  [RYield None; RInSave t 0; RRedraw; RPostSave (Some t) 0; RClose].

(** [p] is an initial part of [l]. *)
Definition initial_part {A} (p l : list A) : Prop := exists rest, l = p ++ rest.

(** The consumer saw these values, in this order. *)
Definition yields (tr : list run_event) : list (option Q) :=
  flat_map (fun e => match e with RYield t => [t] | _ => [] end) tr.
