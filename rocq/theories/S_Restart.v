(** Specification vocabulary for restarts; only the event type is shared with
    the model. *)
From Coq Require Import String List Bool QArith Qreals Reals ZArith.
From Flocq Require Import Core.Core IEEE754.BinarySingleNaN.
From Verif Require Import M_Run S_Run S_IO S_Timer S_Float.
Import ListNotations.
Local Open Scope string_scope.
Local Open Scope list_scope.

(** The events of a run up to and including the save of counter [i]. *)
Definition until_saved (reassemble : bool) (t0 : Q) (ls : list Q) (i : nat) : list run_event :=
  (if reassemble then [RAssemble] else []) ++ [ROpen; RPreSave (Some t0)] ++
  concat (map (fun p => time_point_events (fst p) (snd p))
              (combine (seq 0 (S i)) (firstn (S i) ls))).

(** A run that would write [all] was killed, at any moment, but after it had
    written [safe]: it wrote [done]. *)
Definition killed_after {W} (safe done all : list W) : Prop :=
  starts_with safe done /\ starts_with done all.

(** The result does not depend on the first argument. *)
Definition timeless {T A B} (f : T -> A -> B) : Prop := forall t t' a, f t a = f t' a.

(** The time levels of implicit Euler and of BDF2, oldest first. *)
Definition euler_levels : list string := ["n"; "n+1"].
Definition bdf_levels : list string := ["n-1"; "n"; "n+1"].
Definition known_scheme (time_levels : list string) : Prop :=
  time_levels = euler_levels \/ time_levels = bdf_levels.

(** Every variable has exactly these levels and no variable occurs twice. *)
Definition has_levels {V} (time_levels : list string) (g : list (string * list (string * V))) : Prop :=
  NoDup (map fst g) /\ Forall (fun x => map fst (snd x) = time_levels) g.

(** The same variables in the same order. *)
Definition same_variables {V} (g g' : list (string * list (string * V))) : Prop :=
  map fst g = map fst g'.

(** A run from [a] to [b] in [N] steps [h] of [d] decimals, written in decimal
    numbers; [A], [B] and [H] are the doubles Python has for them. *)
Definition decimal_run (a b h : Q) (N d : nat) (A B H : binary_float 53 1024) : Prop :=
  literal a A /\ literal b B /\ literal h H /\
  (0 <= a)%Q /\ (0 < h)%Q /\ (1 <= N)%nat /\
  decimals_of d h /\ (d <= 16)%nat /\ has_decimals d a /\
  ((h <= 1 # 2)%Q \/ B2R H = Q2R h) /\
  (b - a == inject_Z (Z.of_nat N) * h)%Q /\
  (b * inject_Z (10 ^ Z.of_nat d) <= inject_Z (2 ^ 48))%Q.
