(** Restarting a transient run from saved files: what a run keeps in memory,
    what it saves and what loading restores (dream/time.py:98-113, 277-326,
    dream/io.py:354-458), put together from the models of the scheme, the
    streams and the timer. *)
From Coq Require Import List Bool QArith ZArith String.
From Verif Require Import Base Dict M_Timer M_Run M_IO M_Scheme M_Float.
Import ListNotations.
Local Open Scope string_scope.

Section Restart.
(** Content of one component of the grid function; never inspected. *)
Context {V : Type}.

(** What the files hold: the grid function of all spaces (dream/io.py:439), its
    components without time derivative first, or one level of one variable
    (dream/io.py:436). *)
Inductive content :=
| Whole (rest : dict V) (current : dict (option V))
| Part (v : V).

(** The grid functions of a solver: components without time derivative, and the
    time levels of the other variables (dream/time.py:86-100).  The level
    'n+1' is the component of the solver's own grid function (line 99). *)
Record memory := mk_memory { others : dict V; levels : dict (dict V) }.

(** What the stream sees of the memory (dream/io.py:434-439). *)
Definition visible (m : memory) : gstate content :=
  mk_gstate
    (Whole (others m) (map (fun vg => (fst vg, dget (snd vg) "n+1")) (levels m)))
    (map (fun vg => (fst vg, map (fun lv => (fst lv, Part (snd lv))) (snd vg))) (levels m)).

(** [gfu.Load] of a component (dream/io.py:387); a file of another space raises. *)
Definition part_of (c : content) : result V :=
  match c with Part v => Ok v | Whole _ _ => Err NgException end.

(** The values read for the levels of one variable (dream/io.py:422-424). *)
Fixpoint parts_of (g : dict content) : result (dict V) :=
  match g with
  | [] => Ok []
  | (level, c) :: rest =>
      let* v := part_of c in
      let* r := parts_of rest in
      Ok ((level, v) :: r)
  end.

(** The values read for all variables (dream/io.py:420-424). *)
Fixpoint all_parts_of (g : dict (dict content)) : result (dict (dict V)) :=
  match g with
  | [] => Ok []
  | (variable, x) :: rest =>
      let* y := parts_of x in
      let* r := all_parts_of rest in
      Ok ((variable, y) :: r)
  end.

(** Python's formatting of the time in a file name (dream/io.py:393, 424, 430). *)
Variable repr : Q -> string.

(** [io.gfu.load_time_levels(t)] (dream/io.py:415-424). *)
Definition restore_levels (fs : dict content) (filename : string) (t : Q) (m : memory) : result memory :=
  let* g := load_time_levels repr fs filename t (g_levels (visible m)) in
  let* l := all_parts_of g in
  Ok (mk_memory (others m) l).

(** [io.gfu.load_routine(t)] (dream/io.py:389-395): every component of the
    solver's grid function is read. *)
Definition restore_state (fs : dict content) (filename : string) (t : Q) (m : memory) : result memory :=
  let* c := load_routine repr fs filename (Some t) in
  match c with
  | Part _ => Err NgException
  | Whole rest current =>
      Ok (mk_memory rest
            (map (fun vg => match dget current (fst vg) with
                            | Some (Some v) => (fst vg, dset (snd vg) "n+1" v)
                            | _ => vg
                            end) (levels m)))
  end.

(** [scheme.set_initial_conditions()] (dream/time.py:102-105). *)
Definition levels_from_state (m : memory) : result memory :=
  let* g := scheme_set_initial (levels m) in
  Ok (mk_memory (others m) g).

(** The nonlinear solver (dream/time.py:164-166): new values of all components,
    computed from the parameter [t] and all grid functions.  An oracle. *)
Variable solve : double -> memory -> dict V * (string -> V).

(** [TimeSchemes.time_levels] of the scheme in use (dream/time.py:71, 173, 190). *)
Variable time_levels : list string.

(** One pass of the loop: solve and shift (dream/time.py:313-318). *)
Definition advance (t : double) (m : memory) : result memory :=
  let '(rest, sol) := solve t m in
  let* g := transient_step time_levels (levels m) sol in
  Ok (mk_memory rest g).

(** The memory after every pass (dream/time.py:313-323) for the values of the parameter [t]. *)
Fixpoint march (ts : list double) (m : memory) : result (list memory) :=
  match ts with
  | [] => Ok []
  | t :: rest =>
      let* m' := advance t m in
      let* l := march rest m' in
      Ok (m' :: l)
  end.

(** [self.timer()] (dream/time.py:54-57): parameter and label of every pass. *)
Definition timer_points (tm : ftimer) : result (list (double * double)) := ftimer_start tm false 1.

(** The labels as numbers (dream/time.py:49). *)
Definition labels_of (ps : list (double * double)) : list Q := map (fun p => rational (snd p)) ps.

(** The files a transient run writes, in order (dream/time.py:309-326): the
    first ones are named after the value the parameter [t] has before the run
    (line 310). *)
Definition run_files (filename : string) (rate tlrate : nat) (reassemble : bool)
    (tm : ftimer) (ps : list (double * double)) (m : memory) (states : list memory)
  : list (string * content) :=
  observe (gfu_handler repr filename rate tlrate) (visible m) (map visible states)
    (run_trace (transient_run no_faults reassemble (rational (ft_t tm)) (Ok (labels_of ps)))).

(** The timer after a run (dream/time.py:48): the parameter keeps its last value. *)
Definition timer_after (tm : ftimer) (ps : list (double * double)) : ftimer :=
  mk_ftimer (ft_interval tm) (ft_step tm) (last (map fst ps) (ft_t tm)) (ft_digit tm).

End Restart.
Arguments content V : clear implicits.
Arguments memory V : clear implicits.
