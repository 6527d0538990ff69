(** Model of the time schemes (dream/time.py:68-204) and of the pseudo time
    step update (dream/time.py:391-403). *)
From Coq Require Import String List Bool QArith ZArith Reals.
From Verif Require Import Base Dict.
Import ListNotations.
Local Open Scope string_scope.

Section Levels.
(** The vector content of a grid function; never inspected. *)
Context {V : Type}.

(** [TimeSchemes.initialize_level_gridfunctions] (dream/time.py:98-100).
    A fresh [ngs.GridFunction] holds [zero].  The entry of the last level is
    the solver's own grid function object; later writes of the solver to it are
    modelled as writes to this entry. *)
Definition init_levels (time_levels : list string) (zero gfu : V) : dict V :=
  dict_of (combine time_levels (map (fun _ => zero) (removelast time_levels) ++ [gfu])).

(** [gfu[old].vec.data = gfu[new].vec]: a copy of the values; a missing level
    raises KeyError (dream/time.py:105, 113). *)
Definition copy_level (g : dict V) (old new : string) : result (dict V) :=
  match dget g new with
  | None => Err KeyError
  | Some v => match dget g old with
              | None => Err KeyError
              | Some _ => Ok (dset g old v)
              end
  end.

(** The inner loop of [TimeSchemes.set_initial_conditions] for one variable
    (dream/time.py:104-105): all levels but the last inserted one. *)
Definition set_initial_levels (g : dict V) : result (dict V) :=
  fold_left (fun r old => let* g := r in copy_level g old "n+1")
            (removelast (dkeys g)) (Ok g).

(** The inner loop of [TimeSchemes.update_gridfunctions] for one variable
    (dream/time.py:112-113). *)
Definition update_levels (time_levels : list string) (g : dict V) : result (dict V) :=
  fold_left (fun r on => let* g := r in copy_level g (fst on) (snd on))
            (combine (removelast time_levels) (tl time_levels)) (Ok g).

(** [for gfu in self.gfus.values()] with an action that may raise
    (dream/time.py:103, 111). *)
Fixpoint for_variables (f : string -> dict V -> result (dict V)) (gfus : dict (dict V))
  : result (dict (dict V)) :=
  match gfus with
  | [] => Ok []
  | (v, g) :: r => let* g' := f v g in let* r' := for_variables f r in Ok ((v, g') :: r')
  end.

(** [TimeSchemes.initialize] as far as the levels are concerned
    (dream/time.py:86-96): [cfg_gfus] are the solver's grid functions of the
    variables with a temporal integrator. *)
Definition scheme_initialize (time_levels : list string) (zero : V) (cfg_gfus : dict V)
  : dict (dict V) :=
  map (fun vg => (fst vg, init_levels time_levels zero (snd vg))) cfg_gfus.

(** [TimeSchemes.set_initial_conditions] (dream/time.py:102-105). *)
Definition scheme_set_initial (gfus : dict (dict V)) : result (dict (dict V)) :=
  for_variables (fun _ g => set_initial_levels g) gfus.

(** [TimeSchemes.update_gridfunctions] (dream/time.py:110-113). *)
Definition scheme_update (time_levels : list string) (gfus : dict (dict V))
  : result (dict (dict V)) :=
  for_variables (fun _ g => update_levels time_levels g) gfus.

(** The nonlinear solver leaves some new values [sol] in its grid function,
    i.e. in level 'n+1' of every variable (dream/time.py:164-166; aliasing from
    line 99).  The solver itself is an oracle. *)
Definition solver_writes (sol : string -> V) (gfus : dict (dict V)) : dict (dict V) :=
  map (fun vg => (fst vg, dset (snd vg) "n+1" (sol (fst vg)))) gfus.

(** One pass of the transient loop: solve, then shift (dream/time.py:315-318). *)
Definition transient_step (time_levels : list string) (gfus : dict (dict V)) (sol : string -> V)
  : result (dict (dict V)) :=
  scheme_update time_levels (solver_writes sol gfus).

(** One pass of the pseudo time loop: the levels are shifted at the yield, then
    the solver's step writes its grid function (dream/time.py:377-380 and
    dream/solver.py:195-211). *)
Definition pseudo_step (time_levels : list string) (gfus : dict (dict V)) (sol : string -> V)
  : result (dict (dict V)) :=
  let* g := scheme_update time_levels gfus in Ok (solver_writes sol g).

(** Repetition of a step over a sequence of solver results (dream/time.py:304-330). *)
Definition iterate_steps (step : dict (dict V) -> (string -> V) -> result (dict (dict V)))
  (gfus : dict (dict V)) (sols : list (string -> V)) : result (dict (dict V)) :=
  fold_left (fun r sol => let* g := r in step g sol) sols (Ok gfus).

(** [initialize] followed by [set_initial_conditions] (dream/solver.py:358-367,
    dream/time.py:300-302 and 405-407). *)
Definition scheme_start (time_levels : list string) (zero : V) (cfg_gfus : dict V)
  : result (dict (dict V)) :=
  scheme_set_initial (scheme_initialize time_levels zero cfg_gfus).

End Levels.

(** [ImplicitEuler.time_levels] (dream/time.py:173). *)
Definition ie_levels : list string := ["n"; "n+1"].
(** [BDF2.time_levels] (dream/time.py:190). *)
Definition bdf2_levels : list string := ["n-1"; "n"; "n+1"].

Local Open Scope R_scope.

(** [ImplicitEuler.get_time_derivative] (dream/time.py:175-176), point values. *)
Definition ie_derivative (dt np1 n : R) : R := (np1 - n) / dt.
(** [ImplicitEuler.get_current_level] (dream/time.py:178-180). *)
Definition ie_current_level (normalized : bool) (n : R) : R := n.
(** [ImplicitEuler.get_time_step] (dream/time.py:182-183). *)
Definition ie_time_step (normalized : bool) (dt : R) : R := dt.

(** [BDF2.get_time_derivative] (dream/time.py:192-193), point values. *)
Definition bdf2_derivative (dt np1 n nm1 : R) : R := (3 * np1 - 4 * n + nm1) / (2 * dt).
(** [BDF2.get_current_level] (dream/time.py:195-199). *)
Definition bdf2_current_level (normalized : bool) (n nm1 : R) : R :=
  if normalized then 4 / 3 * n - 1 / 3 * nm1 else 4 * n - nm1.
(** [BDF2.get_time_step] (dream/time.py:201-204). *)
Definition bdf2_time_step (normalized : bool) (dt : R) : R :=
  if normalized then 2 / 3 * dt else 2 * dt.

Local Close Scope R_scope.
Local Open Scope Q_scope.

(** The settings of [PseudoTimeSteppingConfig] (dream/time.py:345-355). *)
Record pseudo := mk_pseudo {
  ps_max_time_step : Q;
  ps_increment_at : Z;
  ps_increment_factor : Z
}.

(** [PseudoTimeSteppingConfig.solver_iteration_update] (dream/time.py:391-403):
    the new time step.  [it % 0] raises ZeroDivisionError. *)
Definition solver_iteration_update (c : pseudo) (old : Q) (it : nat) : result Q :=
  if negb (Qle_bool (ps_max_time_step c) old) then
    if (ps_increment_at c =? 0)%Z then Err ZeroDivisionError
    else if (Z.of_nat it mod ps_increment_at c =? 0)%Z && (0 <? Z.of_nat it)%Z then
      let new := old * inject_Z (ps_increment_factor c) in
      Ok (if negb (Qle_bool new (ps_max_time_step c)) then ps_max_time_step c else new)
    else Ok old
  else Ok old.

(** The time step after the iterations [0 .. n-1] of one solve
    (dream/time.py:377-379). *)
Fixpoint pseudo_time_step (c : pseudo) (h0 : Q) (n : nat) : result Q :=
  match n with
  | O => Ok h0
  | S k => let* h := pseudo_time_step c h0 k in solver_iteration_update c h k
  end.
