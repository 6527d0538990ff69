(** Time scheme properties C04-C06. *)
From Coq Require Import String List Bool QArith ZArith Reals Lia Lra.
From Coquelicot Require Import Coquelicot.
From Verif Require Import Base Dict M_Scheme S_Scheme L_Scheme L_Pseudo L_SchemeR.
Import ListNotations.
Local Open Scope string_scope.

(** * C04: the stored time levels are the last computed solutions *)

(** Any scheme whose levels are distinct and end with 'n+1': when step k+1 is
    about to be solved, level p of the m+2 levels holds solution k-(m-p) (the initial
    state when that number is not positive), for every variable and whatever
    the solver computed. *)
Theorem c04_levels_are_last_solutions : forall {V} levels m (zero : V) (start : dict V) sols,
  NoDup levels -> length levels = S (S m) -> nth_error levels (S m) = Some "n+1" ->
  NoDup (dkeys start) ->
  exists g0 g, scheme_start levels zero start = Ok g0 /\
    iterate_steps (transient_step levels) g0 sols = Ok g /\
    forall var u0 p level, dget start var = Some u0 -> nth_error levels p = Some level ->
      exists gv, dget g var = Some gv /\
        dget gv level = Some (solution u0 (map (fun s => s var) sols) (length sols - (m - p))).
Proof. exact @transient_levels. Qed.
Print Assumptions c04_levels_are_last_solutions.

Theorem c04_implicit_euler : forall {V} (zero : V) (start : dict V) sols,
  NoDup (dkeys start) ->
  exists g0 g, scheme_start ie_levels zero start = Ok g0 /\
    iterate_steps (transient_step ie_levels) g0 sols = Ok g /\
    forall var u0, dget start var = Some u0 ->
      exists gv, dget g var = Some gv /\
        dget gv "n" = Some (solution u0 (map (fun s => s var) sols) (length sols)) /\
        dget gv "n+1" = Some (solution u0 (map (fun s => s var) sols) (length sols)).
Proof. exact @ie_transient. Qed.
Print Assumptions c04_implicit_euler.

Theorem c04_bdf2 : forall {V} (zero : V) (start : dict V) sols,
  NoDup (dkeys start) ->
  exists g0 g, scheme_start bdf2_levels zero start = Ok g0 /\
    iterate_steps (transient_step bdf2_levels) g0 sols = Ok g /\
    forall var u0, dget start var = Some u0 ->
      exists gv, dget g var = Some gv /\
        dget gv "n-1" = Some (solution u0 (map (fun s => s var) sols) (length sols - 1)) /\
        dget gv "n" = Some (solution u0 (map (fun s => s var) sols) (length sols)) /\
        dget gv "n+1" = Some (solution u0 (map (fun s => s var) sols) (length sols)).
Proof. exact @bdf2_transient. Qed.
Print Assumptions c04_bdf2.

(** Pseudo time stepping shifts before each solver step: after k iterations
    'n+1' is iterate k, 'n' is iterate k-1, and so on. *)
Theorem c04_pseudo_levels : forall {V} levels m (zero : V) (start : dict V) sols,
  NoDup levels -> length levels = S (S m) -> nth_error levels (S m) = Some "n+1" ->
  NoDup (dkeys start) ->
  exists g0 g, scheme_start levels zero start = Ok g0 /\
    iterate_steps (pseudo_step levels) g0 sols = Ok g /\
    forall var u0 p level, dget start var = Some u0 -> nth_error levels p = Some level ->
      exists gv, dget g var = Some gv /\
        dget gv level = Some (solution u0 (map (fun s => s var) sols) (length sols - (S m - p))).
Proof. exact @pseudo_levels. Qed.
Print Assumptions c04_pseudo_levels.

(** Two variables, three BDF2 steps. *)
Example c04_example :
  let start := [("U", 10%nat); ("Uhat", 20%nat)] in
  let sols := map (fun k v => if String.eqb v "U" then (10 + k)%nat else (20 + k)%nat) [1; 2; 3]%nat in
  NoDup (dkeys start) /\
  exists g0 g, scheme_start bdf2_levels 0%nat start = Ok g0 /\
    iterate_steps (transient_step bdf2_levels) g0 sols = Ok g /\
    g = [("U", [("n-1", 12%nat); ("n", 13%nat); ("n+1", 13%nat)]);
         ("Uhat", [("n-1", 22%nat); ("n", 23%nat); ("n+1", 23%nat)])].
Proof.
  cbv zeta. split; [repeat constructor; cbn; intuition discriminate|].
  do 2 eexists. repeat split; vm_compute; reflexivity.
Qed.

(** * C05: the time discretisations are consistent *)

Local Open Scope R_scope.

Theorem c05_implicit_euler_exact_for_linear : forall (a b t h : R), h <> 0 ->
  let u := fun s => a + b * s in
  ie_derivative h (u (t + h)) (u t) = b.
Proof. exact ie_consistent. Qed.
Print Assumptions c05_implicit_euler_exact_for_linear.

Theorem c05_bdf2_exact_for_quadratic : forall (a b c t h : R), h <> 0 ->
  let u := fun s => a + b * s + c * s ^ 2 in
  bdf2_derivative h (u (t + h)) (u t) (u (t - h)) = b + 2 * c * (t + h).
Proof. exact bdf2_consistent. Qed.
Print Assumptions c05_bdf2_exact_for_quadratic.

(** First and second order of consistency for every smooth function. *)
Theorem c05_implicit_euler_first_order : forall (u : R -> R) t h M, 0 < h ->
  (forall s k, (k <= 2)%nat -> ex_derive_n u k s) ->
  (forall s, t <= s <= t + h -> Rabs (Derive_n u 2 s) <= M) ->
  Rabs (ie_derivative h (u (t + h)) (u t) - Derive u (t + h)) <= h / 2 * M.
Proof. exact ie_error. Qed.
Print Assumptions c05_implicit_euler_first_order.

Theorem c05_bdf2_second_order : forall (u : R -> R) t h M, 0 < h ->
  (forall s k, (k <= 3)%nat -> ex_derive_n u k s) ->
  (forall s, t - h <= s <= t + h -> Rabs (Derive_n u 3 s) <= M) ->
  Rabs (bdf2_derivative h (u (t + h)) (u t) (u (t - h)) - Derive u (t + h)) <= h ^ 2 * M.
Proof. exact bdf2_error. Qed.
Print Assumptions c05_bdf2_second_order.

Theorem c05_implicit_euler_level_and_step : forall dt np1 n normalized, dt <> 0 ->
  (np1 - ie_current_level normalized n) / ie_time_step normalized dt = ie_derivative dt np1 n.
Proof. exact ie_levels_steps. Qed.
Print Assumptions c05_implicit_euler_level_and_step.

Theorem c05_bdf2_level_and_step : forall dt np1 n nm1, dt <> 0 ->
  (np1 - bdf2_current_level true n nm1) / bdf2_time_step true dt = bdf2_derivative dt np1 n nm1 /\
  (3 * np1 - bdf2_current_level false n nm1) / bdf2_time_step false dt = bdf2_derivative dt np1 n nm1.
Proof. exact bdf2_levels_steps. Qed.
Print Assumptions c05_bdf2_level_and_step.

(** The very first BDF2 step (both old levels are the initial state, see C04)
    is not even consistent: a linear function gets 3/2 of its slope. *)
Theorem c05_bdf2_startup_refuted : forall a b t h, h <> 0 ->
  let u := fun s => a + b * s in
  bdf2_derivative h (u (t + h)) (u t) (u t) = 3 / 2 * b.
Proof. exact bdf2_startup. Qed.
Print Assumptions c05_bdf2_startup_refuted.

(** Neither is a step after the step size was changed, for instance between two runs: with the step [k] before and [h] now a
    linear function gets (3 h - k) / (2 h) of its slope, so its slope only for equal steps. *)
Theorem c05_bdf2_changed_step_refuted : forall a b t h k, h <> 0 ->
  let u := fun s => a + b * s in
  bdf2_derivative h (u (t + h)) (u t) (u (t - k)) = (3 * h - k) / (2 * h) * b /\
  (b <> 0 -> (bdf2_derivative h (u (t + h)) (u t) (u (t - k)) = b <-> k = h)).
Proof.
  intros a b t h k H u. assert (E : bdf2_derivative h (u (t + h)) (u t) (u (t - k)) = (3 * h - k) / (2 * h) * b) by (unfold bdf2_derivative, u; field; exact H).
  split; [exact E|]. intros B. rewrite E. split.
  - intros Z. assert (Y : (3 * h - k) / (2 * h) = 1) by (apply (Rmult_eq_reg_r b); [lra|exact B]).
    apply (f_equal (fun x => x * (2 * h))) in Y. unfold Rdiv in Y. rewrite Rmult_assoc, Rinv_l in Y by lra. lra.
  - intros ->. field. exact H.
Qed.
Print Assumptions c05_bdf2_changed_step_refuted.

(** A non-polynomial smooth function meets the hypotheses of the order theorems. *)
Lemma exp_derive_n : forall k s, is_derive_n exp k s (exp s).
Proof.
  intros k. induction k as [|k IH]; intros s; [reflexivity|].
  cbn. apply (is_derive_ext exp).
  - intros x. symmetry. apply is_derive_n_unique. apply IH.
  - apply is_derive_Reals. apply derivable_pt_lim_exp.
Qed.

Example c05_example : forall h, 0 < h <= 1 ->
  Rabs (bdf2_derivative h (exp (0 + h)) (exp 0) (exp (0 - h)) - Derive exp (0 + h)) <= h ^ 2 * exp 1.
Proof.
  intros h Hh. apply c05_bdf2_second_order; [lra | |].
  - intros s k _. destruct k as [|k]; [exact I|]. exists (exp s). exact (exp_derive_n (S k) s).
  - intros s Hs. rewrite (is_derive_n_unique exp 3 s _ (exp_derive_n 3 s)).
    rewrite Rabs_pos_eq by (left; apply exp_pos).
    destruct (Req_dec s 1) as [->|Hn]; [lra|]. left. apply exp_increasing. lra.
Qed.

Local Close Scope R_scope.

(** * C06: the pseudo time step grows monotonically up to its bound *)

Local Open Scope Q_scope.

(** Exact value after the iterations 0..n-1. *)
Theorem c06_closed_form : forall c h0 n,
  (ps_increment_at c <> 0)%Z -> (1 <= ps_increment_factor c)%Z ->
  0 < h0 -> h0 <= ps_max_time_step c ->
  exists h, pseudo_time_step c h0 n = Ok h /\
    h == smaller (ps_max_time_step c)
           (h0 * inject_Z (ps_increment_factor c ^ Z.of_nat (positive_multiples_below (ps_increment_at c) n))).
Proof. exact pseudo_closed_form. Qed.
Print Assumptions c06_closed_form.

Theorem c06_monotone_bounded : forall c h0 n,
  (ps_increment_at c <> 0)%Z -> (1 <= ps_increment_factor c)%Z -> 0 < h0 ->
  exists h h', pseudo_time_step c h0 n = Ok h /\ pseudo_time_step c h0 (S n) = Ok h' /\
    h0 <= h /\ h <= h' /\
    (h' <= ps_max_time_step c \/ h' = h0) /\
    ((0 <? Z.of_nat n)%Z && (Z.of_nat n mod ps_increment_at c =? 0)%Z = false -> h' = h).
Proof. exact pseudo_step_monotone. Qed.
Print Assumptions c06_monotone_bounded.

Theorem c06_constant_above_maximum : forall c h0 n,
  (ps_increment_at c <> 0)%Z -> ps_max_time_step c <= h0 -> pseudo_time_step c h0 n = Ok h0.
Proof. exact pseudo_constant. Qed.
Print Assumptions c06_constant_above_maximum.

Theorem c06_reaches_maximum : forall c h0,
  (0 < ps_increment_at c)%Z -> (2 <= ps_increment_factor c)%Z ->
  0 < h0 -> h0 <= ps_max_time_step c ->
  exists K, forall n, (K <= n)%nat -> exists h, pseudo_time_step c h0 n = Ok h /\ h == ps_max_time_step c.
Proof. exact pseudo_reaches_max. Qed.
Print Assumptions c06_reaches_maximum.

(** Unvalidated settings: increment_at = 0 raises, increment_factor = 0 makes the time step zero. *)
Theorem c06_zero_settings_refuted :
  (forall h m f, h < m -> pseudo_time_step (mk_pseudo m 0 f) h 1 = Err ZeroDivisionError) /\
  exists h, pseudo_time_step (mk_pseudo 1 1 0) (1#10) 2 = Ok h /\ h == 0.
Proof.
  split.
  - intros h m f H. cbn. unfold solver_iteration_update. cbn.
    destruct (Qle_bool m h) eqn:E; [apply Qle_bool_iff in E; exfalso; apply (Qlt_not_le _ _ H E) | reflexivity].
  - eexists. split; vm_compute; reflexivity.
Qed.
Print Assumptions c06_zero_settings_refuted.

(** Default settings of the code: factor 10 every 10 iterations, 1e-4 to 1. *)
Example c06_example :
  let c := mk_pseudo 1 10 10 in
  (exists h, pseudo_time_step c (1#10000) 21 = Ok h /\ h == 1#100) /\
  (exists h, pseudo_time_step c (1#10000) 60 = Ok h /\ h == 1).
Proof. split; eexists; split; vm_compute; reflexivity. Qed.
