(** Output schedules and loading: C09-C13. *)
From Coq Require Import QArith ZArith String Ascii List Bool Arith Lia.
From Verif Require Import Base Dict S_Timer M_Timer L_Timer M_Run S_Run M_IO S_IO L_IO L_Store L_Load L_Repr.
Import ListNotations.
Local Open Scope nat_scope.
Local Open Scope list_scope.

(** * C09: VTK schedule

    [ls] are the labels of the timer, [sols] the states after the successive
    solves, [s] the initial state. *)

Theorem c09_vtk_schedule : forall {S} r re t0 ls (sols : list S) s,
  ls <> [] -> length ls = length sols ->
  observe (vtk_handler r) s sols (run_trace (transient_run no_faults re t0 (Ok ls))) =
  (t0, s) :: due_points r (combine ls sols).
Proof. exact @vtk_schedule. Qed.
Print Assumptions c09_vtk_schedule.

(** The time points due are exactly those with counter divisible by the rate
    and the last one. *)
Theorem c09_due_points : forall {A} r (l : list A) x,
  In x (due_points r l) <->
  exists i, nth_error l i = Some x /\ (Nat.modulo i r = 0 \/ S i = length l).
Proof.
  intros A r l x. rewrite due_points_In. split; intros [i [H D]]; exists i; (split; [exact H|]).
  - unfold due in D. apply orb_true_iff in D. destruct D as [D|D]; apply Nat.eqb_eq in D; [left; exact D|].
    right. assert (i < length l) by (apply nth_error_Some; congruence). lia.
  - unfold due. apply orb_true_iff. destruct D as [D|D]; [left | right]; apply Nat.eqb_eq; [exact D | lia].
Qed.
Print Assumptions c09_due_points.

(** Rates that are not positive are rejected; a positive rate is taken as it is, so no division by zero
    happens and the first of the points due is the first one of the run. *)
Theorem c09_rates : forall i,
  ((i <= 0)%Z -> rate_fset i = Err ValueError) /\
  ((0 < i)%Z -> exists r, rate_fset i = Ok r /\ Z.of_nat r = i).
Proof.
  intros i. unfold rate_fset. split; intros H.
  - rewrite (proj2 (Z.leb_le i 0) H). reflexivity.
  - rewrite (proj2 (Z.leb_gt i 0) H). exists (Z.to_nat i). split; [reflexivity | lia].
Qed.
Print Assumptions c09_rates.

(** With any accepted rate no window of as many time points as the rate says is left without output. *)
Theorem c09_no_gap : forall {A} i r (l : list A) k, rate_fset i = Ok r -> k + r <= length l ->
  exists j x, k <= j < k + r /\ nth_error l j = Some x /\ In x (due_points r l).
Proof.
  intros A i r l k E L. assert (0 < r).
  { destruct (Z.le_gt_cases i 0) as [H|H]; [rewrite (proj1 (c09_rates i) H) in E; discriminate|].
    destruct (proj2 (c09_rates i) H) as (r' & E' & Q). rewrite E in E'. injection E' as <-. lia. }
  assert (exists j, k <= j < k + r /\ Nat.modulo j r = 0) as (j & B & M).
  { exists ((k + r - 1) / r * r). split; [|rewrite Nat.mod_mul; lia].
    pose proof (Nat.div_mod (k + r - 1) r ltac:(lia)). pose proof (Nat.mod_upper_bound (k + r - 1) r ltac:(lia)). nia. }
  destruct (nth_error l j) as [x|] eqn:N; [|apply nth_error_None in N; lia].
  exists j, x. split; [exact B|]. split; [exact N|]. apply c09_due_points. exists j. auto.
Qed.
Print Assumptions c09_no_gap.

(** Whatever interrupts the run, the snapshots attempted are an initial part. *)
Theorem c09_interrupted : forall {S} r faults re t0 ls (s : S) sols,
  starts_with (observe (vtk_handler r) s sols (run_trace (transient_run faults re t0 ls)))
              (observe (vtk_handler r) s sols (run_trace (transient_run no_faults re t0 ls))).
Proof. intros S r. exact (interrupted_outputs (vtk_handler r) (vtk_saving r)). Qed.
Print Assumptions c09_interrupted.

(** Six time points at rate 2: counters 0, 2, 4 and the last one, 5. *)
Example c09_example :
  observe (vtk_handler 2) 0 [1; 2; 3; 4; 5; 6] (run_trace (transient_run no_faults true 0%Q
    (Ok [1; 2; 3; 4; 5; 6]%Q))) = [(0%Q, 0); (1%Q, 1); (3%Q, 3); (5%Q, 5); (6%Q, 6)].
Proof. vm_compute. reflexivity. Qed.

(** * C10: grid function schedule *)

Theorem c10_state_files : forall {V} repr fn, number_format repr ->
  forall r q re t0 ls (sols : list (gstate V)) s, ls <> [] -> length ls = length sols ->
  filter (fun w => is_one_part fn (fst w))
    (observe (gfu_handler repr fn r q) s sols (run_trace (transient_run no_faults re t0 (Ok ls)))) =
  map (fun p => (state_file repr fn (fst p), g_gfu (snd p))) ((t0, s) :: due_points r (combine ls sols)).
Proof. intros V repr fn RF. exact (gfu_state_schedule repr RF fn _ (is_one_part_spec fn)). Qed.
Print Assumptions c10_state_files.

Theorem c10_level_files : forall {V} repr fn, number_format repr ->
  forall r q re t0 ls (sols : list (gstate V)) s, ls <> [] -> length ls = length sols ->
  filter (fun w => negb (is_one_part fn (fst w)))
    (observe (gfu_handler repr fn r q) s sols (run_trace (transient_run no_faults re t0 (Ok ls)))) =
  flat_map (fun p => all_level_files repr fn (fst p) (g_levels (snd p)))
    ((t0, s) :: select (fun i => Nat.eqb (Nat.modulo i q) 0) (combine ls sols) ++
     (if Nat.eqb (Nat.modulo (length ls - 1) r) 0 then [] else [(List.last ls 0%Q, List.last sols s)])).
Proof. intros V repr fn RF. exact (gfu_level_schedule repr RF fn _ (is_one_part_spec fn)). Qed.
Print Assumptions c10_level_files.

Theorem c10_interrupted : forall {V} repr fn r q faults re t0 ls (s : gstate V) sols,
  starts_with (observe (gfu_handler repr fn r q) s sols (run_trace (transient_run faults re t0 ls)))
              (observe (gfu_handler repr fn r q) s sols (run_trace (transient_run no_faults re t0 ls))).
Proof. intros V repr fn r q. exact (interrupted_outputs _ (gfu_saving repr fn r q)). Qed.
Print Assumptions c10_interrupted.

(** The time levels of the last time point are not written when its counter is
    a multiple of the state rate but not of the level rate: a restart fails. *)
Theorem c10_final_levels_refuted : forall {V} repr fn, number_format repr ->
  forall (fs : dict V) r q re t0 ls (sols : list (gstate V)) s t x f g l v template rest,
  ls <> [] -> length ls = length sols -> distinct ls ->
  Forall (fun x => proper_levels (g_levels x)) (s :: sols) ->
  nth_error ls (length ls - 1) = Some t -> nth_error sols (length ls - 1) = Some x ->
  Nat.eqb (Nat.modulo (length ls - 1) r) 0 = true -> Nat.eqb (Nat.modulo (length ls - 1) q) 0 = false ->
  ~ (t0 == t)%Q -> template = (f, (l, v) :: g) :: rest -> free_of "_"%char l ->
  dget fs (level_file repr fn t f l) = None ->
  load_time_levels repr (write_all fs (observe (gfu_handler repr fn r q) s sols
      (run_trace (transient_run no_faults re t0 (Ok ls))))) fn t template = Err FileNotFoundError.
Proof. intros V repr fn RF. exact (final_levels_missing repr RF fn). Qed.
Print Assumptions c10_final_levels_refuted.

(** States are numbers, two variables with two levels; rates 2 and 3. *)
Definition ex_state (k : nat) : gstate nat :=
  mk_gstate k [("U"%string, [("n"%string, 10 + k); ("n+1"%string, 20 + k)]); ("Q_1"%string, [("n"%string, 30 + k)])].

Example c10_example :
  let out := observe (gfu_handler unary "gfu" 2 3) (ex_state 0) (map ex_state [1; 2; 3; 4]%nat)
     (run_trace (transient_run no_faults true 0%Q (Ok [1; 2; 3; 4]%Q))) in
  filter (fun w => is_one_part "gfu" (fst w)) out =
    [("gfu_/1"%string, 0); ("gfu_1/1"%string, 1); ("gfu_111/1"%string, 3); ("gfu_1111/1"%string, 4)] /\
  length (filter (fun w => negb (is_one_part "gfu" (fst w))) out) = 12 /\
  dget (write_all [] out) "gfu_1111/1_Q_1_n" = Some 34.
Proof. vm_compute. repeat split. Qed.

(** Rates 1 and 100 (the defaults) with four time points: no levels at the end. *)
Example c10_refuted_example :
  load_time_levels unary (write_all [] (observe (gfu_handler unary "gfu" 1 100) (ex_state 0) (map ex_state [1; 2; 3; 4]%nat)
     (run_trace (transient_run no_faults true 0%Q (Ok [1; 2; 3; 4]%Q))))) "gfu" 4%Q (g_levels (ex_state 0)) = Err FileNotFoundError.
Proof.
  eapply (c10_final_levels_refuted unary "gfu" unary_format [] 1 100 true 0%Q [1; 2; 3; 4]%Q (map ex_state [1; 2; 3; 4]%nat)
            (ex_state 0) 4%Q (ex_state 4)); try reflexivity; try discriminate.
  - intros i j x y. destruct i as [|[|[|[|i]]]], j as [|[|[|[|j]]]]; cbn; intros A B;
      try (destruct i; discriminate); try (destruct j; discriminate); injection A as <-; injection B as <-;
      intros E; reflexivity || (vm_compute in E; discriminate).
  - repeat constructor; cbn; try (intros C; repeat destruct C as [C|C]; discriminate || contradiction); repeat split; discriminate.
  - cbn. repeat split; discriminate.
Qed.

(** * C11: sensor schedule *)

Theorem c11_sensor_schedule : forall {S} sensors x re t0 ls (sols : list S) s,
  NoDup (map se_name sensors) -> In x sensors -> ls <> [] -> length ls = length sols ->
  filter (fun r => String.eqb (row_sensor r) (se_name x))
    (observe (sensor_handler true sensors) s sols (run_trace (transient_run no_faults re t0 (Ok ls)))) =
  map (fun p => mk_row (se_name x) (Some (fst p)) (snd p)) ((t0, s) :: due_points (se_rate x) (combine ls sols)).
Proof. exact @sensor_schedule. Qed.
Print Assumptions c11_sensor_schedule.

Theorem c11_no_csv_no_rows : forall {S} sensors tr (s : S) sols,
  observe (sensor_handler false sensors) s sols tr = [].
Proof. exact @sensor_no_csv. Qed.
Print Assumptions c11_no_csv_no_rows.

Theorem c11_interrupted : forall {S} c sensors faults re t0 ls (s : S) sols,
  starts_with (observe (sensor_handler c sensors) s sols (run_trace (transient_run faults re t0 ls)))
              (observe (sensor_handler c sensors) s sols (run_trace (transient_run no_faults re t0 ls))).
Proof. intros S c sensors. exact (interrupted_outputs _ (sensor_saving c sensors)). Qed.
Print Assumptions c11_interrupted.

Example c11_example :
  map (fun r => (row_sensor r, row_time r, row_state r))
    (observe (sensor_handler true [mk_sensor "a" 1; mk_sensor "b" 3]) 0 [1; 2; 3]
       (run_trace (transient_run no_faults true 0%Q (Ok [1; 2; 3]%Q)))) =
  [("a"%string, Some 0%Q, 0); ("b"%string, Some 0%Q, 0); ("a"%string, Some 1%Q, 1); ("b"%string, Some 1%Q, 1); ("a"%string, Some 2%Q, 2);
   ("a"%string, Some 3%Q, 3); ("b"%string, Some 3%Q, 3)].
Proof. vm_compute. reflexivity. Qed.

(** * C12: loading a saved run *)

(** Every due time point can be loaded and gives the state saved there,
    whatever was in the folder before. *)
Theorem c12_due_states_load : forall {V} repr fn, number_format repr ->
  forall (fs : dict V) r q re t0 ls (sols : list (gstate V)) s i t x,
  ls <> [] -> length ls = length sols -> distinct ls ->
  nth_error ls i = Some t -> nth_error sols i = Some x -> due r (length ls) i = true ->
  load_routine repr (write_all fs (observe (gfu_handler repr fn r q) s sols
      (run_trace (transient_run no_faults re t0 (Ok ls))))) fn (Some t) = Ok (g_gfu x).
Proof. intros V repr fn RF. exact (saved_state repr RF fn). Qed.
Print Assumptions c12_due_states_load.

(** Rate 1: the transient loader (over the same timer) replays the run. *)
Theorem c12_rate_one_replays : forall {V} repr fn, number_format repr ->
  forall (fs : dict V) tm q re t0 ls (sols : list (gstate V)) s,
  timer_call tm = Ok ls ->
  ls <> [] -> length ls = length sols -> distinct ls ->
  exists lr, timer_to_array tm false 1 = Ok lr /\
  load_transient repr (write_all fs (observe (gfu_handler repr fn 1 q) s sols
      (run_trace (transient_run no_faults re t0 (timer_call tm))))) fn lr = (combine ls (map (@g_gfu V) sols), None).
Proof.
  intros V repr fn RF fs tm q re t0 ls sols s H N L D. exists ls. split; [exact H|].
  rewrite H. apply (replay_rate_1 repr RF fn); assumption.
Qed.
Print Assumptions c12_rate_one_replays.

(** A rate above 1 with more than that many steps: the first load already
    asks for a file that was not written. *)
Theorem c12_rate_above_one_refuted : forall {V} repr fn, number_format repr ->
  forall (fs : dict V) tm r n q re t0 ls (sols : list (gstate V)) s lr,
  (0 < tm_step tm)%Q -> 1 < r -> r < n ->
  (snd (tm_interval tm) - fst (tm_interval tm) == inject_Z (Z.of_nat n) * tm_step tm)%Q ->
  timer_to_array tm false 1 = Ok ls -> timer_to_array tm false (Z.of_nat r) = Ok lr ->
  length ls = length sols -> distinct ls ->
  Forall (fun t => ~ t0 == t)%Q ls -> Forall (fun t => dget fs (state_file repr fn t) = None) ls ->
  load_transient repr (write_all fs (observe (gfu_handler repr fn r q) s sols
      (run_trace (transient_run no_faults re t0 (Ok ls))))) fn lr = ([], Some FileNotFoundError).
Proof. intros V repr fn RF. exact (replay_rate_above_1 repr RF fn). Qed.
Print Assumptions c12_rate_above_one_refuted.

(** Timer on [0,1] with step 1/4, rates 1 and 2. *)
Example c12_example : forall l, timer_call (set_step timer_default (1#4)) = Ok l ->
  load_transient unary (write_all [] (observe (gfu_handler unary "gfu" 1 5) (ex_state 0) (map ex_state [1; 2; 3; 4]%nat)
     (run_trace (transient_run no_faults true 0%Q (Ok l))))) "gfu" l = (combine l [1; 2; 3; 4]%nat, None) /\
  exists lr, timer_to_array (set_step timer_default (1#4)) false 2 = Ok lr /\ length lr = 2 /\
  load_transient unary (write_all [] (observe (gfu_handler unary "gfu" 2 5) (ex_state 0) (map ex_state [1; 2; 3; 4]%nat)
     (run_trace (transient_run no_faults true 0%Q (Ok l))))) "gfu" lr = ([], Some FileNotFoundError).
Proof.
  intros l H. assert (E : l = match timer_call (set_step timer_default (1#4)) with Ok l => l | _ => [] end) by (rewrite H; reflexivity).
  rewrite E. split; [vm_compute; reflexivity|]. eexists. split; [vm_compute; reflexivity|]. split; vm_compute; reflexivity.
Qed.

(** * C13: time levels *)

Theorem c13_levels_round_trip : forall {V} repr fn, number_format repr ->
  forall (fs : dict V) t levels template (saves : list (Q * gstate V * nat * nat * nat)),
  proper_levels levels -> same_names template levels ->
  Forall (fun x => let '(t', s', _, _, _) := x in ~ (t' == t)%Q /\ proper_levels (g_levels s')) saves ->
  load_time_levels repr
    (write_all (write_all fs (level_writes repr fn t levels))
       (flat_map (fun x => let '(t', s', it, r, q) := x in gfu_in repr fn r q s' (Some t') it) saves)) fn t template
  = Ok levels.
Proof. intros V repr fn RF. exact (levels_round_trip repr RF fn). Qed.
Print Assumptions c13_levels_round_trip.

Theorem c13_levels_after_run : forall {V} repr fn, number_format repr ->
  forall (fs : dict V) r q re t0 ls (sols : list (gstate V)) s i t x template,
  ls <> [] -> length ls = length sols -> distinct ls -> Forall (fun x => proper_levels (g_levels x)) sols ->
  nth_error ls i = Some t -> nth_error sols i = Some x ->
  Nat.eqb (Nat.modulo i q) 0 = true \/ (i = length ls - 1 /\ Nat.eqb (Nat.modulo i r) 0 = false) ->
  same_names template (g_levels x) ->
  load_time_levels repr (write_all fs (observe (gfu_handler repr fn r q) s sols
      (run_trace (transient_run no_faults re t0 (Ok ls))))) fn t template = Ok (g_levels x).
Proof. intros V repr fn RF. exact (levels_after_run repr RF fn). Qed.
Print Assumptions c13_levels_after_run.

Example c13_example :
  load_time_levels unary
    (write_all (write_all [] (level_writes unary "gfu" (1#2) (g_levels (ex_state 7))))
       (flat_map (fun x => let '(t', s', it, r, q) := x in gfu_in unary "gfu" r q s' (Some t') it)
          [((1#3)%Q, ex_state 8, 4, 2, 2); ((2#3)%Q, ex_state 9, 3, 1, 3)])) "gfu" (2#4) (g_levels (ex_state 0))
  = Ok (g_levels (ex_state 7)).
Proof. vm_compute. reflexivity. Qed.
