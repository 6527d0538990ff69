(** C17-C19: folders, stream switches, log handlers. *)
From Coq Require Import ZArith String List Bool Arith.
From Verif Require Import Base Dict M_Path S_Path L_Path M_Stream S_Stream L_Stream.
Import ListNotations.
Local Open Scope string_scope.
Local Open Scope list_scope.

(** * C17 *)

(** A relative assignment stores root/path and takes along every folder below the old
    location.  Guard: no other folder is stored at exactly the old location (or it is
    already at the new one). *)
Theorem c17_relative_assignment : forall cwd (data : dict folder) key p (root old : folder),
  NoDup (dkeys data) -> dget data "root" = Some root -> dget data key = Some old ->
  (forall k q, dget data k = Some q -> k <> key -> q <> old \/ q = root ++ p) ->
  exists data', path_set cwd data key (PRel p) = (data', None) /\ dkeys data' = dkeys data /\
    dget data' key = Some (root ++ p) /\
    forall k q, k <> key -> dget data k = Some q -> exists q', dget data' k = Some q' /\ moved old (root ++ p) q q'.
Proof. exact path_set_relative. Qed.
Print Assumptions c17_relative_assignment.

(** Without the guard the setter does not return. *)
Theorem c17_shared_folder_refuted : forall cwd (data : dict folder) key p (root old : folder) k,
  NoDup (dkeys data) -> dget data "root" = Some root -> dget data key = Some old -> k <> key -> dget data k = Some old ->
  old <> [] -> root ++ p <> old ->
  snd (path_set cwd data key (PRel p)) = Some NonTermination.
Proof. exact path_set_diverges. Qed.
Print Assumptions c17_shared_folder_refuted.

(** An absolute path (or None, the current directory) moves only the assigned folder;
    in particular a new absolute root leaves the other folders behind. *)
Theorem c17_absolute_assignment : forall cwd (data : dict folder) key v p, (v = PAbs p \/ v = PNone /\ p = cwd) ->
  exists data', path_set cwd data key v = (data', None) /\ dget data' key = Some p /\
    forall k, k <> key -> dget data' k = dget data k.
Proof.
  intros cwd data key v p [->|[-> ->]]; (eexists; split; [reflexivity|]; split; [apply dget_dset_same|]; intros k D; apply dget_dset_other; congruence).
Qed.
Print Assumptions c17_absolute_assignment.

(** A new configuration has its four sub-folders below the current directory. *)
Theorem c17_defaults : forall cwd, cwd <> [] -> folders_clear cwd = (folders_default cwd, None).
Proof. exact folders_clear_spec. Qed.
Print Assumptions c17_defaults.

Example c17_example :
  path_set ["home"] (folders_default ["home"]) "root" (PRel ["run"]) =
  ([("root", ["home"; "run"]); ("states", ["home"; "run"; "states"]); ("vtk", ["home"; "run"; "vtk"]);
    ("settings", ["home"; "run"; "cfg"]); ("sensors", ["home"; "run"; "sensors"])], None).
Proof. reflexivity. Qed.

Example c17_example_nested :
  fst (path_set ["home"] (fst (path_set ["home"] (folders_default ["home"]) "vtk" (PRel ["states"; "a"; "b"]))) "states" (PRel ["s"])) =
  [("root", ["home"]); ("states", ["home"; "s"]); ("vtk", ["home"; "s"; "a"; "b"]);
    ("settings", ["home"; "cfg"]); ("sensors", ["home"; "sensors"])].
Proof. reflexivity. Qed.

Example c17_example_shared :
  snd (path_set ["home"] (fst (path_set ["home"] (folders_default ["home"]) "vtk" (PRel ["states"]))) "states" (PRel ["s"])) = Some NonTermination.
Proof. reflexivity. Qed.

(** * C18 *)

(** After any history a stream is on exactly if its last accepted assignment says so;
    the starting position of a new configuration is off except for the log. *)
Theorem c18_position : forall (l : list (string * switch_value)) name,
  switch_get name (switch_run l switches_default) <> None <-> position name (String.eqb name "log") (rev l) = true.
Proof.
  intros l name. destruct (switch_history l switches_default name) as [_ H].
  - cbn. constructor; [intros [] | constructor].
  - replace (String.eqb name "log") with (is_on name switches_default)
      by (unfold is_on, switch_get; cbn; destruct (String.eqb name "log"); reflexivity).
    rewrite <- H. unfold is_on. destruct (switch_get name (switch_run l switches_default)); split; congruence.
Qed.
Print Assumptions c18_position.

(** Other values raise and change nothing; accepted ones leave all other streams alone and
    switching on installs a stream object never seen before, even if one was active. *)
Theorem c18_assignment : forall name v s, NoDup (dkeys (sw_data s)) ->
  match accepted name v with
  | None => switch_set name v s = (s, Some ValueError)
  | Some b => exists s', switch_set name v s = (s', None) /\
      (switch_get name s' = if b then Some (sw_next s) else None) /\
      (forall n, n <> name -> switch_get n s' = switch_get n s)
  end.
Proof.
  intros name v s N. destruct (accepted name v) as [b|] eqn:A.
  - destruct (switch_accepted name v b s A N) as (s' & E & _ & G & O & _). exists s'. repeat split; assumption.
  - apply switch_rejected, A.
Qed.
Print Assumptions c18_assignment.

Example c18_example :
  map (fun n => is_on n (switch_run [("vtk", SBool true); ("gfu", SStr "gfu"); ("vtk", SStr "gfu"); ("gfu", SOther); ("log", SBool false)] switches_default))
    stream_names = [false; false; true; false; true; false].
Proof. reflexivity. Qed.

(** * C19 *)

(** After any history of any number of log streams: exactly one terminal handler for a live
    stream whose last assignment was true and none otherwise; likewise for the file handler when
    all log files could be opened, and never more than one; deleted streams have none; handlers of
    other code are all still there. *)
Theorem c19_handlers : forall ops i, let l := w_handlers (log_run ops log_start) in let h := rev ops in
  registered (Some i) Terminal l = (if alive i h && last_terminal i h then 1 else 0) /\
  registered (Some i) File l <= 1 /\
  (alive i h = false -> registered (Some i) File l = 0) /\
  (files_open h -> registered (Some i) File l = if alive i h && last_file i h then 1 else 0) /\
  (forall k, registered None k l = foreign k h).
Proof. exact log_handlers. Qed.
Print Assumptions c19_handlers.

(** The stored options agree with the handlers, and the level of the logger is the last accepted
    one on any stream. *)
Theorem c19_options : forall ops i s, let h := rev ops in nth_error (w_streams (log_run ops log_start)) i = Some (Some s) ->
  l_to_terminal s = last_terminal i h /\ (files_open h -> l_to_file s = last_file i h).
Proof. exact log_options. Qed.
Print Assumptions c19_options.

Theorem c19_level : forall ops, w_level (log_run ops log_start) = last_level (rev ops).
Proof. exact log_level. Qed.
Print Assumptions c19_level.

(** If the log file cannot be opened the setter raises, but the previous file handler is gone while
    the option still says true. *)
Theorem c19_failed_open_refuted : forall ops i s, nth_error (w_streams (log_run ops log_start)) i = Some (Some s) ->
  let w := log_run ops log_start in
  let '(w', e) := log_step w (SetFile i true false) in
  e = Some FileNotFoundError /\ registered (Some i) File (w_handlers w') = 0 /\ w_streams w' = w_streams w.
Proof.
  intros ops i s E. cbn [log_step]. unfold on_stream. rewrite E. cbn [set_file w_handlers w_streams]. split; [reflexivity|]. split; [|reflexivity].
  pose proof (li_live _ _ (log_invariant ops) i s E) as SI. rewrite registered_fl.
  rewrite (fl_remove_self (log_run ops log_start) i File (l_file s)); [reflexivity | apply SI | apply SI].
Qed.
Print Assumptions c19_failed_open_refuted.

Example c19_example :
  map (fun k => registered (Some 1) k (w_handlers (log_run
    [New; Foreign File true; SetFile 0 true true; New; SetTerminal 1 true; SetFile 1 true true; SetFile 1 true true; SetTerminal 1 false; Delete 0] log_start)))
    [Terminal; File] = [0; 1].
Proof. reflexivity. Qed.

Example c19_failed_open_example : exists s,
  nth_error (w_streams (log_run [New; SetFile 0 true true] log_start)) 0 = Some (Some s) /\ l_to_file s = true /\
  registered (Some 0) File (w_handlers (log_run [New; SetFile 0 true true] log_start)) = 1.
Proof. eexists. repeat split; reflexivity. Qed.

(** Changing the level does not change the format of the handler already registered. *)
Example c19_format_example :
  map h_debug (w_handlers (log_run [New; SetLevel 0 (LInt 10)] log_start)) = [false] /\
  map h_debug (w_handlers (log_run [New; SetLevel 0 (LInt 10); SetTerminal 0 true] log_start)) = [true].
Proof. split; reflexivity. Qed.

Example c19_level_example :
  w_level (log_run [New; SetLevel 0 (LInt 15); SetLevel 0 (LName "WARN"); SetLevel 0 (LName "bogus")] log_start) = "WARN".
Proof. reflexivity. Qed.
