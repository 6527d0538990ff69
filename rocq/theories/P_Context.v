(** Output context and sensor tables: C14-C16. *)
From Coq Require Import String List Bool Arith QArith Lia.
From Verif Require Import Base Dict M_Context S_Context L_Context M_Header S_Header L_Header.
Import ListNotations.
Local Open Scope nat_scope.
Local Open Scope list_scope.

(** * C14: entering a solve *)

(** With all streams set up and neither mesh nor settings stream active, the
    pre routine of every active file stream runs, in the order of activation. *)
Theorem c14_pre_routines_run : forall l, forallb can_open l = true -> existsb is_single l = false ->
  enter_solve l = (filter is_file l, None).
Proof. exact enter_ok. Qed.
Print Assumptions c14_pre_routines_run.

Example c14_example :
  enter_solve [ALog; AGfu; AVtk true; ASensor true] = ([AGfu; AVtk true; ASensor true], None).
Proof. apply c14_pre_routines_run; reflexivity. Qed.

(** Activating the mesh or the settings stream makes every solve fail before
    anything is saved. *)
Theorem c14_single_streams_refuted : forall l, forallb can_open l = true -> existsb is_single l = true ->
  enter_solve l = ([], Some TypeError).
Proof. exact enter_single. Qed.
Print Assumptions c14_single_streams_refuted.

Example c14_refuted_example : enter_solve [ALog; AGfu; ASettings] = ([], Some TypeError).
Proof. apply c14_single_streams_refuted; reflexivity. Qed.

(** A VTK stream or sensor without fields is rejected on entering. *)
Theorem c14_incomplete_setup_rejected : forall l, forallb can_open l = false ->
  enter_solve l = ([], Some ValueError).
Proof. exact enter_unopened. Qed.
Print Assumptions c14_incomplete_setup_rejected.

(** * C15: sensor files *)

(** [rows] are the row writes up to the point where the body of the context
    ended, normally or by an exception. *)
Theorem c15_files_closed_and_rows_routed : forall append sensors rows w w' e,
  csv_context append sensors rows w = (w', e) ->
  (append = true \/ Forall (fun s => is_ok (cs_header s) = true) sensors) ->
  NoDup (map cs_name sensors) ->
  e = None /\ length w' = length w + length sensors /\
  (forall i h, nth_error w i = Some h -> nth_error w' i = Some h) /\
  (forall j s, nth_error sensors j = Some s ->
     exists h, nth_error w' (length w + j) = Some h /\ hd_path h = cs_name s /\ hd_open h = false /\
       hd_rows h = header_rows append s ++ map snd (filter (fun nr => String.eqb (fst nr) (cs_name s)) rows)).
Proof.
  intros append sensors rows w w' e H O N. destruct (context_spec _ _ _ _ _ _ H O) as (A & B & C & D).
  repeat split; try assumption. intros j s X. destruct (D j s X) as (h & D1 & D2 & D3 & _).
  exists h. destruct D3 as [D3 D4]; [|repeat split; assumption].
  intros j' s' L X' E. assert (j = j'); [|lia].
  apply (proj1 (NoDup_nth_error (map cs_name sensors)) N).
  - rewrite map_length. apply nth_error_Some. congruence.
  - rewrite !nth_error_map, X, X'. cbn. congruence.
Qed.
Print Assumptions c15_files_closed_and_rows_routed.

Example c15_example : exists w',
  csv_context false [mk_csv_sensor "a" (Ok [["field"]]); mk_csv_sensor "b" (Ok [])]%string
     [("b", ["1"]); ("a", ["2"]); ("b", ["3"])]%string [mk_handle "old" true []] = (w', None) /\
  w' = [mk_handle "old" true []; mk_handle "a" false [["field"]; ["2"]]; mk_handle "b" false [["1"]; ["3"]]]%string.
Proof. eexists. split; vm_compute; reflexivity. Qed.

(** Two sensors of the same name (possible across kinds): the file of the
    earlier one is never closed and gets none of its rows. *)
Theorem c15_same_name_refuted : forall append sensors rows w w' e j j' s s',
  csv_context append sensors rows w = (w', e) ->
  (append = true \/ Forall (fun s => is_ok (cs_header s) = true) sensors) ->
  j < j' -> nth_error sensors j = Some s -> nth_error sensors j' = Some s' -> cs_name s' = cs_name s ->
  exists h, nth_error w' (length w + j) = Some h /\ hd_open h = true /\ hd_rows h = header_rows append s.
Proof.
  intros append sensors rows w w' e j j' s s' H O L X X' E. destruct (context_spec _ _ _ _ _ _ H O) as (_ & _ & _ & D).
  destruct (D j s X) as (h & D1 & _ & _ & D4). exists h. split; [exact D1|]. apply D4. exists j', s'. repeat split; assumption.
Qed.
Print Assumptions c15_same_name_refuted.

Example c15_refuted_example :
  csv_context false [mk_csv_sensor "a" (Ok []); mk_csv_sensor "a" (Ok [])]%string [("a", ["1"]); ("a", ["2"])]%string [] =
  ([mk_handle "a" true []; mk_handle "a" false [["1"]; ["2"]]], None)%string.
Proof. vm_compute. reflexivity. Qed.

(** A header found inconsistent while opening: all files opened so far leak. *)
Theorem c15_failed_open_refuted : forall before s after rows w e,
  Forall (fun s => is_ok (cs_header s) = true) before -> cs_header s = Err e ->
  exists w', csv_context false (before ++ s :: after) rows w = (w', Some e) /\
    length w' = length w + S (length before) /\
    forall i h, length w <= i -> nth_error w' i = Some h -> hd_open h = true.
Proof. exact context_failing_header. Qed.
Print Assumptions c15_failed_open_refuted.

Example c15_failed_example : fst (csv_context false [mk_csv_sensor "a" (Ok []); mk_csv_sensor "b" (Err ValueError)] [] []) =
  [mk_handle "a" true []; mk_handle "b" true []].
Proof. vm_compute. reflexivity. Qed.

(** * C16: header and rows *)

(** Cell by cell: locations, fields, component names and data list the same
    columns, for all locations and fields with nameable shapes. *)
Theorem c16_header_aligned : forall {Loc Val} (value : Loc -> string -> nat -> Val) stationary (locs : list Loc) fs,
  Forall (fun f => nameable (snd f)) fs ->
  stream_header get_components_name stationary locs fs =
    Ok (map col_loc (columns locs fs), map col_field (columns locs fs),
        map (fun c => component_label (col_dims c) (col_index c)) (columns locs fs),
        if stationary then None else Some (length (columns locs fs))) /\
  measure value fs locs = map (fun c => value (col_loc c) (col_field c) (col_index c)) (columns locs fs).
Proof.
  intros Loc Val value stationary locs fs H. split; [|apply measure_columns].
  apply stream_header_aligned. eapply Forall_impl; [|exact H]. intros f. apply names_nameable.
Qed.
Print Assumptions c16_header_aligned.

(** L2 sensors, for fields of any shape: one column "L2" per location and field. *)
Theorem c16_L2_header_aligned : forall {Loc Val} (value : Loc -> string -> nat -> Val) stationary (locs : list Loc) fs,
  let cols := columns locs (map (fun f => (fst f, [])) fs) in
  stream_header get_components_name_L2 stationary locs (L2_fields fs) =
    Ok (map col_loc cols, map col_field cols, map (fun _ => CName "L2") cols,
        if stationary then None else Some (length cols)) /\
  measure value (L2_fields fs) locs = map (fun c => value (col_loc c) (col_field c) 0) cols /\
  map (fun c => (col_loc c, col_field c)) cols = flat_map (fun l => map (fun f => (l, fst f)) fs) locs.
Proof.
  intros Loc Val value stationary locs fs cols. split; [|split].
  - apply (stream_header_aligned _ (fun _ _ => CName "L2")). apply L2_aligned.
  - rewrite measure_columns. unfold cols, columns, L2_fields. rewrite !map_flat_map. apply flat_map_ext. intros l.
    induction fs as [|f fs IH]; [reflexivity|]. cbn in *. rewrite IH. reflexivity.
  - unfold cols, columns. rewrite map_flat_map. apply flat_map_ext. intros l.
    induction fs as [|f fs IH]; [reflexivity|]. cbn in *. rewrite IH. reflexivity.
Qed.
Print Assumptions c16_L2_header_aligned.

(** With a time cell (transient runs) header and data rows have equally many cells. *)
Theorem c16_transient_rows_fit : forall {Loc Val} (value : Loc -> string -> nat -> Val) (locs : list Loc) fs l f c n t,
  stream_header get_components_name false locs fs = Ok (l, f, c, n) ->
  Forall (fun f => nameable (snd f)) fs ->
  data_cells (data_row (Some t) (measure value fs locs)) = header_cells (length f) /\
  n = Some (length f) /\ length l = length f /\ length c = length f.
Proof.
  intros Loc Val value locs fs l f c n t H N.
  destruct (c16_header_aligned value false locs fs N) as [E M]. rewrite E in H. injection H as <- <- <- <-.
  rewrite M. unfold data_cells, header_cells. cbn. rewrite !map_length. repeat split.
Qed.
Print Assumptions c16_transient_rows_fit.

(** Rows of a stationary run have no time cell: every value stands one column
    to the left of its header cell. *)
Theorem c16_stationary_rows_refuted : forall {Loc Val} (value : Loc -> string -> nat -> Val) (locs : list Loc) fs l f c n,
  stream_header get_components_name true locs fs = Ok (l, f, c, n) ->
  Forall (fun f => nameable (snd f)) fs ->
  S (data_cells (data_row None (measure value fs locs))) = header_cells (length f).
Proof.
  intros Loc Val value locs fs l f c n H N.
  destruct (c16_header_aligned value true locs fs N) as [E M]. rewrite E in H. injection H as <- <- <- <-.
  rewrite M. unfold data_cells, header_cells. cbn. rewrite !map_length. reflexivity.
Qed.
Print Assumptions c16_stationary_rows_refuted.

(** A matrix field with fewer than nine entries other than 2x2 is rejected. *)
Theorem c16_small_matrices_refuted : forall {Loc} stationary (locs : list Loc) fs f m n,
  locs <> [] -> In (f, [m; n]) fs -> m * n < 9 -> ~ (m = 2 /\ n = 2) ->
  stream_header get_components_name stationary locs fs = Err ValueError.
Proof. intros Loc. exact header_rejected. Qed.
Print Assumptions c16_small_matrices_refuted.

Example c16_example :
  stream_header get_components_name false ["inner"; "outer"]%string [("p", []); ("u", [2])]%string =
  Ok (["inner"; "inner"; "inner"; "outer"; "outer"; "outer"]%string, ["p"; "u"; "u"; "p"; "u"; "u"]%string,
      [CName " "; CName "x"; CName "y"; CName " "; CName "x"; CName "y"]%string, Some 6) /\
  Forall (fun f => nameable (snd f)) [("p", []); ("u", [2]); ("tau", [2; 2]); ("H", [4; 4])]%string /\
  stream_header get_components_name true ["inner"]%string [("grad", [2; 3])]%string = Err ValueError.
Proof.
  repeat split; try reflexivity. repeat constructor; cbn; lia.
Qed.
