(** Theorems about VTK snapshots, scenes and documentation (C90, C91, C92). *)
From Coq Require Import QArith String Ascii List Bool Arith Lia Sorted.
From Verif Require Import Base Dict M_Conditions M_Run S_Run L_Run P_Solve S_Conditions M_Show S_Show.
Import ListNotations.
Local Open Scope string_scope.
Local Open Scope list_scope.
Local Open Scope nat_scope.

(** ** Bits *)

Lemma set_bit_length nr b : length (set_bit nr b) = length b.
Proof. revert nr. induction b as [|x b IH]; intros [|nr]; cbn; try reflexivity. rewrite IH. reflexivity. Qed.

Lemma set_bit_nth nr k b : nr < length b -> nth k (set_bit nr b) false = (k =? nr) || nth k b false.
Proof.
  revert nr k. induction b as [|x b IH]; intros nr k L; cbn in L; [lia|]. destruct nr as [|nr], k as [|k]; cbn; try reflexivity. apply IH. lia.
Qed.

Lemma set_bits l : forall b k, (forall nr, In nr l -> nr < length b) ->
  nth k (fold_left (fun b nr => set_bit nr b) l b) false = true <-> In k l \/ nth k b false = true.
Proof.
  induction l as [|nr l IH]; intros b k H; cbn [fold_left]; [cbn; tauto|].
  rewrite IH by (intros n I; rewrite set_bit_length; apply H; right; exact I).
  rewrite set_bit_nth by (apply H; left; reflexivity). rewrite orb_true_iff, Nat.eqb_eq. cbn [In]. intuition.
Qed.

Lemma drawn_elements mats r k : nth k (draw_elements mats r) false = true <-> k < length mats /\ In (nth k mats "") (split_bar r).
Proof.
  unfold draw_elements. rewrite set_bits.
  2:{ intros nr I. unfold elements_of in I. apply filter_In in I. destruct I as [I _]. apply in_seq in I. rewrite repeat_length. lia. }
  rewrite nth_repeat. unfold elements_of. rewrite filter_In, in_seq, existsb_exists. split.
  - intros [[I (x & J & E)]|E]; [|discriminate]. apply String.eqb_eq in E. rewrite E. split; [lia | exact J].
  - intros [L I]. left. split; [lia|]. eexists. split; [exact I | apply String.eqb_refl].
Qed.

(** ** Histories *)

Lemma options_run mats l : v_options (vtk_run mats l vtk_new) = mk_vtk_options (region_set l) (fields_set l).
Proof.
  unfold vtk_run, region_set, fields_set. change (v_options (fold_left (vtk_step mats) l vtk_new) = mk_vtk_options
    (fold_left (fun r o => match o with VRegion r' => r' | _ => r end) l (v_region (v_options vtk_new)))
    (fold_left (fun f o => match o with VFields f' => f' | _ => f end) l (v_fields (v_options vtk_new)))).
  generalize vtk_new as s. induction l as [|o l IH]; intros s; cbn [fold_left]; [destruct (v_options s); reflexivity|]. rewrite IH.
  destruct o; cbn [vtk_step v_options v_region v_fields]; try reflexivity.
  - unfold vtk_open. destruct (v_fields (v_options s)) as [|f fs] eqn:E; cbn [fst v_options]; rewrite ?E; reflexivity.
  - unfold vtk_close. destruct (v_writer s); reflexivity.
Qed.

Lemma run_app mats l1 l2 s : vtk_run mats (l1 ++ l2) s = vtk_run mats l2 (vtk_run mats l1 s).
Proof. apply fold_left_app. Qed.

Lemma kept mats before : forall after, ~ In VClose after -> (forall l1 l2, after = l1 ++ VOpen :: l2 -> fields_set (before ++ l1) = []) ->
  let s := vtk_run mats before vtk_new in let s' := vtk_run mats (before ++ after) vtk_new in v_drawelems s' = v_drawelems s /\ v_writer s' = v_writer s.
Proof.
  intros after. induction after as [|o after IH] using rev_ind; intros C O; cbv zeta; [rewrite app_nil_r; split; reflexivity|].
  assert (H : ~ In VClose after /\ forall l1 l2, after = l1 ++ VOpen :: l2 -> fields_set (before ++ l1) = []).
  { split; [intros I; apply C, in_or_app; left; exact I|]. intros l1 l2 ->. apply (O l1 (l2 ++ [o])). rewrite <- app_assoc. reflexivity. }
  specialize (IH (proj1 H) (proj2 H)). cbv zeta in IH. rewrite app_assoc, run_app. cbn [vtk_run fold_left]. rewrite <- (proj1 IH), <- (proj2 IH).
  destruct o; cbn [vtk_step v_drawelems v_writer]; try (split; reflexivity).
  - unfold vtk_open. rewrite options_run. cbn [v_fields]. rewrite (O after [] eq_refl). split; reflexivity.
  - exfalso. apply C, in_or_app. right. left. reflexivity.
Qed.

(** ** C90 *)

(** Every snapshot of an opened stream has exactly the elements of the materials named by the region that was set when it was
    opened, all if none was set, each once and in order, and exactly the fields set then. *)
Theorem c90_snapshot : forall mats before after, opened_at before after ->
  exists sn, vtk_do mats (vtk_run mats (before ++ VOpen :: after) vtk_new) = Ok sn /\
    (forall nr, In nr (sn_elements sn) <-> nr < length mats /\ named (region_set before) (nth nr mats "")) /\
    StronglySorted lt (sn_elements sn) /\ combine (sn_names sn) (sn_values sn) = fields_set before /\ length (sn_names sn) = length (sn_values sn).
Proof.
  intros mats before after (F & C & O).
  assert (K := kept mats (before ++ [VOpen]) after C). rewrite <- app_assoc in K. cbn [app] in K.
  assert (O' : forall l1 l2, after = l1 ++ VOpen :: l2 -> fields_set ((before ++ [VOpen]) ++ l1) = []).
  { intros l1 l2 E. rewrite <- app_assoc. apply (O l1 l2 E). }
  specialize (K O'). cbv zeta in K. destruct K as [K1 K2]. unfold vtk_do. rewrite K1, K2. rewrite run_app. cbn [vtk_run fold_left vtk_step].
  change (fold_left (vtk_step mats) before vtk_new) with (vtk_run mats before vtk_new).
  unfold vtk_open. rewrite options_run. cbn [v_fields v_region]. destruct (fields_set before) as [|f fs] eqn:E; [contradiction|].
  cbn [fst v_writer v_drawelems]. eexists. split; [reflexivity|]. cbn [sn_elements sn_names sn_values]. split; [|split; [|split]].
  - intros nr. rewrite filter_In, in_seq. unfold named. destruct (region_set before) as [r|]; [rewrite drawn_elements|]; intuition lia.
  - generalize (fun nr : nat => match match region_set before with Some r => Some (draw_elements mats r) | None => None end with Some b => nth nr b false | None => true end).
    intros p. generalize 0. induction (length mats) as [|n IH]; intros i; cbn [seq filter]; [constructor|].
    assert (S := IH (S i)). destruct (p i); [|exact S]. constructor; [exact S|]. apply List.Forall_forall. intros x I. apply filter_In in I. destruct I as [I _]. apply in_seq in I. lia.
  - generalize (f :: fs). intros l. induction l as [|[a b] l IH]; [reflexivity|]. cbn. rewrite IH. reflexivity.
  - rewrite !map_length. reflexivity.
Qed.
Print Assumptions c90_snapshot.

(** A closed stream writes nothing until it is opened with fields again; nor does one that never was. *)
Theorem c90_closed : forall mats before after,
  (before = [] \/ exists l, before = l ++ [VClose]) -> (forall l1 l2, after = l1 ++ VOpen :: l2 -> fields_set (before ++ l1) = []) ->
  vtk_do mats (vtk_run mats (before ++ after) vtk_new) = Err AttributeError.
Proof.
  intros mats before after B O. assert (W : v_writer (vtk_run mats before vtk_new) = None).
  { destruct B as [->|(l & ->)]; [reflexivity|]. rewrite run_app. cbn [vtk_run fold_left vtk_step]. unfold vtk_close. destruct (v_writer (vtk_run mats l vtk_new)) eqn:E; [reflexivity | exact E]. }
  assert (A : v_writer (vtk_run mats (before ++ after) vtk_new) = None); [|unfold vtk_do; rewrite A; reflexivity].
  induction after as [|o after IH] using rev_ind; [rewrite app_nil_r; exact W|].
  assert (X : forall l1 l2, after = l1 ++ VOpen :: l2 -> fields_set (before ++ l1) = []).
  { intros l1 l2 ->. apply (O l1 (l2 ++ [o])). rewrite <- app_assoc. reflexivity. }
  specialize (IH X). rewrite app_assoc, run_app. cbn [vtk_run fold_left]. destruct o; cbn [vtk_step v_writer]; try exact IH.
  - unfold vtk_open. rewrite options_run. cbn [v_fields]. rewrite (O after [] eq_refl). exact IH.
  - unfold vtk_close. destruct (v_writer (vtk_run mats (before ++ after) vtk_new)) eqn:E; [reflexivity | exact E].
Qed.
Print Assumptions c90_closed.

Example c90_example :
  let mats := ["air"; "sponge"; "air"; "wake"] in
  let before := [VFields [("density", 7); ("speed", 8)]; VRegion (Some "wake|air")] in let after := [VRegion None; VFields []; VOpen; VWrite] in
  opened_at before after /\
  vtk_do mats (vtk_run mats (before ++ VOpen :: after) vtk_new) = Ok (mk_snapshot [0; 2; 3] ["density"; "speed"] [7; 8]) /\
  vtk_do mats (vtk_run mats (before ++ [VOpen; VClose]) vtk_new) = Err AttributeError.
Proof.
  cbv zeta. split; [|split; reflexivity]. split; [discriminate|]. split; [cbn; intuition discriminate|]. intros l1 l2 E.
  destruct l1 as [|a [|b [|c [|d l1]]]]; cbn in E; injection E; try discriminate; intros; subst; try reflexivity; try discriminate. all: destruct l1; discriminate.
Qed.

(** ** C91 *)

Lemma draw_all_ok l : drawn l -> exists new, draw_all l = Ok new /\ flat_map (fun x => match x with Some i => [ERefresh i] | None => [] end) new = map ERefresh (scenes_of l).
Proof.
  induction l as [|r l IH]; intros D; [exists []; split; reflexivity|].
  destruct IH as (new & E & S); [intros e I; apply (D e); right; exact I|]. destruct r as [s|e]; [|exfalso; apply (D e); left; reflexivity].
  exists (s :: new). cbn [draw_all bind]. rewrite E. split; [reflexivity|]. cbn [flat_map scenes_of]. fold (scenes_of l). rewrite S. destruct s; reflexivity.
Qed.

Lemma draw_all_fails l e : In (Err e) l -> exists e', draw_all l = Err e'.
Proof.
  induction l as [|r l IH]; intros I; [destruct I|]. destruct r as [s|x]; [|exists x; reflexivity]. destruct I as [I|I]; [discriminate|].
  destruct (IH I) as (e' & E). exists e'. cbn [draw_all bind]. rewrite E. reflexivity.
Qed.

Lemma draws_fail calls s : (forall l, In l calls -> exists e, In (Err e) l) -> draws calls s = s.
Proof.
  revert s. induction calls as [|l calls IH]; intros s H; [reflexivity|]. unfold draws in *. cbn [fold_left].
  destruct (H l (or_introl eq_refl)) as (e & I). destruct (draw_all_fails l e I) as (e' & E). unfold draw at 2. rewrite E. cbn [fst]. apply IH. intros l' I'. apply H. right. exact I'.
Qed.

(** Redrawing refreshes exactly the scenes of the last drawing that succeeded, in order, and the window once; before any
    drawing nothing happens. *)
Theorem c91_redraw : forall pre l post blocking, (forall k, In k post -> exists e, In (Err e) k) ->
  (drawn l -> redraw (draws (pre ++ l :: post) None) blocking = map ERefresh (scenes_of l) ++ [EGlobal blocking]) /\
  redraw (draws post None) blocking = [].
Proof.
  intros pre l post blocking P. split; [|rewrite (draws_fail post None P); reflexivity].
  intros D. assert (A : draws (pre ++ l :: post) None = fst (draw l (draws pre None))).
  { unfold draws. rewrite fold_left_app. cbn [fold_left]. apply (draws_fail post _ P). }
  rewrite A. destruct (draw_all_ok l D) as (new & E & S). unfold draw. rewrite E. cbn [fst redraw]. rewrite S. reflexivity.
Qed.
Print Assumptions c91_redraw.

(** The full claim is false: scenes of an earlier drawing are shown further, but never refreshed again. *)
Theorem c91_earlier_refuted : forall pre l l' i blocking, drawn l -> drawn l' -> In i (scenes_of l) -> ~ In i (scenes_of l') ->
  ~ In (ERefresh i) (redraw (draws (pre ++ [l; l']) None) blocking).
Proof.
  intros pre l l' i blocking D D' I N J. destruct (c91_redraw (pre ++ [l]) l' [] blocking) as [R _]; [intros k []|]. rewrite <- app_assoc in R. cbn [app] in R.
  rewrite (R D') in J. apply in_app_or in J. destruct J as [J|[J|[]]]; [|discriminate]. apply in_map_iff in J. destruct J as (x & E & X). injection E as ->. exact (N X).
Qed.
Print Assumptions c91_earlier_refuted.

(** A complete transient run refreshes the scenes once per time point, one in pseudo time once per iteration and once at the
    end. *)
Theorem c91_run : forall s reassemble t0 ls, ls <> [] ->
  flat_map (show_handler s) (run_trace (transient_run no_faults reassemble t0 (Ok ls))) = concat (repeat (redraw s false) (length ls)).
Proof.
  intros s reassemble t0 ls N. rewrite (proj1 (c08_complete_run reassemble t0 ls N)). unfold transient_expected.
  rewrite !flat_map_app. replace (flat_map (show_handler s) (if reassemble then [RAssemble] else [])) with (@nil show_event) by (destruct reassemble; reflexivity).
  cbn [flat_map show_handler app]. rewrite app_nil_r. generalize 0 as it. clear N. induction ls as [|t ls IH]; intros it; [reflexivity|].
  cbn [length seq combine map concat repeat fst snd]. rewrite flat_map_app, IH. cbn [time_point_events flat_map show_handler app]. rewrite app_nil_r. reflexivity.
Qed.
Print Assumptions c91_run.

Theorem c91_pseudo_run : forall s reassemble t k,
  flat_map (show_handler s) (run_trace (pseudo_run no_faults reassemble t k)) = concat (repeat (redraw s false) (S k)).
Proof.
  intros s reassemble t k. rewrite (proj1 (c08_pseudo_complete_run reassemble t k)). unfold pseudo_expected.
  rewrite !flat_map_app. replace (flat_map (show_handler s) (if reassemble then [RAssemble] else [])) with (@nil show_event) by (destruct reassemble; reflexivity).
  cbn [flat_map show_handler app]. rewrite app_nil_r. generalize 0 as it. induction k as [|k IH]; intros it; [cbn; rewrite app_nil_r; reflexivity|].
  cbn [seq map concat repeat]. rewrite flat_map_app. cbn [flat_map show_handler app]. rewrite app_nil_r, <- app_assoc, IH. reflexivity.
Qed.
Print Assumptions c91_pseudo_run.

Example c91_example :
  let l := [Ok (Some 3); Ok None; Ok (Some 4)] in let broken := [Ok (Some 5); Err TypeError] in
  drawn l /\ redraw (draws [[Ok (Some 1)]; l; broken] None) true = [ERefresh 3; ERefresh 4; EGlobal true] /\ redraw (draws [broken] None) true = [].
Proof. cbv zeta. split; [|split; reflexivity]. intros e I. cbn in I. intuition discriminate. Qed.

(** ** C92 *)

Lemma text_lines_some s : text_lines s <> [].
Proof. destruct s as [|c s]; cbn [text_lines]; [discriminate|]. destruct (Ascii.eqb c newline); [discriminate|]. destruct (text_lines s); discriminate. Qed.

Lemma text_lines_app a b : text_lines (a ++ String newline b)%string = text_lines a ++ text_lines b.
Proof.
  induction a as [|c a IH]; cbn [String.append text_lines]; [rewrite Ascii.eqb_refl; reflexivity|]. rewrite IH.
  destruct (Ascii.eqb c newline); [reflexivity|]. pose proof (text_lines_some a) as N. destruct (text_lines a); [contradiction | reflexivity].
Qed.

Lemma text_lines_join l : l <> [] -> text_lines (join_lines l) = flat_map text_lines l.
Proof.
  unfold join_lines. induction l as [|a l IH]; intros N; [contradiction|]. destruct l as [|b l]; [cbn; rewrite app_nil_r; reflexivity|].
  cbn [String.concat String.append flat_map]. cbn [String.concat flat_map] in IH. rewrite <- IH by discriminate. apply text_lines_app.
Qed.

Lemma text_lines_one s : one_line s -> text_lines s = [s].
Proof.
  induction s as [|c s IH]; intros H; [reflexivity|]. destruct H as [H1 H2]. cbn [text_lines]. rewrite (IH H2). destruct (Ascii.eqb c newline) eqn:E; [apply Ascii.eqb_eq in E; contradiction | reflexivity].
Qed.

Lemma doc_lines_strings l : doc_lines (map Line l) = Ok l.
Proof. induction l as [|a l IH]; [reflexivity|]. cbn. rewrite IH. reflexivity. Qed.

(** The settings file has the lines of the documentation between its other parts, and these parts alone without one. *)
Theorem c92_file : forall ack dhead chead conf doc,
  text_lines (settings_text ack dhead chead conf doc) =
  text_lines ack ++ [""] ++ match doc with Some d => text_lines dhead ++ text_lines d ++ [""] | None => [] end ++ text_lines chead ++ text_lines conf ++ [""].
Proof.
  intros ack dhead chead conf doc. unfold settings_text. rewrite text_lines_join by discriminate. destruct doc as [d|]; cbn [app flat_map]; cbn [text_lines]; rewrite <- ?app_assoc, ?app_nil_r; cbn [app]; repeat rewrite <- app_assoc; reflexivity.
Qed.
Print Assumptions c92_file.

(** A documentation given line by line is stored and occurs in the file line by line; one given as text keeps its lines. *)
Theorem c92_lines : forall ack dhead chead conf ls old, ls <> [] -> (forall l, In l ls -> one_line l) ->
  exists d, set_documentation (DSequence (map Line ls)) old = (Some d, None) /\ text_lines d = ls /\ occurs ls (settings_text ack dhead chead conf (Some d)) /\
            set_documentation (DString d) old = (Some d, None).
Proof.
  intros ack dhead chead conf ls old N H. exists (join_lines ls). cbn [set_documentation]. rewrite doc_lines_strings. split; [reflexivity|].
  assert (T : text_lines (join_lines ls) = ls).
  { rewrite (text_lines_join ls N). clear N. induction ls as [|a ls IH]; [reflexivity|]. cbn [flat_map]. rewrite (text_lines_one a) by (apply H; left; reflexivity). cbn [app]. rewrite IH by (intros l I; apply H; right; exact I). reflexivity. }
  split; [exact T|]. split; [|reflexivity]. unfold occurs. rewrite c92_file, T.
  exists (text_lines ack ++ [""] ++ text_lines dhead), ([""] ++ text_lines chead ++ text_lines conf ++ [""]). rewrite <- !app_assoc. reflexivity.
Qed.
Print Assumptions c92_lines.

(** What is stored after assignments is the last one that was accepted; values that are neither strings nor sequences of
    strings are rejected and change nothing. *)
Theorem c92_rejected : forall v old, (v = DOther \/ exists l, v = DSequence l /\ In NoLine l) ->
  exists e, set_documentation v old = (old, Some e).
Proof.
  intros v old [->|(l & -> & I)]; [exists ValueError; reflexivity|]. exists TypeError. cbn [set_documentation].
  assert (E : doc_lines l = Err TypeError); [|rewrite E; reflexivity].
  induction l as [|[s|] l IH]; [destruct I| |reflexivity]. destruct I as [I|I]; [discriminate|]. cbn. rewrite (IH I). reflexivity.
Qed.
Print Assumptions c92_rejected.

Example c92_example :
  set_documentation (DSequence [Line "a"; Line "b c"]) None = (Some ("a" ++ String newline "b c")%string, None) /\
  text_lines (settings_text "ack" "doc" "conf" "cfg" (Some ("a" ++ String newline "b c")%string)) = ["ack"; ""; "doc"; "a"; "b c"; ""; "conf"; "cfg"; ""] /\
  set_documentation (DSequence [Line "a"; NoLine]) (Some "old") = (Some "old", Some TypeError).
Proof. repeat split. Qed.
