(** C78: the text of the sensor files. *)
From Coq Require Import String Ascii List Bool Arith Lia QArith.
From Verif Require Import Base Dict M_Timer M_Run M_IO M_Header M_Csv.
From Verif Require Import S_Csv S_IO S_Header L_Header L_IO P_Context P_IO L_Csv.
Import ListNotations.
Local Open Scope string_scope.
Local Open Scope nat_scope.
Local Open Scope list_scope.

Definition proper (rows : list (list string)) : Prop := Forall (fun r => r <> []) rows.

(** On a platform that writes line feeds differently the cells must be without. *)
Definition portable (windows : bool) (rows : list (list string)) : Prop :=
  windows = true -> Forall (Forall (fun c => one_line c = true)) rows.

Lemma portable_same : forall w rows, portable w rows -> map (map (newlines w)) rows = rows.
Proof.
  intros [|] rows P.
  - specialize (P eq_refl). induction P as [|r rows F P IH]; [reflexivity|]. cbn. rewrite IH. f_equal.
    induction F as [|c r O F IHF]; [reflexivity|]. cbn. rewrite newlines_one_line by exact O. rewrite IHF. reflexivity.
  - rewrite <- (map_id rows) at 2. apply map_ext. intros r. rewrite <- (map_id r) at 2. apply map_ext. intros c. apply newlines_false.
Qed.

Lemma portable_app : forall w a b, portable w a -> portable w b -> portable w (a ++ b).
Proof. intros w a b A B E. apply Forall_app. split; [exact (A E) | exact (B E)]. Qed.

Lemma written_append : forall w m c s, act m <> Read -> binary m = false -> written w m c s = Ok (c +++ newlines w s).
Proof.
  intros w m c [|x s] A B; [cbn; rewrite sapp_nil; reflexivity|]. unfold written. rewrite B. destruct (act m); try reflexivity. contradiction.
Qed.

Lemma after_w : forall w old h rows, csv_after w old (mk_csv_run "w" h rows) = Ok (newlines w (rows_text (h ++ rows))).
Proof. intros w old h rows. unfold csv_after. cbn -[written]. rewrite written_append by (cbn; congruence). reflexivity. Qed.

Definition content (old : option string) : string := match old with None => "" | Some c => c end.

Lemma after_a : forall w old h rows, csv_after w old (mk_csv_run "a" h rows) = Ok (content old +++ newlines w (rows_text rows)).
Proof.
  intros w old h rows. unfold csv_after. destruct old as [c|]; cbn -[written]; rewrite written_append by (cbn; congruence); reflexivity.
Qed.

(** A run in mode "w", the default: whatever the file held before, a reader finds
    the header and the rows, cell by cell, for all texts of the cells. *)
Theorem c78_round_trip : forall w old h rows, proper (h ++ rows) -> portable w (h ++ rows) ->
  exists text, csv_after w old (mk_csv_run "w" h rows) = Ok text /\ read_rows text = h ++ rows.
Proof.
  intros w old h rows N P. eexists. split; [apply after_w|]. rewrite <- (sapp_nil (newlines _ _)), read_rows_text by exact N.
  rewrite portable_same by exact P. apply app_nil_r.
Qed.
Print Assumptions c78_round_trip.

(** Different rows never give the same text. *)
Theorem c78_distinct : forall w old h rows old' h' rows' text, proper (h ++ rows) -> proper (h' ++ rows') ->
  portable w (h ++ rows) -> portable w (h' ++ rows') ->
  csv_after w old (mk_csv_run "w" h rows) = Ok text -> csv_after w old' (mk_csv_run "w" h' rows') = Ok text ->
  h ++ rows = h' ++ rows'.
Proof.
  intros w old h rows old' h' rows' text N N' P P' E E'.
  destruct (c78_round_trip w old h rows N P) as (x & X & R). destruct (c78_round_trip w old' h' rows' N' P') as (y & Y & R').
  rewrite E in X. injection X as <-. rewrite E' in Y. injection Y as <-. rewrite <- R. exact R'.
Qed.
Print Assumptions c78_distinct.

(** On Windows a line feed inside a cell does not come back: the file is opened
    without [newline='']. *)
Theorem c78_windows_refuted : forall old h rows, proper (h ++ rows) ->
  (exists text, csv_after true old (mk_csv_run "w" h rows) = Ok text /\ read_rows text = map (map crlf) (h ++ rows)) /\
  (forall c, one_line c = false -> crlf c <> c).
Proof.
  intros old h rows N.
  assert (C : forall s, newlines true s = crlf s).
  { induction s as [|x s IH]; [reflexivity|]. cbn [newlines crlf andb]. rewrite IH. reflexivity. }
  split.
  - eexists. split; [apply after_w|]. rewrite <- (sapp_nil (newlines _ _)), read_rows_text by exact N.
    cbn [read_rows read]. unfold read_rows. cbn [read]. rewrite app_nil_r. apply map_ext. intros r. apply map_ext. exact C.
  - intros c O E.
    assert (L : forall s, one_line s = false -> String.length s < String.length (crlf s)).
    { assert (LE : forall s, String.length s <= String.length (crlf s)).
      { induction s as [|x s IH]; cbn; [lia|]. destruct (Ascii.eqb x "010"); cbn; lia. }
      induction s as [|x s IH]; cbn; intros H; [discriminate|]. destruct (Ascii.eqb x "010"); cbn in *; [specialize (LE s); lia|].
      specialize (IH H). lia. }
    specialize (L c O). rewrite E in L. lia.
Qed.
Print Assumptions c78_windows_refuted.

(** * Several runs *)

Lemma history_appends : forall w rs old, Forall (fun r => run_mode r = "a") rs -> Forall (fun r => proper (run_rows r) /\ portable w (run_rows r)) rs ->
  exists text, csv_history w (Some old) rs = Ok (Some text) /\
    (forall rows, (forall s, read_rows (old +++ s) = rows ++ read_rows s) -> forall s, read_rows (text +++ s) = (rows ++ concat (map run_rows rs)) ++ read_rows s).
Proof.
  intros w rs. induction rs as [|[m h rows] rs IH]; intros old A P.
  - exists old. split; [reflexivity|]. intros rows R s. cbn. rewrite app_nil_r. apply R.
  - inversion A as [|? ? A1 A2]; subst. inversion P as [|? ? P1 P2]; subst. cbn in A1. subst m. cbn [run_rows] in P1. destruct P1 as [P1 P3].
    cbn [csv_history]. rewrite after_a. cbn [bind content].
    destruct (IH (old +++ newlines w (rows_text rows)) A2 P2) as (text & T & R). exists text. split; [exact T|].
    intros r0 R0 s. cbn [map concat run_rows]. rewrite app_assoc. apply R. intros z.
    rewrite sapp_assoc, R0, read_rows_text by exact P1. rewrite portable_same by exact P3. apply app_assoc.
Qed.

(** Runs one after the other: everything before the last run in mode "w" is gone;
    its header and rows stay, and the rows of the later runs in mode "a" follow. *)
Theorem c78_history : forall w old before r after x, csv_history w old before = Ok x ->
  run_mode r = "w" -> Forall (fun r => run_mode r = "a") after ->
  proper (run_header r ++ run_rows r) -> portable w (run_header r ++ run_rows r) ->
  Forall (fun r => proper (run_rows r) /\ portable w (run_rows r)) after ->
  exists text, csv_history w old (before ++ r :: after) = Ok (Some text) /\
    read_rows text = run_header r ++ run_rows r ++ concat (map run_rows after).
Proof.
  intros w old before [m h rows] after x B M A N P F. cbn in M. subst m. cbn [run_header run_rows] in *.
  assert (E : csv_history w old (before ++ mk_csv_run "w" h rows :: after) = csv_history w (Some (newlines w (rows_text (h ++ rows)))) after).
  { revert old B. induction before as [|b before IH]; intros old B.
    - cbn [app csv_history]. rewrite after_w. reflexivity.
    - cbn [app csv_history] in *. destruct (csv_after w old b) as [c|e]; [|discriminate]. cbn [bind] in *. apply IH, B. }
  destruct (history_appends w after (newlines w (rows_text (h ++ rows))) A F) as (text & T & R).
  exists text. split; [rewrite E; exact T|]. specialize (R (h ++ rows)).
  rewrite <- (sapp_nil text), R.
  - unfold read_rows. cbn [read]. rewrite app_nil_r, app_assoc. reflexivity.
  - intros s. rewrite read_rows_text by exact N. rewrite portable_same by exact P. reflexivity.
Qed.
Print Assumptions c78_history.

(** The header is written in mode "w" only; spellings like "wt" or "w+", which empty
    the file as well, leave it without a header. *)
Theorem c78_header_only_w : forall w old m h h' rows, m <> "w" ->
  csv_after w old (mk_csv_run m h rows) = csv_after w old (mk_csv_run m h' rows).
Proof.
  intros w old m h h' rows N. unfold csv_after, run_text. cbn [run_mode run_header run_rows].
  apply String.eqb_neq in N. rewrite N. reflexivity.
Qed.
Print Assumptions c78_header_only_w.

Lemma mode_chars_count : forall s acts p b t acts' p' b' t', mode_chars s acts p b t = Some (acts', p', b', t') ->
  (forall c, 0 < count c s -> In c ["r"; "w"; "a"; "x"; "+"; "b"; "t"]%char) /\
  length acts' = length acts + count "r" s + count "w" s + count "a" s + count "x" s /\
  (In Read acts' <-> In Read acts \/ 0 < count "r" s) /\
  (In Exclusive acts' <-> In Exclusive acts \/ 0 < count "x" s) /\
  (p' = true <-> p = true \/ 0 < count "+" s) /\
  (b' = true <-> b = true \/ 0 < count "b" s).
Proof.
  induction s as [|x s IH]; intros acts p b t acts' p' b' t' H.
  - cbn in H. injection H as <- <- <- <-. cbn. repeat split; intros; try lia; try tauto; destruct H; auto; lia.
  - cbn [mode_chars] in H.
    destruct (Ascii.eqb x "r") eqn:E1;
    [|destruct (Ascii.eqb x "w") eqn:E2;
    [|destruct (Ascii.eqb x "a") eqn:E3;
    [|destruct (Ascii.eqb x "x") eqn:E4;
    [|destruct (Ascii.eqb x "+") eqn:E5;
    [|destruct (Ascii.eqb x "b") eqn:E6;
    [|destruct (Ascii.eqb x "t") eqn:E7; [|discriminate]]]]]]].
    all: match goal with E : Ascii.eqb ?q _ = true |- _ => apply Ascii.eqb_eq in E; subst q end.
    all: try (destruct p; [discriminate|]); try (destruct b; [discriminate|]); try (destruct t; [discriminate|]).
    all: apply IH in H; destruct H as (A & L & R & X & P & B); rewrite ?app_length in L; cbn [length] in L.
    all: split; [intros c C; cbn [count] in C; match type of C with context [Ascii.eqb ?y c] => destruct (Ascii.eqb y c) eqn:E end;
                 [apply Ascii.eqb_eq in E; subst c; cbn; tauto | apply A, C] |].
    all: cbn [count]; repeat match goal with |- context [Ascii.eqb ?y ?z] => let v := eval vm_compute in (Ascii.eqb y z) in change (Ascii.eqb y z) with v end; cbn iota.
    all: split; [lia|].
    all: rewrite R, X, P, B, ?in_app_iff; cbn [In].
    all: repeat split; intros; repeat match goal with H : _ \/ _ |- _ => destruct H end; try discriminate; try contradiction; auto; try (right; lia); try (left; right; left; reflexivity).
Qed.

(** What a run in any mode needs to write its rows: exactly one of the letters
    r, w, a, x, no letter b, r together with +, x for a new file and r for an
    existing one. *)
Theorem c78_modes : forall w old r text, run_rows r <> [] -> csv_after w old r = Ok text ->
  (forall c, 0 < count c (run_mode r) -> In c ["r"; "w"; "a"; "x"; "+"; "t"]%char) /\
  count "r" (run_mode r) + count "w" (run_mode r) + count "a" (run_mode r) + count "x" (run_mode r) = 1 /\
  (0 < count "r" (run_mode r) -> 0 < count "+" (run_mode r) /\ old <> None) /\
  (0 < count "x" (run_mode r) -> old = None).
Proof.
  intros w old [m h rows] text N H. cbn [run_rows run_mode] in *. unfold csv_after in H. cbn [run_mode] in H.
  destruct (parse_mode m) as [om|] eqn:M; [|discriminate]. cbn [bind] in H. unfold parse_mode in M.
  destruct (mode_chars m [] false false false) as [[[[acts p] b] t]|] eqn:C; [|discriminate].
  apply mode_chars_count in C. destruct C as (A & L & R & X & P & B). cbn in L.
  destruct acts as [|a [|a' acts]]; try discriminate. destruct (b && t)%bool; [discriminate|]. injection M as <-.
  destruct (opened _ old) as [c|] eqn:O; [|discriminate]. cbn [bind] in H.
  assert (TX : run_text (mk_csv_run m h rows) <> "").
  { unfold run_text. cbn [run_mode run_header run_rows]. rewrite rows_text_app. destruct rows as [|r rows]; [contradiction|]. rewrite rows_text_cons, row_text_body.
    intros E. apply (f_equal String.length) in E. rewrite !sapp_length in E. cbn in E. lia. }
  destruct (run_text (mk_csv_run m h rows)) as [|y z] eqn:T; [contradiction|].
  assert (NB : b = false).
  { destruct b; [|reflexivity]. unfold written in H. cbn [binary] in H. discriminate. }
  subst b. unfold written in H. cbn [binary act plus] in H.
  split; [|split; [|split]].
  - intros y0 Y. specialize (A y0 Y). cbn in A. cbn. assert (y0 <> "b"%char); [|intuition congruence].
    intros ->. assert (false = true) by (apply B; right; exact Y). discriminate.
  - cbn in L. lia.
  - intros Q. assert (I : In Read [a]) by (apply R; right; exact Q). destruct I as [->|[]]. destruct p; [|discriminate]. split.
    + destruct (proj1 P eq_refl) as [W|W]; [discriminate | exact W].
    + unfold opened in O. cbn [act] in O. destruct old; discriminate.
  - intros Q. assert (I : In Exclusive [a]) by (apply X; right; exact Q). destruct I as [->|[]].
    unfold opened in O. cbn [act] in O. destruct old; [discriminate | reflexivity].
Qed.
Print Assumptions c78_modes.

(** * Killed runs *)

(** [rows'] is what remains of [rows]: the first [k], perhaps a torn one behind. *)
Definition remains (rows : list (list string)) (k : nat) (rows' : list (list string)) : Prop :=
  rows' = firstn k rows \/
  exists r r', nth_error rows k = Some r /\ torn r r' /\ rows' = firstn k rows ++ [r'].

Lemma cut_text : forall w rows n, proper rows -> portable w rows ->
  let q := String.substring 0 n (newlines w (rows_text rows)) in
  exists k, k <= length rows /\ remains rows k (read_rows q) /\
    forall j, j <= length rows -> String.length (newlines w (rows_text (firstn j rows))) <= n -> j <= k.
Proof.
  intros w rows n N P q0. set (q := String.substring 0 n (lines w rows)).
  assert (Q0 : q0 = q) by (unfold q0; rewrite newlines_rows, portable_same by exact P; reflexivity). rewrite Q0.
  destruct (substring_split n (lines w rows)) as (q' & E & L). fold q in E, L.
  destruct (cut_lines w rows q q' N E) as (k & K & A & B & C). exists k. split; [exact K|]. split; [exact C|].
  intros j J Sz. rewrite newlines_rows, portable_same in Sz.
  2:{ intros W. specialize (P W). clear -P. revert j. induction P as [|r rows F P IH]; intros [|j]; cbn; constructor; auto. }
  destruct (Nat.le_gt_cases j k) as [G|G]; [exact G|]. exfalso.
  specialize (B ltac:(lia)). pose proof (lines_firstn_le w rows (S k) j ltac:(lia)). pose proof (lines_firstn w rows j). lia.
Qed.

Lemma killed_w : forall w old h rows n, csv_killed w old (mk_csv_run "w" h rows) n =
  Ok (String.substring 0 n (newlines w (rows_text (h ++ rows)))).
Proof.
  intros w old h rows n. unfold csv_killed. cbn -[written String.substring newlines rows_text]. rewrite written_append by (cbn; congruence).
  rewrite newlines_false. reflexivity.
Qed.

Lemma killed_a : forall w old h rows n, csv_killed w old (mk_csv_run "a" h rows) n =
  Ok (content old +++ String.substring 0 n (newlines w (rows_text rows))).
Proof.
  intros w old h rows n. unfold csv_killed. destruct old as [c|]; cbn -[written String.substring newlines rows_text];
    rewrite written_append by (cbn; congruence); rewrite newlines_false; reflexivity.
Qed.

(** A run killed after any number of bytes: a reader finds the first rows complete,
    all those whose bytes have been written, and at most one row more, which is
    torn. *)
Theorem c78_killed : forall w old h rows n, proper (h ++ rows) -> portable w (h ++ rows) ->
  exists text k, csv_killed w old (mk_csv_run "w" h rows) n = Ok text /\ k <= length (h ++ rows) /\
    remains (h ++ rows) k (read_rows text) /\
    forall j shorter, j <= length (h ++ rows) -> csv_after w old (mk_csv_run "w" [] (firstn j (h ++ rows))) = Ok shorter ->
      String.length shorter <= n -> j <= k.
Proof.
  intros w old h rows n N P. destruct (cut_text w (h ++ rows) n N P) as (k & K & R & M).
  eexists. exists k. split; [apply killed_w|]. split; [exact K|]. split; [exact R|].
  intros j shorter J E L. rewrite after_w in E. injection E as <-. exact (M j J L).
Qed.
Print Assumptions c78_killed.

(** Killed while appending: what the file held before is untouched. *)
Theorem c78_killed_append : forall w old h0 rows0 text0 h rows n,
  proper (h0 ++ rows0) -> portable w (h0 ++ rows0) -> proper rows -> portable w rows ->
  csv_after w old (mk_csv_run "w" h0 rows0) = Ok text0 ->
  exists text k rows', csv_killed w (Some text0) (mk_csv_run "a" h rows) n = Ok text /\ k <= length rows /\
    remains rows k rows' /\ read_rows text = h0 ++ rows0 ++ rows'.
Proof.
  intros w old h0 rows0 text0 h rows n N0 P0 N P E. rewrite after_w in E. injection E as <-.
  destruct (cut_text w rows n N P) as (k & K & R & M).
  eexists. exists k. eexists. split; [apply killed_a|]. split; [exact K|]. split; [exact R|].
  cbn [content]. rewrite read_rows_text by exact N0. rewrite portable_same by exact P0. rewrite <- app_assoc. reflexivity.
Qed.
Print Assumptions c78_killed_append.

Lemma body_split : forall pre a b, a <> "" -> simple (a +++ b) = true -> body (pre ++ [a +++ b]) = commas pre +++ (a +++ b).
Proof.
  intros pre a b N H. rewrite body_plain; [rewrite cells_commas, simple_cell by exact H; reflexivity|].
  intros E. destruct pre as [|c pre]; [|destruct pre; discriminate]. cbn in E. injection E as E. destruct a; [contradiction | discriminate].
Qed.

(** The torn row can look like a complete one: as many cells, but the last number
    has lost its last digits. *)
Theorem c78_torn_refuted : forall w old h rows pre a b, proper (h ++ rows) -> portable w (h ++ rows) ->
  portable w [pre] -> a <> "" -> simple (a +++ b) = true ->
  exists n text, csv_killed w old (mk_csv_run "w" h (rows ++ [pre ++ [a +++ b]])) n = Ok text /\
    read_rows text = h ++ rows ++ [pre ++ [a]].
Proof.
  intros w old h rows pre a b N P Q A Sm.
  assert (Sa : simple a = true) by (rewrite simple_app in Sm; apply andb_prop in Sm; tauto).
  assert (P2 : portable w (h ++ rows ++ [pre ++ [a +++ b]])).
  { rewrite app_assoc. apply portable_app; [exact P|]. intros W. constructor; [|constructor]. apply Forall_app. split.
    - specialize (Q W). inversion Q; assumption.
    - constructor; [apply simple_one_line, Sm | constructor]. }
  assert (T : newlines w (rows_text (h ++ rows ++ [pre ++ [a +++ b]])) =
              (lines w (h ++ rows) +++ (commas pre +++ a)) +++ (b +++ (eol w +++ ""))).
  { rewrite newlines_rows, portable_same by exact P2. rewrite app_assoc, lines_app. cbn [lines]. rewrite body_split by assumption.
    rewrite !sapp_assoc. reflexivity. }
  exists (String.length (lines w (h ++ rows) +++ (commas pre +++ a))). eexists. split; [apply killed_w|].
  rewrite T, substring_all, read_lines by exact N. rewrite <- app_assoc. f_equal. f_equal.
  unfold read_rows. destruct (read_commas pre LineStart [] a (or_introl eq_refl)) as (p' & P' & E). rewrite E.
  rewrite <- (sapp_nil a) at 1. rewrite read_parts by assumption. reflexivity.
Qed.
Print Assumptions c78_torn_refuted.

(** Appending to the file of a killed run joins the torn row with the first new
    one: the new time is glued to the old number. *)
Theorem c78_glued_refuted : forall w old h rows pre a b h' time cells more, proper (h ++ rows) -> portable w (h ++ rows) ->
  portable w [pre] -> a <> "" -> simple (a +++ b) = true ->
  proper more -> portable w ((time :: cells) :: more) -> simple time = true -> (time :: cells <> [""]) ->
  exists n left text, csv_killed w old (mk_csv_run "w" h (rows ++ [pre ++ [a +++ b]])) n = Ok left /\
    csv_after w (Some left) (mk_csv_run "a" h' ((time :: cells) :: more)) = Ok text /\
    read_rows text = h ++ rows ++ [pre ++ (a +++ time) :: cells] ++ more.
Proof.
  intros w old h rows pre a b h' time cells more N P Q A Sm NM PM St Nt.
  assert (Sa : simple a = true) by (rewrite simple_app in Sm; apply andb_prop in Sm; tauto).
  assert (P2 : portable w (h ++ rows ++ [pre ++ [a +++ b]])).
  { rewrite app_assoc. apply portable_app; [exact P|]. intros W. constructor; [|constructor]. apply Forall_app. split.
    - specialize (Q W). inversion Q; assumption.
    - constructor; [apply simple_one_line, Sm | constructor]. }
  assert (T : newlines w (rows_text (h ++ rows ++ [pre ++ [a +++ b]])) =
              (lines w (h ++ rows) +++ (commas pre +++ a)) +++ (b +++ (eol w +++ ""))).
  { rewrite newlines_rows, portable_same by exact P2. rewrite app_assoc, lines_app. cbn [lines]. rewrite body_split by assumption.
    rewrite !sapp_assoc. reflexivity. }
  exists (String.length (lines w (h ++ rows) +++ (commas pre +++ a))). eexists. eexists. split; [apply killed_w|].
  split; [apply after_a|]. cbn [content]. rewrite T, substring_all, newlines_rows, portable_same by exact PM. cbn [lines].
  rewrite !sapp_assoc, read_lines by exact N. rewrite <- app_assoc. f_equal. f_equal. rewrite body_plain by exact Nt.
  unfold read_rows at 1. destruct (read_commas pre LineStart [] (a +++ (cells_text (time :: cells) +++ (eol w +++ lines w more))) (or_introl eq_refl)) as (p' & P' & E).
  rewrite E, read_parts by assumption. destruct (eol_cr w) as (z & Z & V). rewrite Z. cbn [String.append].
  rewrite read_in_cell; [|discriminate | exact St]. cbn [hd tl app]. f_equal.
  rewrite <- (app_nil_r more) at 2. change (@nil (list string)) with (read_rows "").
  rewrite <- (read_lines w more "" NM), sapp_nil. destruct V as [-> | ->]; reflexivity.
Qed.
Print Assumptions c78_glued_refuted.

(** * The frame a user loads *)

Section Frame.
Context {Loc Val S : Type}.
(** Python's [str] of locations, values, times and numbers. *)
Variable str_loc : Loc -> string.
Variable str_val : Val -> string.
Variable str_time : Q -> string.
Variable str_nat : nat -> string.
(** They contain no line feed. *)
Hypothesis loc_line : forall l, one_line (str_loc l) = true.
Hypothesis val_line : forall v, one_line (str_val v) = true.
Hypothesis time_line : forall t, one_line (str_time t) = true.
Hypothesis nat_line : forall n, one_line (str_nat n) = true.
(** The value of a component of a field at a location, in a state. *)
Variable value : S -> Loc -> string -> nat -> Val.

(** The frame expected for columns [cs] with component names [name] at the time points [pts]. *)
Definition expected_frame (cs : list (column Loc)) (name : column Loc -> string) (pts : list (Q * S)) : frame :=
  mk_frame (map (fun c => [str_loc (col_loc c); col_field c; name c; " "]) cs)
           (map (fun p => str_time (fst p)) pts)
           (map (fun p => map (fun c => str_val (value (snd p) (col_loc c) (col_field c) (col_index c))) cs) pts).

(** A component as it is shown: its name or its number. *)
Definition shown (c : component) : string := match c with CName x => x | CNum n => str_nat n end.

(** The header and the rows as cells. *)
Definition head_cells (key : string) (cs : list (column Loc)) (name : column Loc -> string) : list (list string) :=
  [key :: map (fun c => str_loc (col_loc c)) cs; "field" :: map col_field cs; "component" :: map name cs; "t" :: map (fun _ => " ") cs].
Definition point_cells (cs : list (column Loc)) (p : Q * S) : list string :=
  str_time (fst p) :: map (fun c => str_val (value (snd p) (col_loc c) (col_field c) (col_index c))) cs.

Lemma nth_columns : forall (cs : list (column Loc)) g1 g2 g3 g4 a b c d,
  column_names [a :: map g1 cs; b :: map g2 cs; c :: map g3 cs; d :: map g4 cs] (length cs) =
  map (fun x => [g1 x; g2 x; g3 x; g4 x]) cs.
Proof.
  intros cs g1 g2 g3 g4 a b c d. unfold column_names. rewrite <- seq_shift, map_map. cbn [map nth].
  induction cs as [|x cs IH]; [reflexivity|]. cbn [length seq map nth]. f_equal. rewrite <- seq_shift, map_map. exact IH.
Qed.

Lemma load_points : forall key cs name pts,
  load_as_dataframe (head_cells key cs name ++ map (point_cells cs) pts) = Ok (expected_frame cs name pts).
Proof.
  intros key cs name pts. unfold head_cells. cbn [app].
  rewrite (load_exact _ _ _ _ _ (length cs)); try (cbn [length]; rewrite map_length; reflexivity).
  - rewrite nth_columns, !map_map. reflexivity.
  - apply Forall_forall. intros r H. apply in_map_iff in H. destruct H as (p & <- & _). cbn. rewrite map_length. reflexivity.
Qed.

Lemma cells_proper : forall key cs name pts, proper (head_cells key cs name ++ map (point_cells cs) pts).
Proof.
  intros key cs name pts. apply Forall_app. split; [repeat constructor; discriminate|].
  apply Forall_forall. intros r H. apply in_map_iff in H. destruct H as (p & <- & _). discriminate.
Qed.

Lemma points_proper : forall cs pts, proper (map (point_cells cs) pts).
Proof. intros cs pts. apply Forall_forall. intros r H. apply in_map_iff in H. destruct H as (p & <- & _). discriminate. Qed.

Lemma points_portable : forall w cs pts, portable w (map (point_cells cs) pts).
Proof.
  intros w cs pts _. apply Forall_forall. intros r H. apply in_map_iff in H. destruct H as (p & <- & _). constructor; [apply time_line|].
  apply Forall_forall. intros c I. apply in_map_iff in I. destruct I as (x & <- & _). apply val_line.
Qed.

Lemma cells_portable : forall w key cs name pts, one_line key = true ->
  (forall c, In c cs -> one_line (col_field c) = true /\ one_line (name c) = true) ->
  portable w (head_cells key cs name ++ map (point_cells cs) pts).
Proof.
  intros w key cs name pts K C. apply portable_app; [|apply points_portable]. intros _.
  repeat constructor; try exact K; apply Forall_forall; intros c I; apply in_map_iff in I; destruct I as (x & <- & I).
  - apply loc_line.
  - apply C, I.
  - apply C, I.
  - reflexivity.
Qed.

(** The rows of a sensor as the stream writes them. *)
Definition sensor_rows (fs : list (string * list nat)) (locs : list Loc) (rs : list (row S)) : list (list string) :=
  map (fun r => row_cells str_val str_time (data_row (row_time r) (measure (value (row_state r)) fs locs))) rs.

(** The rows written for sensor [x] during a run. *)
Definition recorded (sensors : list sensor) (x : sensor) (re : bool) (t0 : Q) (ls : list Q) (s : S) (sols : list S) : list (row S) :=
  filter (fun r => String.eqb (row_sensor r) (se_name x))
    (observe (sensor_handler true sensors) s sols (run_trace (transient_run no_faults re t0 (Ok ls)))).

Lemma rows_of_points : forall fs locs cs x pts,
  (forall s, measure (value s) fs locs = map (fun c => value s (col_loc c) (col_field c) (col_index c)) cs) ->
  sensor_rows fs locs (map (fun p => mk_row (se_name x) (Some (fst p)) (snd p)) pts) = map (point_cells cs) pts.
Proof.
  intros fs locs cs x pts M. unfold sensor_rows. rewrite map_map. apply map_ext. intros p. unfold row_cells, data_row, point_cells.
  cbn [fst snd row_time row_state]. rewrite M, map_map. reflexivity.
Qed.

Lemma field_in_columns : forall (locs : list Loc) fs c, In c (columns locs fs) -> In (col_field c) (map fst fs).
Proof.
  intros locs fs c H. unfold columns in H. apply in_flat_map in H. destruct H as (l & _ & H). apply in_flat_map in H.
  destruct H as (f & F & H). apply in_map_iff in H. destruct H as (k & <- & _). cbn. apply in_map, F.
Qed.

Lemma label_line : forall dims k, one_line (shown (component_label dims k)) = true.
Proof.
  assert (A : forall i, one_line (axis i) = true) by (intros [|[|i]]; reflexivity).
  assert (B : forall i j, one_line (axis i +++ axis j) = true) by (intros [|[|i]] [|[|j]]; reflexivity).
  intros dims k. destruct dims as [|m [|n [|o dims]]]; cbn [component_label].
  - reflexivity.
  - destruct (m <=? 3); [apply A | apply nat_line].
  - destruct (m * n <=? 9); [apply B | apply nat_line].
  - apply nat_line.
Qed.

Lemma repeat_map : forall {A B} (x : B) (l : list A), repeat x (length l) = map (fun _ => x) l.
Proof. intros A B x l. induction l as [|y l IH]; cbn; [reflexivity|]. rewrite IH. reflexivity. Qed.

(** A transient run of a sensor with rate [se_rate x] on any platform: the frame
    loaded from the file has one column for every location, field and component,
    named so, and at every time point that is due the measured values. *)
Theorem c78_frame : forall w old sensors x re t0 ls sols s key locs fs h,
  NoDup (map se_name sensors) -> In x sensors -> ls <> [] -> length ls = length sols ->
  one_line key = true -> Forall (fun f => nameable (snd f) /\ one_line (fst f) = true) fs ->
  stream_header get_components_name false locs fs = Ok h ->
  exists text, csv_after w old (mk_csv_run "w" (header_rows str_loc str_nat key h)
                                  (sensor_rows fs locs (recorded sensors x re t0 ls s sols))) = Ok text /\
    load_as_dataframe (read_rows text) =
      Ok (expected_frame (columns locs fs) (fun c => shown (component_label (col_dims c) (col_index c)))
            ((t0, s) :: due_points (se_rate x) (combine ls sols))).
Proof.
  intros w old sensors x re t0 ls sols s key locs fs h ND IX NE LE K F H.
  assert (F1 : Forall (fun f => nameable (snd f)) fs) by (eapply Forall_impl; [|exact F]; intros f [A _]; exact A).
  assert (F2 : Forall (fun f => one_line (fst f) = true) fs) by (eapply Forall_impl; [|exact F]; intros f [_ A]; exact A).
  pose proof (proj1 (c16_header_aligned (value s) false locs fs F1)) as HA. rewrite HA in H. injection H as <-.
  set (cs := columns locs fs). set (name := fun c : column Loc => shown (component_label (col_dims c) (col_index c))).
  unfold recorded. rewrite c11_sensor_schedule by assumption.
  rewrite (rows_of_points fs locs cs x) by (intros st; apply (c16_header_aligned (value st) false locs fs F1)).
  set (pts := (t0, s) :: due_points (se_rate x) (combine ls sols)).
  assert (E : header_rows str_loc str_nat key (map col_loc cs, map col_field cs,
                map (fun c => component_label (col_dims c) (col_index c)) cs, Some (length cs)) = head_cells key cs name).
  { unfold header_rows, head_cells, name. rewrite !map_map, repeat_map. reflexivity. }
  rewrite E. destruct (c78_round_trip w old (head_cells key cs name) (map (point_cells cs) pts)) as (text & T & R).
  - apply cells_proper.
  - apply cells_portable; [exact K|]. intros c I. split; [|apply label_line].
    apply field_in_columns in I. apply in_map_iff in I. destruct I as (f & <- & I). rewrite Forall_forall in F2. apply F2, I.
  - exists text. split; [exact T|]. rewrite R. apply load_points.
Qed.

(** L2 sensors: one column "L2" for every location and field of any shape. *)
Theorem c78_frame_L2 : forall w old sensors x re t0 ls sols s key locs fs h,
  NoDup (map se_name sensors) -> In x sensors -> ls <> [] -> length ls = length sols ->
  one_line key = true -> Forall (fun f => one_line (fst f) = true) fs ->
  stream_header get_components_name_L2 false locs (L2_fields fs) = Ok h ->
  exists text, csv_after w old (mk_csv_run "w" (header_rows str_loc str_nat key h)
                                  (sensor_rows (L2_fields fs) locs (recorded sensors x re t0 ls s sols))) = Ok text /\
    load_as_dataframe (read_rows text) =
      Ok (mk_frame (flat_map (fun l => map (fun f => [str_loc l; fst f; "L2"; " "]) fs) locs)
            (map (fun p => str_time (fst p)) ((t0, s) :: due_points (se_rate x) (combine ls sols)))
            (map (fun p => flat_map (fun l => map (fun f => str_val (value (snd p) l (fst f) 0)) fs) locs)
               ((t0, s) :: due_points (se_rate x) (combine ls sols)))).
Proof.
  intros w old sensors x re t0 ls sols s key locs fs h ND IX NE LE K F H.
  pose proof (c16_L2_header_aligned (value s) false locs fs) as HA. cbn zeta in HA. destruct HA as (HA & _ & HC). rewrite HA in H. injection H as <-.
  set (cs := columns locs (map (fun f => (fst f, [])) fs)) in *.
  unfold recorded. rewrite c11_sensor_schedule by assumption.
  assert (Z : forall c, In c cs -> col_index c = 0).
  { intros c I. unfold cs, columns in I. apply in_flat_map in I. destruct I as (l & _ & I). apply in_flat_map in I.
    destruct I as (f & Hf & I). apply in_map_iff in Hf. destruct Hf as (g & <- & _). cbn in I. destruct I as [<-|[]]. reflexivity. }
  rewrite (rows_of_points (L2_fields fs) locs cs x).
  2:{ intros st. pose proof (c16_L2_header_aligned (value st) false locs fs) as HM. cbn zeta in HM. destruct HM as (_ & HM & _). rewrite HM.
      apply map_ext_in. intros c I. rewrite (Z c I). reflexivity. }
  set (pts := (t0, s) :: due_points (se_rate x) (combine ls sols)).
  assert (E : header_rows str_loc str_nat key (map col_loc cs, map col_field cs,
                map (fun _ => CName "L2") cs, Some (length cs)) = head_cells key cs (fun _ => "L2")).
  { unfold header_rows, head_cells. rewrite !map_map, repeat_map. reflexivity. }
  rewrite E. destruct (c78_round_trip w old (head_cells key cs (fun _ => "L2")) (map (point_cells cs) pts)) as (text & T & R).
  - apply cells_proper.
  - apply cells_portable; [exact K|]. intros c I. split; [|reflexivity]. apply field_in_columns in I. rewrite map_map in I.
    apply in_map_iff in I. destruct I as (f & <- & I). rewrite Forall_forall in F. exact (F f I).
  - exists text. split; [exact T|]. rewrite R, load_points. f_equal. unfold expected_frame.
    assert (G : forall {X} (g : Loc -> string -> X), map (fun c => g (col_loc c) (col_field c)) cs = flat_map (fun l => map (fun f => g l (fst f)) fs) locs).
    { intros X g. transitivity (map (fun lf => g (fst lf) (snd lf)) (map (fun c => (col_loc c, col_field c)) cs)); [rewrite map_map; reflexivity|].
      rewrite HC. rewrite flat_map_concat_map, concat_map, map_map, <- flat_map_concat_map. apply flat_map_ext. intros l. rewrite map_map. reflexivity. }
    f_equal.
    + apply (G _ (fun l f => [str_loc l; f; "L2"; " "])).
    + apply map_ext. intros p. rewrite <- (G _ (fun l f => str_val (value (snd p) l f 0))). apply map_ext_in. intros c I. rewrite (Z c I). reflexivity.
Qed.

(** A second run that appends: the frame has the time points of both runs, one
    after the other; the first of the second run is the one it starts from. *)
Theorem c78_resumed : forall w old sensors x re re' t0 t0' ls ls' sols sols' s s' key locs fs h h',
  NoDup (map se_name sensors) -> In x sensors -> ls <> [] -> length ls = length sols -> ls' <> [] -> length ls' = length sols' ->
  one_line key = true -> Forall (fun f => nameable (snd f) /\ one_line (fst f) = true) fs ->
  stream_header get_components_name false locs fs = Ok h ->
  exists text, csv_history w old
      [mk_csv_run "w" (header_rows str_loc str_nat key h) (sensor_rows fs locs (recorded sensors x re t0 ls s sols));
       mk_csv_run "a" h' (sensor_rows fs locs (recorded sensors x re' t0' ls' s' sols'))] = Ok (Some text) /\
    load_as_dataframe (read_rows text) =
      Ok (expected_frame (columns locs fs) (fun c => shown (component_label (col_dims c) (col_index c)))
            (((t0, s) :: due_points (se_rate x) (combine ls sols)) ++ ((t0', s') :: due_points (se_rate x) (combine ls' sols')))).
Proof.
  intros w old sensors x re re' t0 t0' ls ls' sols sols' s s' key locs fs h h' ND IX NE LE NE' LE' K F H.
  assert (F1 : Forall (fun f => nameable (snd f)) fs) by (eapply Forall_impl; [|exact F]; intros f [A _]; exact A).
  assert (F2 : Forall (fun f => one_line (fst f) = true) fs) by (eapply Forall_impl; [|exact F]; intros f [_ A]; exact A).
  pose proof (proj1 (c16_header_aligned (value s) false locs fs F1)) as HA. rewrite HA in H. injection H as <-.
  set (cs := columns locs fs). set (name := fun c : column Loc => shown (component_label (col_dims c) (col_index c))).
  unfold recorded. rewrite !c11_sensor_schedule by assumption.
  rewrite !(rows_of_points fs locs cs x) by (intros st; apply (c16_header_aligned (value st) false locs fs F1)).
  set (pts := (t0, s) :: due_points (se_rate x) (combine ls sols)).
  set (pts' := (t0', s') :: due_points (se_rate x) (combine ls' sols')).
  assert (E : header_rows str_loc str_nat key (map col_loc cs, map col_field cs,
                map (fun c => component_label (col_dims c) (col_index c)) cs, Some (length cs)) = head_cells key cs name).
  { unfold header_rows, head_cells, name. rewrite !map_map, repeat_map. reflexivity. }
  rewrite E.
  destruct (c78_history w old [] (mk_csv_run "w" (head_cells key cs name) (map (point_cells cs) pts)) [mk_csv_run "a" h' (map (point_cells cs) pts')] old)
    as (text & T & R); try reflexivity.
  - repeat constructor.
  - apply cells_proper.
  - apply cells_portable; [exact K|]. intros c I. split; [|apply label_line].
    apply field_in_columns in I. apply in_map_iff in I. destruct I as (f & <- & I). rewrite Forall_forall in F2. apply F2, I.
  - constructor; [split; [apply points_proper | apply points_portable] | constructor].
  - exists text. split; [exact T|]. rewrite R. cbn [run_header run_rows map concat]. rewrite app_nil_r, <- map_app. apply load_points.
Qed.

End Frame.
Print Assumptions c78_frame.
Print Assumptions c78_frame_L2.
Print Assumptions c78_resumed.

(** Mode "a" for a new file: there is no header, and the first four rows of data
    are taken for one. *)
Theorem c78_append_new_refuted : forall w h rows n, portable w rows -> Forall (fun r => length r = S n) rows ->
  exists text, csv_after w None (mk_csv_run "a" h rows) = Ok text /\
    (length rows < 4 -> load_as_dataframe (read_rows text) = Err ValueError) /\
    (4 <= length rows -> exists f, load_as_dataframe (read_rows text) = Ok f /\
       fr_index f = map (hd "") (skipn 4 rows) /\ fr_columns f = column_names (firstn 4 rows) n).
Proof.
  intros w h rows n P F. eexists. split; [apply after_a|].
  assert (N : proper rows) by (eapply Forall_impl; [|exact F]; intros [|c r]; [discriminate | intros _; discriminate]).
  cbn [content String.append]. rewrite <- (sapp_nil (newlines _ _)), read_rows_text by exact N.
  rewrite portable_same by exact P. unfold read_rows. cbn [read]. rewrite app_nil_r.
  destruct rows as [|a [|b [|c [|d rows]]]]; (split; [intros L; cbn in L; try reflexivity; lia | intros L; cbn in L; try lia]).
  inversion F as [|? ? A F1]; subst. inversion F1 as [|? ? B F2]; subst. inversion F2 as [|? ? C F3]; subst. inversion F3 as [|? ? D F4]; subst.
  eexists. split; [apply (load_exact a b c d rows n A B C D F4)|]. split; reflexivity.
Qed.
Print Assumptions c78_append_new_refuted.

(** * Rows of other lengths *)

Lemma fit_short : forall n r, length r <= n -> exists l, fit n r = Some l /\ length l = n /\ forall k, nth k l "" = nth k r "".
Proof.
  induction n as [|n IH]; intros [|c r] L; cbn in L; try lia.
  - exists []. split; [reflexivity|]. split; reflexivity.
  - destruct (IH [] ltac:(cbn; lia)) as (l & E & Ll & K). exists ("" :: l). cbn [fit]. rewrite E. split; [reflexivity|]. split; [cbn; lia|].
    intros [|k]; [reflexivity|]. cbn [nth]. rewrite K. destruct k; reflexivity.
  - destruct (IH r ltac:(lia)) as (l & E & Ll & K). exists (c :: l). cbn [fit]. rewrite E. split; [reflexivity|]. split; [cbn; lia|].
    intros [|k]; [reflexivity|]. apply K.
Qed.

Lemma fit_long : forall n r, n < length r -> fit n r = None.
Proof.
  induction n as [|n IH]; intros [|c r] L; cbn in L; try lia; [reflexivity|]. cbn [fit]. now rewrite IH by lia.
Qed.

Lemma load_rows : forall h rows n, length h = 4 -> Forall (fun r => length r = S n) h ->
  load_as_dataframe (h ++ rows) = let* l := frame_rows n rows in Ok (mk_frame (column_names h n) (map fst l) (map snd l)).
Proof.
  intros [|a [|b [|c [|d [|e h]]]]] rows n L F; try discriminate. inversion F as [|? ? A F1]; subst. inversion F1 as [|? ? B F2]; subst. inversion F2 as [|? ? C F3]; subst. inversion F3 as [|? ? D F4]; subst.
  cbn [app load_as_dataframe]. rewrite A, B, C, D, !Nat.eqb_refl. cbn [andb Nat.leb]. now replace (S n - 1) with n by lia.
Qed.

Lemma full_proper : forall h n, Forall (fun r : list string => length r = S n) h -> proper h.
Proof. intros h n F. eapply Forall_impl; [|exact F]. intros [|c r]; [discriminate|intros _; discriminate]. Qed.

(** Data rows with fewer cells than the header, e.g. torn ones, are filled up with empty cells on the right. *)
Theorem c78_short_rows : forall w old h rows n, length h = 4 -> Forall (fun r => length r = S n) h ->
  Forall (fun r => 1 <= length r <= S n) rows -> portable w (h ++ rows) ->
  exists text f, csv_after w old (mk_csv_run "w" h rows) = Ok text /\ load_as_dataframe (read_rows text) = Ok f /\
    fr_index f = map (hd "") rows /\ Forall2 (fun r cells => length cells = n /\ forall k, nth k cells "" = nth (S k) r "") rows (fr_cells f).
Proof.
  intros w old h rows n L Fh Fr P.
  assert (N : proper (h ++ rows)).
  { apply Forall_app. split; [exact (full_proper h n Fh)|]. eapply Forall_impl; [|exact Fr]. intros [|c r]; [cbn; lia|intros _; discriminate]. }
  destruct (c78_round_trip w old h rows N P) as (text & T & R).
  assert (X : exists l, frame_rows n rows = Ok l /\ map fst l = map (hd "") rows /\ Forall2 (fun r cells => length cells = n /\ forall k, nth k cells "" = nth (S k) r "") rows (map snd l)).
  { clear - Fr. induction Fr as [|r rows B Fr (l & E & I & C)]; [exists []; repeat split; constructor|].
    destruct (fit_short (S n) r ltac:(lia)) as (q & Eq & Lq & K). destruct q as [|i cells]; [discriminate|].
    exists ((i, cells) :: l). cbn [frame_rows]. rewrite Eq, E. split; [reflexivity|]. cbn [map fst snd]. split.
    - rewrite I. f_equal. specialize (K 0). cbn in K. rewrite K. destruct r; reflexivity.
    - constructor; [|exact C]. split; [cbn in Lq; lia|]. intros k. exact (K (S k)). }
  destruct X as (l & E & I & C). exists text. eexists. split; [exact T|]. rewrite R, (load_rows h rows n L Fh), E. cbn [bind]. split; [reflexivity|]. split; [exact I|exact C].
Qed.
Print Assumptions c78_short_rows.

(** One data row with more cells than the header and nothing can be loaded. *)
Theorem c78_long_row_refuted : forall w old h rows n, length h = 4 -> Forall (fun r => length r = S n) h ->
  proper rows -> portable w (h ++ rows) -> Exists (fun r => S n < length r) rows ->
  exists text, csv_after w old (mk_csv_run "w" h rows) = Ok text /\ load_as_dataframe (read_rows text) = Err ValueError.
Proof.
  intros w old h rows n L Fh Fr P Ex.
  assert (N : proper (h ++ rows)) by (apply Forall_app; split; [exact (full_proper h n Fh)|exact Fr]).
  destruct (c78_round_trip w old h rows N P) as (text & T & R). exists text. split; [exact T|]. rewrite R, (load_rows h rows n L Fh).
  enough (E : frame_rows n rows = Err ValueError) by (rewrite E; reflexivity).
  clear - Ex. induction rows as [|r rows IH]; [inversion Ex|]. cbn [frame_rows]. destruct (fit (S n) r) as [[|i cells]|] eqn:F; try reflexivity.
  inversion Ex as [? ? H|? ? H]; subst; [rewrite fit_long in F by exact H; discriminate|]. rewrite (IH H). reflexivity.
Qed.
Print Assumptions c78_long_row_refuted.

(** So a run that appends to the file of a killed one can make the whole file unreadable, also what the first run had written. *)
Theorem c78_glued_lost_refuted : forall w old h rows pre a b h' time cells more n, length h = 4 -> Forall (fun r => length r = S (S n)) (h ++ rows) -> portable w (h ++ rows) ->
  length pre = S n -> portable w [pre] -> a <> "" -> simple (a +++ b) = true ->
  proper more -> length cells = S n -> portable w ((time :: cells) :: more) -> simple time = true ->
  exists k left text, csv_killed w old (mk_csv_run "w" h (rows ++ [pre ++ [a +++ b]])) k = Ok left /\
    csv_after w (Some left) (mk_csv_run "a" h' ((time :: cells) :: more)) = Ok text /\
    load_as_dataframe (read_rows text) = Err ValueError.
Proof.
  intros w old h rows pre a b h' time cells more n L F P Lp Pp A Sm Pm Lc Pt St.
  assert (Nt : time :: cells <> [""]) by (destruct cells; [discriminate Lc|discriminate]).
  destruct (c78_glued_refuted w old h rows pre a b h' time cells more (full_proper _ _ F) P Pp A Sm Pm Pt St Nt) as (k & left & text & K & T & R).
  exists k, left, text. split; [exact K|]. split; [exact T|]. rewrite R. apply Forall_app in F as [Fh Fr].
  rewrite (load_rows h _ (S n) L Fh).
  enough (E : frame_rows (S n) (rows ++ [pre ++ (a +++ time) :: cells] ++ more) = Err ValueError) by (rewrite E; reflexivity).
  clear - Lp Lc Fr. induction Fr as [|r rows H Fr IH].
  - cbn [app frame_rows]. rewrite fit_long; [reflexivity|]. rewrite app_length. cbn [length]. lia.
  - cbn [app frame_rows] in *. destruct (fit _ r) as [[|i q]|]; try reflexivity. rewrite IH. reflexivity.
Qed.
Print Assumptions c78_glued_lost_refuted.

(** * Mode "r+" *)

Lemma drop_app : forall pre tail, drop (String.length pre) (pre +++ tail) = tail.
Proof. induction pre as [|c pre IH]; intros tail; [destruct tail; reflexivity|]. exact (IH tail). Qed.

Lemma drop_all : forall s n, String.length s <= n -> drop n s = "".
Proof. induction s as [|c s IH]; intros [|n] L; cbn in *; try reflexivity; try lia. apply IH. lia. Qed.

(** Mode "r+" writes the rows over the beginning of the file and leaves what lies beyond; there is no header. *)
Theorem c78_overwrite : forall w h rows new, rows <> [] -> csv_after w None (mk_csv_run "w" [] rows) = Ok new ->
  (forall h', csv_after w None (mk_csv_run "r+" h' rows) = Err FileNotFoundError) /\
  (forall pre tail, String.length pre = String.length new -> csv_after w (Some (pre +++ tail)) (mk_csv_run "r+" h rows) = Ok (new +++ tail)) /\
  (forall old, String.length old <= String.length new -> csv_after w (Some old) (mk_csv_run "r+" h rows) = Ok new).
Proof.
  intros w h rows new Ne E. rewrite after_w in E. cbn [app] in E. injection E as <-. set (text := rows_text rows).
  assert (Nt : exists x y, text = String x y).
  { destruct text as [|x y] eqn:T; [|exists x, y; reflexivity]. unfold text in T. destruct rows as [|r rows]; [contradiction|]. rewrite rows_text_cons, row_text_body in T.
    apply (f_equal String.length) in T. rewrite !sapp_length in T. cbn in T. lia. }
  assert (G : forall old, csv_after w (Some old) (mk_csv_run "r+" h rows) = Ok (newlines w text +++ drop (String.length (newlines w text)) old)).
  { intros old. unfold csv_after, run_text. cbn [run_mode run_header run_rows]. cbn [String.eqb Ascii.eqb Bool.eqb app]. fold text.
    change (parse_mode "r+") with (Ok (mk_mode Read true false false)). cbn [bind opened act]. destruct Nt as (x & y & ->). reflexivity. }
  split; [reflexivity|]. split.
  - intros pre tail Lp. rewrite G, <- Lp, drop_app. reflexivity.
  - intros old Lo. rewrite G, drop_all, sapp_nil by exact Lo. reflexivity.
Qed.
Print Assumptions c78_overwrite.

(** Two fields at two points: the commas in the points are quoted, and the frame
    has its four columns. *)
Example c78_example :
  let x := mk_sensor "probe" 2 in
  let run := mk_csv_run "w"
    (header_rows (fun l => l) (fun _ => "0") "point" (["(0.0, 1.0)"; "(0.0, 1.0)"; "(2.0, 0.5)"; "(2.0, 0.5)"], ["p"; "rho"; "p"; "rho"],
       [CName " "; CName " "; CName " "; CName " "], Some 4))
    (sensor_rows (fun v : nat => if v =? 0 then "1.25" else "0.5") (fun t => if Qeq_bool t 0 then "0.0" else "0.1") (fun (s : nat) (l f : string) (k : nat) => s)
       [("p", []); ("rho", [])] ["(0.0, 1.0)"; "(2.0, 0.5)"] (recorded [x] x true 0%Q [1; 2; 3]%Q 0 [1; 2; 3])) in
  exists text, csv_after true (Some "old") run = Ok text /\
    load_as_dataframe (read_rows text) =
      Ok (mk_frame [["(0.0, 1.0)"; "p"; " "; " "]; ["(0.0, 1.0)"; "rho"; " "; " "]; ["(2.0, 0.5)"; "p"; " "; " "]; ["(2.0, 0.5)"; "rho"; " "; " "]]
            ["0.0"; "0.1"; "0.1"] [["1.25"; "1.25"; "1.25"; "1.25"]; ["0.5"; "0.5"; "0.5"; "0.5"]; ["0.5"; "0.5"; "0.5"; "0.5"]]) /\
    beginning "point,""(0.0, 1.0)"",""(0.0, 1.0)"",""(2.0, 0.5)"",""(2.0, 0.5)""" text.
Proof. cbn zeta. eexists. split; [vm_compute; reflexivity|]. split; [vm_compute; reflexivity|]. eexists. vm_compute. reflexivity. Qed.

(** The hypotheses of the theorems on killed runs hold for such rows; a spelling of
    the mode that empties the file but leaves it without header; appending to a
    torn file. *)
Example c78_example_killed :
  let h := [["region"; "inner|outer"]; ["field"; "p"]; ["component"; " "]; ["t"; " "]] in
  let rows := [["0.0"; "1.25"]; ["0.1"; "1.5"]] in
  proper (h ++ rows) /\ portable true (h ++ rows) /\ simple ("1" +++ ".75") = true /\
  csv_after false (Some "x") (mk_csv_run "wt" h rows) = Ok (rows_text rows) /\
  csv_after false (Some "x") (mk_csv_run "x" h rows) = Err FileExistsError /\
  csv_after false (Some "x") (mk_csv_run "r" h rows) = Err UnsupportedOperation /\
  csv_after false (Some "x") (mk_csv_run "wb" h rows) = Err TypeError /\
  csv_after false (Some "x") (mk_csv_run "w,a" h rows) = Err ValueError /\
  exists left text, csv_killed false None (mk_csv_run "w" h (rows ++ [["0.2"; "1.75"]])) 73 = Ok left /\
    read_rows left = h ++ rows ++ [["0.2"; "1.7"]] /\
    csv_after false (Some left) (mk_csv_run "a" h [["0.1"; "1.5"]; ["0.2"; "1.75"]]) = Ok text /\
    read_rows text = h ++ rows ++ [["0.2"; "1.70.1"; "1.5"]; ["0.2"; "1.75"]].
Proof.
  cbn zeta. split; [repeat constructor; discriminate|]. split; [intros _; repeat constructor|]. split; [reflexivity|].
  split; [vm_compute; reflexivity|]. split; [reflexivity|]. split; [reflexivity|]. split; [reflexivity|]. split; [reflexivity|].
  eexists. eexists. split; [vm_compute; reflexivity|]. split; [vm_compute; reflexivity|]. split; [vm_compute; reflexivity|]. vm_compute. reflexivity.
Qed.

(** A torn row, a row that is too long and a second run that overwrites. *)
Example c78_example_lengths :
  let h := [["region"; "inner"; "outer"]; ["field"; "p"; "p"]; ["component"; " "; " "]; ["t"; " "; " "]] in
  (exists text, csv_after false None (mk_csv_run "w" h [["0.0"; "1.25"; "1"]; ["0.1"; "1.5"]]) = Ok text /\
     load_as_dataframe (read_rows text) = Ok (mk_frame [["inner"; "p"; " "; " "]; ["outer"; "p"; " "; " "]] ["0.0"; "0.1"] [["1.25"; "1"]; ["1.5"; ""]])) /\
  (exists text, csv_after false None (mk_csv_run "w" h [["0.0"; "1.25"; "1"]; ["0.1"; "1.5"; "1"; "2"]]) = Ok text /\ load_as_dataframe (read_rows text) = Err ValueError) /\
  exists text, csv_history false None [mk_csv_run "w" [] [["0.0"; "1.25"]; ["0.1"; "1.5"]]; mk_csv_run "r+" [] [["0.0"; "1.2"]]] = Ok (Some text) /\ read_rows text = [["0.0"; "1.2"]; ["0.1"; "1.5"]].
Proof.
  cbn zeta. split; [|split]; eexists; (split; [vm_compute; reflexivity|vm_compute; reflexivity]).
Qed.
