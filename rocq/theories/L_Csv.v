(** Lemmas about writing and reading CSV text. *)
From Coq Require Import String Ascii List Bool Arith Lia QArith.
From Verif Require Import Base Dict M_Timer M_Run M_IO M_Header M_Csv S_Csv.
Import ListNotations.
Local Open Scope string_scope.
Local Open Scope nat_scope.
Local Open Scope list_scope.

Notation "a +++ b" := (String.append a b) (at level 60, right associativity).

Lemma sapp_assoc : forall a b c, (a +++ b) +++ c = a +++ (b +++ c).
Proof. induction a as [|x a IH]; intros b c; cbn; [reflexivity|]. rewrite IH. reflexivity. Qed.

Lemma sapp_nil : forall a, a +++ "" = a.
Proof. induction a as [|x a IH]; cbn; [reflexivity|]. rewrite IH. reflexivity. Qed.

Lemma sapp_length : forall a b, String.length (a +++ b) = String.length a + String.length b.
Proof. induction a as [|x a IH]; intros b; cbn; [reflexivity|]. rewrite IH. reflexivity. Qed.

Lemma sapp_inv : forall a b c, a +++ b = a +++ c -> b = c.
Proof. induction a as [|x a IH]; intros b c; cbn; [auto|]. intros H. injection H as H. apply IH, H. Qed.

Lemma rows_text_cons : forall r rows, rows_text (r :: rows) = row_text r +++ rows_text rows.
Proof.
  intros r rows. unfold rows_text. cbn [map]. destruct rows as [|q rows]; [cbn; rewrite sapp_nil; reflexivity|]. reflexivity.
Qed.

Lemma rows_text_app : forall a b, rows_text (a ++ b) = rows_text a +++ rows_text b.
Proof.
  induction a as [|r a IH]; intros b; [reflexivity|]. cbn [app]. rewrite !rows_text_cons, IH, sapp_assoc. reflexivity.
Qed.

(** * Line feeds *)

Lemma newlines_cons : forall w x s, newlines w (String x s) =
  if (w && Ascii.eqb x LF)%bool then String CR (String LF (newlines w s)) else String x (newlines w s).
Proof. reflexivity. Qed.

Lemma special_cons : forall x s, has_special (String x s) = (special x || has_special s)%bool.
Proof. reflexivity. Qed.

Lemma double_cons : forall x s, double_quotes (String x s) =
  if Ascii.eqb x QUOTE then String QUOTE (String QUOTE (double_quotes s)) else String x (double_quotes s).
Proof. reflexivity. Qed.

Lemma newlines_app : forall w a b, newlines w (a +++ b) = newlines w a +++ newlines w b.
Proof.
  intros w. induction a as [|x a IH]; intros b; [reflexivity|]. cbn. destruct (w && Ascii.eqb x LF)%bool; cbn; rewrite IH; reflexivity.
Qed.

Lemma newlines_false : forall s, newlines false s = s.
Proof. induction s as [|x s IH]; cbn; [reflexivity|]. rewrite IH. reflexivity. Qed.

Lemma newlines_one_line : forall w s, one_line s = true -> newlines w s = s.
Proof.
  intros w. induction s as [|x s IH]; cbn; [reflexivity|]. intros H. apply andb_prop in H. destruct H as [A B].
  apply negb_true_iff in A. change (Ascii.eqb x LF = false) in A. rewrite A, andb_false_r, (IH B). reflexivity.
Qed.

Lemma newlines_special : forall w s, has_special (newlines w s) = has_special s.
Proof.
  intros w. induction s as [|x s IH]; [reflexivity|]. rewrite newlines_cons. destruct (w && Ascii.eqb x LF)%bool eqn:E.
  - apply andb_prop in E. destruct E as [_ E]. apply Ascii.eqb_eq in E. subst x. reflexivity.
  - rewrite !special_cons, IH. reflexivity.
Qed.

Lemma newlines_double : forall w s, newlines w (double_quotes s) = double_quotes (newlines w s).
Proof.
  intros w. induction s as [|x s IH]; [reflexivity|]. rewrite double_cons, newlines_cons.
  destruct (Ascii.eqb x QUOTE) eqn:Q.
  - apply Ascii.eqb_eq in Q. subst x. change (Ascii.eqb QUOTE LF) with false. rewrite !newlines_cons.
    change (Ascii.eqb QUOTE LF) with false. rewrite andb_false_r, double_cons, IH. reflexivity.
  - rewrite newlines_cons. destruct (w && Ascii.eqb x LF)%bool.
    + rewrite IH. reflexivity.
    + rewrite double_cons, Q, IH. reflexivity.
Qed.

Lemma newlines_quoted : forall w s, newlines w (quoted s) = quoted (newlines w s).
Proof.
  intros w s. unfold quoted. change (newlines w (String QUOTE (double_quotes s +++ String QUOTE ""))) with
    (if (w && false)%bool then String CR (String LF (newlines w (double_quotes s +++ String QUOTE ""))) else String QUOTE (newlines w (double_quotes s +++ String QUOTE ""))).
  rewrite andb_false_r, newlines_app, newlines_double. f_equal. f_equal. cbn. rewrite andb_false_r. reflexivity.
Qed.

Lemma newlines_cell : forall w s, newlines w (cell_text s) = cell_text (newlines w s).
Proof. intros w s. unfold cell_text. rewrite newlines_special. destruct (has_special s); [apply newlines_quoted | reflexivity]. Qed.

Lemma newlines_cells : forall w l, newlines w (cells_text l) = cells_text (map (newlines w) l).
Proof.
  intros w. induction l as [|c l IH]; [reflexivity|]. destruct l as [|d l]; [apply newlines_cell|].
  change (cells_text (c :: d :: l)) with (cell_text c +++ String COMMA (cells_text (d :: l))).
  change (cells_text (map (newlines w) (c :: d :: l))) with
    (cell_text (newlines w c) +++ String COMMA (cells_text (map (newlines w) (d :: l)))).
  rewrite newlines_app, newlines_cell, <- IH. f_equal. cbn. rewrite andb_false_r. reflexivity.
Qed.

(** The end of a line as it stands in the file. *)
Definition eol (w : bool) : string := newlines w (String CR (String LF "")).

Lemma eol_cr : forall w, exists z, eol w = String CR z /\ (z = String LF "" \/ z = String CR (String LF "")).
Proof. intros [|]; eexists; split; try reflexivity; [right | left]; reflexivity. Qed.

(** The text of the cells of a row. *)
Definition body (cells : list string) : string := match cells with [""] => quoted "" | _ => cells_text cells end.

Lemma row_text_body : forall r, row_text r = body r +++ String CR (String LF "").
Proof. intros r. unfold row_text, body. reflexivity. Qed.

Lemma newlines_empty : forall w s, newlines w s = "" -> s = "".
Proof. intros w [|x s]; [reflexivity|]. cbn. destruct (w && Ascii.eqb x LF)%bool; discriminate. Qed.

Lemma newlines_body : forall w r, newlines w (body r) = body (map (newlines w) r).
Proof.
  intros w [|c [|d r]].
  - reflexivity.
  - cbn [map]. destruct c as [|x c].
    + destruct w; reflexivity.
    + assert (E : body [newlines w (String x c)] = cells_text [newlines w (String x c)]).
      { unfold body. destruct (newlines w (String x c)) eqn:E; [|reflexivity]. apply newlines_empty in E. discriminate. }
      rewrite E. apply (newlines_cells w [String x c]).
  - assert (E : body (map (newlines w) (c :: d :: r)) = cells_text (map (newlines w) (c :: d :: r))).
    { cbn [map]. unfold body. destruct (newlines w c); reflexivity. }
    rewrite E. assert (F : body (c :: d :: r) = cells_text (c :: d :: r)) by (unfold body; destruct c; reflexivity).
    rewrite F. apply newlines_cells.
Qed.

Lemma newlines_row : forall w r, newlines w (row_text r) = body (map (newlines w) r) +++ eol w.
Proof. intros w r. rewrite row_text_body, newlines_app, newlines_body. reflexivity. Qed.

(** The text of rows as it stands in the file. *)
Fixpoint lines (w : bool) (rows : list (list string)) : string :=
  match rows with [] => "" | r :: rest => body r +++ (eol w +++ lines w rest) end.

Lemma newlines_rows : forall w rows, newlines w (rows_text rows) = lines w (map (map (newlines w)) rows).
Proof.
  intros w. induction rows as [|r rows IH]; [reflexivity|]. rewrite rows_text_cons, newlines_app, newlines_row, IH.
  cbn [map lines]. rewrite sapp_assoc. reflexivity.
Qed.

(** * Reading a cell *)

Lemma special_no : forall c, special c = false ->
  line_end c = false /\ Ascii.eqb c "," = false /\ Ascii.eqb c """" = false.
Proof.
  intros c H. unfold special in H. apply orb_false_iff in H. destruct H as [H D]. apply orb_false_iff in H. destruct H as [H C].
  apply orb_false_iff in H. destruct H as [A B]. split; [|split; [exact A | exact B]].
  unfold line_end. change (Ascii.eqb c LF || Ascii.eqb c CR = false)%bool. rewrite C, D. reflexivity.
Qed.

Lemma read_plain : forall c row cell s, has_special c = false ->
  read InCell row cell (c +++ s) = read InCell row (cell +++ c) s.
Proof.
  induction c as [|x c IH]; intros row cell s H; [rewrite sapp_nil; reflexivity|].
  cbn in H. apply orb_false_iff in H. destruct H as [A B]. apply special_no in A. destruct A as (A1 & A2 & A3).
  cbn [String.append read]. rewrite A1, A2, A3. rewrite (IH _ _ _ B). rewrite sapp_assoc. reflexivity.
Qed.

Lemma read_first : forall p x row cell s, p <> InQuotes -> p <> InCell -> p <> BehindQuote -> special x = false ->
  read p row cell (String x s) = read InCell row (cell +++ String x "") s.
Proof.
  intros p x row cell s P Q R H. apply special_no in H. destruct H as (A1 & A2 & A3).
  destruct p; try contradiction; cbn [read]; rewrite A1, A2, A3; reflexivity.
Qed.

Lemma read_quoted : forall c row cell s,
  read InQuotes row cell (double_quotes c +++ s) = read InQuotes row (cell +++ c) s.
Proof.
  induction c as [|x c IH]; intros row cell s; [rewrite sapp_nil; reflexivity|]. cbn [double_quotes].
  destruct (Ascii.eqb x QUOTE) eqn:E.
  - apply Ascii.eqb_eq in E. subst x. cbn [String.append].
    change (read InQuotes row (cell +++ String QUOTE "") (double_quotes c +++ s) = read InQuotes row (cell +++ String QUOTE c) s).
    rewrite IH, sapp_assoc. reflexivity.
  - cbn [String.append read]. change (Ascii.eqb x """") with (Ascii.eqb x QUOTE). rewrite E, IH, sapp_assoc. reflexivity.
Qed.

(** Start of a cell. *)
Definition starting (p : place) : Prop := p = LineStart \/ p = CellStart.

(** Where the reader is behind a cell. *)
Definition behind (p : place) (c : string) : place :=
  if has_special c then BehindQuote else match c with "" => p | _ => InCell end.

Lemma read_cell : forall p row c s, starting p -> read p row "" (cell_text c +++ s) = read (behind p c) row c s.
Proof.
  intros p row c s P. unfold cell_text, behind. destruct (has_special c) eqn:E.
  - unfold quoted. cbn [String.append]. rewrite sapp_assoc.
    assert (Q : read p row "" (String QUOTE (double_quotes c +++ (String QUOTE "" +++ s))) =
                read InQuotes row "" (double_quotes c +++ (String QUOTE "" +++ s))) by (destruct P as [-> | ->]; reflexivity).
    rewrite Q, read_quoted. reflexivity.
  - destruct c as [|x c]; [reflexivity|]. cbn in E. apply orb_false_iff in E. destruct E as [A B]. cbn [String.append].
    rewrite read_first; [|destruct P as [-> | ->]; discriminate .. | exact A]. cbn [String.append]. rewrite read_plain by exact B. reflexivity.
Qed.

Lemma read_comma : forall p row c s, starting p -> read (behind p c) row c (String COMMA s) = read CellStart (row ++ [c]) "" s.
Proof.
  intros p row c s P. unfold behind. destruct (has_special c); [reflexivity|]. destruct c; [destruct P as [-> | ->]; reflexivity | reflexivity].
Qed.

Lemma read_return : forall p row c s, starting p -> (p = LineStart -> c <> "") ->
  read (behind p c) row c (String CR s) = (row ++ [c]) :: read LineStart [] "" s.
Proof.
  intros p row c s P N. unfold behind. destruct (has_special c); [reflexivity|].
  destruct c; [|reflexivity]. destruct P as [-> | ->]; [exfalso; apply N; reflexivity | reflexivity].
Qed.

Lemma read_cells : forall cells p row s, starting p -> cells <> [] -> (p = LineStart -> cells <> [""]) ->
  read p row "" (cells_text cells +++ String CR s) = (row ++ cells) :: read LineStart [] "" s.
Proof.
  induction cells as [|c cells IH]; intros p row s P N F; [contradiction|]. destruct cells as [|d cells].
  - cbn [cells_text]. rewrite read_cell by exact P. apply read_return; [exact P|]. intros Q E. apply (F Q). rewrite E. reflexivity.
  - change (cells_text (c :: d :: cells)) with (cell_text c +++ String COMMA (cells_text (d :: cells))).
    rewrite sapp_assoc, read_cell by exact P. cbn [String.append]. rewrite read_comma by exact P.
    rewrite IH; [rewrite <- app_assoc; reflexivity | right; reflexivity | discriminate | discriminate].
Qed.

Lemma body_plain : forall r, r <> [""] -> body r = cells_text r.
Proof. intros [|[|x c] [|d r]] N; try reflexivity. contradiction. Qed.

Lemma read_body : forall r s, r <> [] -> read_rows (body r +++ String CR s) = r :: read_rows s.
Proof.
  intros r s N. destruct (list_eq_dec String.string_dec r [""]) as [->|D]; [reflexivity|].
  rewrite body_plain by exact D. unfold read_rows. rewrite read_cells; [reflexivity | left; reflexivity | exact N | intros _; exact D].
Qed.

Lemma read_eol : forall w r s, r <> [] -> read_rows (body r +++ (eol w +++ s)) = r :: read_rows s.
Proof.
  intros w r s N. destruct (eol_cr w) as (z & E & Z). rewrite E. cbn [String.append]. rewrite read_body by exact N. f_equal.
  destruct Z as [-> | ->]; reflexivity.
Qed.

Lemma read_lines : forall w rows s, Forall (fun r => r <> []) rows -> read_rows (lines w rows +++ s) = rows ++ read_rows s.
Proof.
  intros w rows s F. induction F as [|r rows N F IH]; [reflexivity|]. cbn [lines app]. rewrite !sapp_assoc, read_eol by exact N.
  rewrite IH. reflexivity.
Qed.

Lemma map_nonempty : forall (f : string -> string) rows, Forall (fun r => r <> []) rows -> Forall (fun r => r <> []) (map (map f) rows).
Proof. intros f rows F. induction F as [|r rows N F IH]; constructor; [destruct r; [contradiction | discriminate] | exact IH]. Qed.

Lemma read_rows_text : forall w rows s, Forall (fun r => r <> []) rows ->
  read_rows (newlines w (rows_text rows) +++ s) = map (map (newlines w)) rows ++ read_rows s.
Proof. intros w rows s F. rewrite newlines_rows. apply read_lines. apply map_nonempty, F. Qed.

(** * Texts that were cut off *)

Lemma prefix_app : forall a b q q', q +++ q' = a +++ b ->
  (exists z, z <> "" /\ q +++ z = a) \/ (exists z, q = a +++ z /\ z +++ q' = b).
Proof.
  induction a as [|x a IH]; intros b q q' H.
  - right. exists q. split; [reflexivity | exact H].
  - destruct q as [|y q]; [left; exists (String x a); split; [discriminate | reflexivity]|].
    cbn in H. injection H as -> H. destruct (IH _ _ _ H) as [(z & Z & E)|(z & E & F)].
    + left. exists z. split; [exact Z|]. cbn. rewrite E. reflexivity.
    + right. exists z. split; [cbn; rewrite E; reflexivity | exact F].
Qed.

Lemma cut_plain : forall q row cell, has_special q = false -> read InCell row cell q = [row ++ [cell +++ q]].
Proof. intros q row cell H. rewrite <- (sapp_nil q) at 1. rewrite read_plain by exact H. reflexivity. Qed.

Lemma special_prefix : forall q z, has_special (q +++ z) = false -> has_special q = false.
Proof.
  induction q as [|x q IH]; intros z H; [reflexivity|]. cbn in *. apply orb_false_iff in H. destruct H as [A B]. rewrite A, (IH _ B). reflexivity.
Qed.

Lemma cut_quoted : forall c q q' row cell, q +++ q' = double_quotes c +++ String QUOTE "" ->
  exists c', read InQuotes row cell q = [row ++ [cell +++ c']] /\ beginning c' c.
Proof.
  induction c as [|x c IH]; intros q q' row cell H.
  - exists "". split; [|exists ""; reflexivity]. rewrite sapp_nil. cbn in H. destruct q as [|y q]; [reflexivity|].
    cbn in H. injection H as -> H. destruct q as [|z q]; [reflexivity | discriminate].
  - cbn [double_quotes] in H. destruct (Ascii.eqb x QUOTE) eqn:E.
    + apply Ascii.eqb_eq in E. subst x. destruct q as [|y q].
      { exists "". split; [rewrite sapp_nil; reflexivity|]. exists (String QUOTE c). reflexivity. }
      cbn in H. injection H as -> H. destruct q as [|z q].
      { exists "". split; [rewrite sapp_nil; reflexivity|]. exists (String QUOTE c). reflexivity. }
      cbn in H. injection H as -> H. destruct (IH q q' row (cell +++ String QUOTE "") H) as (c' & R & (e & B)).
      exists (String QUOTE c'). split; [|exists e; cbn; rewrite B; reflexivity].
      change (read InQuotes row cell (String QUOTE (String QUOTE q))) with (read InQuotes row (cell +++ String QUOTE "") q).
      rewrite R, sapp_assoc. reflexivity.
    + destruct q as [|y q].
      { exists "". split; [rewrite sapp_nil; reflexivity|]. exists (String x c). reflexivity. }
      cbn in H. injection H as -> H. destruct (IH q q' row (cell +++ String x "") H) as (c' & R & (e & B)).
      exists (String x c'). split; [|exists e; cbn; rewrite B; reflexivity].
      cbn [read]. change (Ascii.eqb x """") with (Ascii.eqb x QUOTE). rewrite E, R, sapp_assoc. reflexivity.
Qed.

Lemma cut_cell : forall p row c q q', starting p -> q +++ q' = cell_text c ->
  (p = LineStart /\ q = "") \/ exists c', read p row "" q = [row ++ [c']] /\ beginning c' c.
Proof.
  intros p row c q q' P H. unfold cell_text in H. destruct q as [|x q].
  { destruct P as [-> | ->]; [left; split; reflexivity|]. right. exists "". split; [reflexivity|]. exists c. reflexivity. }
  right. destruct (has_special c) eqn:E.
  - unfold quoted in H. cbn in H. injection H as -> H. destruct (cut_quoted _ _ _ row "" H) as (c' & R & B).
    exists c'. split; [|exact B]. destruct P as [-> | ->]; exact R.
  - exists (String x q). split; [|exists q'; symmetry; exact H]. rewrite <- H in E.
    apply special_prefix in E. cbn in E. apply orb_false_iff in E. destruct E as [A B].
    rewrite read_first; [|destruct P as [-> | ->]; discriminate .. | exact A]. rewrite cut_plain by exact B. reflexivity.
Qed.

Lemma cut_cells : forall cells p row q q', starting p -> cells <> [] -> q +++ q' = cells_text cells ->
  (p = LineStart /\ q = "") \/ exists r', read p row "" q = [row ++ r'] /\ torn cells r'.
Proof.
  induction cells as [|c cells IH]; intros p row q q' P N H; [contradiction|]. destruct cells as [|d cells].
  - destruct (cut_cell p row c q q' P H) as [L|(c' & R & B)]; [left; exact L|]. right. exists [c']. split; [exact R|].
    exists 0, c. split; [reflexivity|]. exists c'. split; [reflexivity | exact B].
  - change (cells_text (c :: d :: cells)) with (cell_text c +++ String COMMA (cells_text (d :: cells))) in H.
    destruct (prefix_app _ _ _ _ H) as [(z & Z & E)|(z & E & F)].
    + destruct (cut_cell p row c q z P E) as [L|(c' & R & B)]; [left; exact L|]. right. exists [c']. split; [exact R|].
      exists 0, c. split; [reflexivity|]. exists c'. split; [reflexivity | exact B].
    + subst q. destruct z as [|y z].
      * destruct (cut_cell p row c (cell_text c +++ "") "" P) as [L|(c' & R & B)]; [rewrite !sapp_nil; reflexivity | left; exact L |].
        right. exists [c']. split; [exact R|]. exists 0, c. split; [reflexivity|]. exists c'. split; [reflexivity | exact B].
      * rewrite read_cell by exact P. cbn in F. injection F as -> F. rewrite read_comma by exact P.
        destruct (IH CellStart (row ++ [c]) z q' (or_intror eq_refl) ltac:(discriminate) F) as [[L _]|(r' & R & (k & e & K & c' & E & B))]; [discriminate|].
        right. exists (c :: r'). split; [rewrite R, <- app_assoc; reflexivity|].
        exists (S k), e. split; [exact K|]. exists c'. split; [|exact B]. rewrite E. reflexivity.
Qed.

Lemma torn_refl : forall r, r <> [] -> torn r r.
Proof.
  intros r N. destruct (exists_last N) as (i & c & ->). exists (length i), c. split.
  - rewrite nth_error_app2 by lia. rewrite Nat.sub_diag. reflexivity.
  - exists c. split; [|exists ""; rewrite sapp_nil; reflexivity].
    rewrite firstn_app, Nat.sub_diag, firstn_all. cbn. rewrite app_nil_r. reflexivity.
Qed.

Lemma cut_body : forall r q q', r <> [] -> q +++ q' = body r ->
  read_rows q = [] \/ exists r', read_rows q = [r'] /\ torn r r'.
Proof.
  intros r q q' N H. destruct (list_eq_dec String.string_dec r [""]) as [->|D].
  - cbn in H. destruct q as [|x q]; [left; reflexivity|]. right. exists [""].
    split; [|apply torn_refl; discriminate]. cbn in H. injection H as -> H. destruct q as [|y q]; [reflexivity|].
    cbn in H. injection H as -> H. destruct q; [reflexivity | discriminate].
  - rewrite body_plain in H by exact D.
    destruct (cut_cells r LineStart [] q q' (or_introl eq_refl) N H) as [[_ ->]|(r' & R & T)]; [left; reflexivity|].
    right. exists r'. split; [exact R | exact T].
Qed.

Lemma cut_row : forall w r rest q q', r <> [] -> q +++ q' = body r +++ (eol w +++ rest) ->
  (exists z, q = (body r +++ eol w) +++ z /\ z +++ q' = rest) \/
  (String.length q < String.length (body r +++ eol w) /\
   (read_rows q = [] \/ exists r', read_rows q = [r'] /\ torn r r')).
Proof.
  intros w r rest q q' N H. destruct (prefix_app _ _ _ _ H) as [(z & Z & E)|(z & E & F)].
  - right. split.
    + rewrite <- E, !sapp_length. destruct z; [contradiction|]. cbn. lia.
    + apply (cut_body r q z N E).
  - destruct (prefix_app _ _ _ _ F) as [(y & Y & G)|(y & G & K)].
    + right. split.
      * rewrite E, sapp_length, sapp_length, <- G, sapp_length. destruct y; [contradiction|]. cbn. lia.
      * destruct (eol_cr w) as (u & U & V). rewrite U in G. subst q. destruct z as [|x z].
        { apply (cut_body r _ ""); [exact N|]. rewrite !sapp_nil. reflexivity. }
        cbn in G. injection G as -> G. rewrite read_body by exact N. right. exists r. split; [|apply torn_refl, N].
        f_equal. destruct V as [-> | ->]; destruct z as [|a z]; try reflexivity; cbn in G; injection G as -> G.
        -- destruct z as [|b z]; [|discriminate]. reflexivity.
        -- destruct z as [|b z]; [reflexivity|]. cbn in G. injection G as -> G. destruct z; [reflexivity | discriminate].
    + left. exists y. split; [rewrite E, G, sapp_assoc; reflexivity | exact K].
Qed.

Lemma cut_lines : forall w rows q q', Forall (fun r => r <> []) rows -> q +++ q' = lines w rows ->
  exists k, k <= length rows /\ String.length (lines w (firstn k rows)) <= String.length q /\
    (k < length rows -> String.length q < String.length (lines w (firstn (S k) rows))) /\
    (read_rows q = firstn k rows \/
     exists r r', nth_error rows k = Some r /\ torn r r' /\ read_rows q = firstn k rows ++ [r']).
Proof.
  intros w rows q q' F. revert q q'. induction F as [|r rows N F IH]; intros q q' H.
  - exists 0. cbn in *. split; [lia|]. split; [lia|]. split; [lia|]. left. destruct q; [reflexivity | discriminate].
  - cbn [lines] in H. destruct (cut_row _ _ _ _ _ N H) as [(z & E & G)|(L & R)].
    + destruct (IH _ _ G) as (k & K & A & B & C). exists (S k).
      change (firstn (S (S k)) (r :: rows)) with (r :: firstn (S k) rows). change (firstn (S k) (r :: rows)) with (r :: firstn k rows).
      change (length (r :: rows)) with (S (length rows)). change (lines w (r :: firstn k rows)) with (body r +++ (eol w +++ lines w (firstn k rows))).
      change (lines w (r :: firstn (S k) rows)) with (body r +++ (eol w +++ lines w (firstn (S k) rows))).
      split; [lia|]. split; [rewrite E, !sapp_length; lia|].
      split; [intros Lt; rewrite E, !sapp_length; specialize (B ltac:(lia)); lia|].
      assert (RR : read_rows q = r :: read_rows z) by (rewrite E, sapp_assoc; apply read_eol, N).
      rewrite RR. destruct C as [C|(s & r' & S1 & T & C)]; rewrite C.
      * left. reflexivity.
      * right. exists s, r'. split; [exact S1|]. split; [exact T | reflexivity].
    + exists 0. split; [lia|]. split; [cbn; lia|]. split.
      { intros _. change (lines w (firstn 1 (r :: rows))) with (body r +++ (eol w +++ "")). rewrite !sapp_length in *. lia. }
      destruct R as [R|(r' & R & T)]; [left; exact R|]. right. exists r, r'. split; [reflexivity|]. split; [exact T | exact R].
Qed.

Lemma substring_split : forall n s, exists q', String.substring 0 n s +++ q' = s /\ String.length (String.substring 0 n s) = Nat.min n (String.length s).
Proof.
  induction n as [|n IH]; intros [|x s].
  - exists "". split; reflexivity.
  - exists (String x s). split; reflexivity.
  - exists "". split; reflexivity.
  - destruct (IH s) as (q' & E & L). exists q'. cbn. rewrite E, L. split; reflexivity.
Qed.

Lemma substring_all : forall a b, String.substring 0 (String.length a) (a +++ b) = a.
Proof. induction a as [|x a IH]; intros b; cbn; [destruct b; reflexivity|]. rewrite IH. reflexivity. Qed.

(** * Rows that fit *)

Lemma fit_exact : forall l, fit (length l) l = Some l.
Proof. induction l as [|c l IH]; [reflexivity|]. cbn. rewrite IH. reflexivity. Qed.

Lemma frame_rows_exact : forall n rows, Forall (fun r => length r = S n) rows ->
  frame_rows n rows = Ok (map (fun r => (hd "" r, tl r)) rows).
Proof.
  intros n rows F. induction F as [|r rows L F IH]; [reflexivity|]. destruct r as [|c r]; [discriminate|].
  cbn in L. injection L as L. cbn [frame_rows map hd tl]. rewrite <- L. cbn [fit]. rewrite fit_exact. cbn [option_map].
  rewrite L, IH. reflexivity.
Qed.

Lemma load_exact : forall a b c d data n, length a = S n -> length b = S n -> length c = S n -> length d = S n ->
  Forall (fun r => length r = S n) data ->
  load_as_dataframe (a :: b :: c :: d :: data) =
    Ok (mk_frame (column_names [a; b; c; d] n) (map (hd "") data) (map (@tl string) data)).
Proof.
  intros a b c d data n A B C D F. unfold load_as_dataframe. rewrite A, B, C, D, !Nat.eqb_refl. cbn [andb Nat.leb].
  replace (S n - 1) with n by lia. rewrite (frame_rows_exact n data F). cbn [bind]. rewrite !map_map. reflexivity.
Qed.

(** * Rows in pieces *)

Fixpoint commas (l : list string) : string :=
  match l with [] => "" | c :: rest => cell_text c +++ String COMMA (commas rest) end.

Lemma cells_commas : forall l c, cells_text (l ++ [c]) = commas l +++ cell_text c.
Proof.
  induction l as [|d l IH]; intros c; [reflexivity|]. cbn [app commas]. destruct (l ++ [c]) as [|e m] eqn:E; [destruct l; discriminate|].
  change (cells_text (d :: e :: m)) with (cell_text d +++ String COMMA (cells_text (e :: m))). rewrite <- E, IH, sapp_assoc. reflexivity.
Qed.

Lemma read_commas : forall l p row s, starting p -> exists p', starting p' /\
  read p row "" (commas l +++ s) = read p' (row ++ l) "" s.
Proof.
  induction l as [|c l IH]; intros p row s P.
  - exists p. split; [exact P|]. rewrite app_nil_r. reflexivity.
  - cbn [commas]. destruct (IH CellStart (row ++ [c]) s (or_intror eq_refl)) as (p' & P' & E). exists p'. split; [exact P'|].
    rewrite sapp_assoc, read_cell by exact P. cbn [String.append]. rewrite read_comma by exact P. rewrite E, <- app_assoc. reflexivity.
Qed.

Lemma simple_special : forall s, simple s = true -> has_special s = false.
Proof.
  induction s as [|x s IH]; [reflexivity|]. cbn [simple has_special]. intros H. apply andb_prop in H. destruct H as [A B].
  rewrite (IH B), orb_false_r. apply negb_true_iff in A. unfold line_end in A. unfold special.
  change (Ascii.eqb x COMMA || Ascii.eqb x QUOTE || (Ascii.eqb x LF || Ascii.eqb x CR) = false)%bool in A.
  destruct (Ascii.eqb x COMMA), (Ascii.eqb x QUOTE), (Ascii.eqb x LF), (Ascii.eqb x CR); cbn in *; congruence.
Qed.

Lemma simple_app : forall a b, simple (a +++ b) = (simple a && simple b)%bool.
Proof. induction a as [|x a IH]; intros b; [reflexivity|]. cbn. rewrite IH, andb_assoc. reflexivity. Qed.

Lemma simple_cell : forall s, simple s = true -> cell_text s = s.
Proof. intros s H. unfold cell_text. rewrite simple_special by exact H. reflexivity. Qed.

Lemma simple_one_line : forall s, simple s = true -> one_line s = true.
Proof.
  induction s as [|x s IH]; [reflexivity|]. cbn [simple one_line]. intros H. apply andb_prop in H. destruct H as [A B].
  rewrite (IH B), andb_true_r. unfold line_end in A. destruct (Ascii.eqb x "010"); [|reflexivity].
  destruct (Ascii.eqb x ","), (Ascii.eqb x """"); discriminate.
Qed.

(** A simple cell in two parts. *)
Lemma read_parts : forall p row a s, starting p -> a <> "" -> simple a = true -> read p row "" (a +++ s) = read InCell row a s.
Proof.
  intros p row a s P N H. apply simple_special in H. destruct a as [|x a]; [contradiction|]. cbn [has_special] in H.
  apply orb_false_iff in H. destruct H as [A B]. cbn [String.append].
  rewrite read_first; [|destruct P as [-> | ->]; discriminate .. | exact A]. rewrite read_plain by exact B. reflexivity.
Qed.

Lemma read_in_cell : forall row a cells s, cells <> [] -> simple (hd "" cells) = true ->
  read InCell row a (cells_text cells +++ String CR s) = (row ++ (a +++ hd "" cells) :: tl cells) :: read_rows s.
Proof.
  intros row a [|c cells] s N H; [contradiction|]. cbn [hd tl] in *. destruct cells as [|d cells].
  - cbn [cells_text]. rewrite simple_cell by exact H. rewrite read_plain by (apply simple_special, H). reflexivity.
  - change (cells_text (c :: d :: cells)) with (cell_text c +++ String COMMA (cells_text (d :: cells))).
    rewrite simple_cell by exact H. rewrite sapp_assoc, read_plain by (apply simple_special, H). cbn [String.append].
    change (read InCell row (a +++ c) (String COMMA (cells_text (d :: cells) +++ String CR s))) with
      (read CellStart (row ++ [a +++ c]) "" (cells_text (d :: cells) +++ String CR s)).
    rewrite read_cells; [rewrite <- app_assoc; reflexivity | right; reflexivity | discriminate | discriminate].
Qed.

Lemma lines_app : forall w a b, lines w (a ++ b) = lines w a +++ lines w b.
Proof. intros w. induction a as [|r a IH]; intros b; [reflexivity|]. cbn [app lines]. rewrite IH, !sapp_assoc. reflexivity. Qed.

Lemma lines_firstn : forall w rows j, String.length (lines w (firstn j rows)) <= String.length (lines w rows).
Proof.
  intros w rows j. rewrite <- (firstn_skipn j rows) at 2. rewrite lines_app, sapp_length. lia.
Qed.

Lemma lines_firstn_le : forall w rows i j, i <= j -> String.length (lines w (firstn i rows)) <= String.length (lines w (firstn j rows)).
Proof.
  intros w rows i j L. replace (firstn i rows) with (firstn i (firstn j rows)); [apply lines_firstn|].
  rewrite firstn_firstn, Nat.min_l by exact L. reflexivity.
Qed.
