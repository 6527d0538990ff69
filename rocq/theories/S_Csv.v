(** Specification: what a reader of CSV files finds in a text. *)
From Coq Require Import String Ascii List Bool Arith.
Import ListNotations.
Local Open Scope string_scope.

(** A line ends with a carriage return, a line feed or both. *)
Definition line_end (c : ascii) : bool := Ascii.eqb c "010" || Ascii.eqb c "013".

(** Where the reader is: at the start of a line, at the start of a later cell,
    inside a cell, inside quotes, behind a quote inside quotes. *)
Inductive place := LineStart | CellStart | InCell | InQuotes | BehindQuote.

(** The rows of a text.  [row] and [cell] are what was read of the current line.
    Blank lines are skipped, a pair of quotes inside quotes is one quote, commas and
    line ends inside quotes belong to the cell.  The last line need not end. *)
Fixpoint read (p : place) (row : list string) (cell : string) (s : string) : list (list string) :=
  match s with
  | EmptyString => match p with LineStart => [] | _ => [(row ++ [cell])%list] end
  | String c r =>
      match p with
      | InQuotes =>
          if Ascii.eqb c """" then read BehindQuote row cell r
          else read InQuotes row (cell ++ String c "") r
      | _ =>
          if line_end c then
            match p with LineStart => read LineStart [] "" r | _ => (row ++ [cell])%list :: read LineStart [] "" r end
          else if Ascii.eqb c "," then read CellStart (row ++ [cell])%list "" r
          else if Ascii.eqb c """" then
            match p with
            | LineStart | CellStart => read InQuotes row cell r
            | BehindQuote => read InQuotes row (cell ++ String c "") r
            | _ => read InCell row (cell ++ String c "") r
            end
          else read InCell row (cell ++ String c "") r
      end
  end.

(** The rows of a file. *)
Definition read_rows (s : string) : list (list string) := read LineStart [] "" s.

(** [c] is the beginning of [d]. *)
Definition beginning (c d : string) : Prop := exists e, d = c ++ e.

(** A row cut off somewhere: some complete cells, then the beginning of one. *)
Definition torn (r r' : list string) : Prop :=
  exists k c, nth_error r k = Some c /\ exists c', r' = (firstn k r ++ [c'])%list /\ beginning c' c.

(** A cell without line feed. *)
Fixpoint one_line (s : string) : bool :=
  match s with EmptyString => true | String c r => negb (Ascii.eqb c "010") && one_line r end.

(** Every line feed preceded by a carriage return. *)
Fixpoint crlf (s : string) : string :=
  match s with
  | EmptyString => EmptyString
  | String c r => if Ascii.eqb c "010" then String "013" (String "010" (crlf r)) else String c (crlf r)
  end.

(** How often a character stands in a text. *)
Fixpoint count (x : ascii) (s : string) : nat :=
  match s with EmptyString => 0 | String c r => (if Ascii.eqb c x then 1 else 0) + count x r end.

(** Cells without comma, quote and line end. *)
Fixpoint simple (s : string) : bool :=
  match s with
  | EmptyString => true
  | String c r => negb (Ascii.eqb c "," || Ascii.eqb c """" || line_end c) && simple r
  end.
