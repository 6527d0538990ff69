(** The text of the CSV files of the sensor stream (dream/io.py:559-600, 614-645):
    the writer of Python's module csv, the text file below it, the modes of
    opening, and what [load_as_dataframe] makes of the rows. *)
From Coq Require Import String Ascii List Bool Arith QArith.
From Verif Require Import Base Dict M_Timer M_Run M_IO M_Header.
Import ListNotations.
Local Open Scope string_scope.
Local Open Scope nat_scope.

(** ** The writer *)

(** Line feed and carriage return, the characters of [lineterminator = '\r\n'] of
    the dialect 'excel' (Python, module csv; used in dream/io.py:594). *)
Definition LF : ascii := "010"%char.
(** Carriage return (Python, module csv; used in dream/io.py:594). *)
Definition CR : ascii := "013"%char.
(** [delimiter] of the dialect 'excel' (Python, module csv; used in dream/io.py:594). *)
Definition COMMA : ascii := ","%char.
(** [quotechar] of the dialect 'excel' (Python, module csv; used in dream/io.py:594). *)
Definition QUOTE : ascii := """"%char.

(** Characters that make the writer quote a cell: [QUOTE_MINIMAL] (Python, module
    csv; used in dream/io.py:594). *)
Definition special (c : ascii) : bool :=
  Ascii.eqb c COMMA || Ascii.eqb c QUOTE || Ascii.eqb c CR || Ascii.eqb c LF.

(** Does a cell contain such a character (Python, module csv; used in dream/io.py:594)? *)
Fixpoint has_special (s : string) : bool :=
  match s with
  | EmptyString => false
  | String c r => special c || has_special r
  end.

(** [doublequote = True] (Python, module csv; used in dream/io.py:594). *)
Fixpoint double_quotes (s : string) : string :=
  match s with
  | EmptyString => EmptyString
  | String c r => if Ascii.eqb c QUOTE then String QUOTE (String QUOTE (double_quotes r)) else String c (double_quotes r)
  end.

(** One cell (Python, module csv; used in dream/io.py:594). *)
Definition quoted (s : string) : string := String QUOTE (double_quotes s ++ String QUOTE EmptyString).
(** One cell, quoted where necessary (Python, module csv; used in dream/io.py:594). *)
Definition cell_text (s : string) : string := if has_special s then quoted s else s.

(** The cells of a row with commas between (Python, module csv; used in dream/io.py:594). *)
Fixpoint cells_text (cells : list string) : string :=
  match cells with
  | [] => EmptyString
  | [c] => cell_text c
  | c :: rest => cell_text c ++ String COMMA (cells_text rest)
  end.

(** [writer.writerow(cells)] (dream/io.py:598, 622, 628, 634, 637); a single empty
    cell is quoted lest the line be blank (Python, module csv).  Returns the text
    handed to [file.write]. *)
Definition row_text (cells : list string) : string :=
  (match cells with
   | [""] => quoted ""
   | _ => cells_text cells
   end) ++ String CR (String LF EmptyString).

(** Several rows (dream/io.py:597-598, 614-637). *)
Definition rows_text (rows : list (list string)) : string := String.concat EmptyString (map row_text rows).

(** ** The text file *)

(** A text file opened without argument [newline]: every line feed is written as
    [os.linesep] (Python; dream/io.py:593).  The platform decides: [windows]. *)
Fixpoint newlines (windows : bool) (s : string) : string :=
  match s with
  | EmptyString => EmptyString
  | String c r => if (windows && Ascii.eqb c LF)%bool then String CR (String LF (newlines windows r))
                  else String c (newlines windows r)
  end.

(** The action named by a mode (Python, [open]; dream/io.py:593). *)
Inductive action := Read | Write | Append | Exclusive.

(** The parts of a mode (Python, [open]; dream/io.py:593). *)
Record open_mode := mk_mode { act : action; plus : bool; binary : bool; text : bool }.

(** The characters of a mode (Python, [open]; dream/io.py:593): no other character,
    none twice. *)
Fixpoint mode_chars (s : string) (acts : list action) (p b t : bool) : option (list action * bool * bool * bool) :=
  match s with
  | EmptyString => Some (acts, p, b, t)
  | String c r =>
      if Ascii.eqb c "r" then mode_chars r (acts ++ [Read]) p b t
      else if Ascii.eqb c "w" then mode_chars r (acts ++ [Write]) p b t
      else if Ascii.eqb c "a" then mode_chars r (acts ++ [Append]) p b t
      else if Ascii.eqb c "x" then mode_chars r (acts ++ [Exclusive]) p b t
      else if Ascii.eqb c "+" then if p then None else mode_chars r acts true b t
      else if Ascii.eqb c "b" then if b then None else mode_chars r acts p true t
      else if Ascii.eqb c "t" then if t then None else mode_chars r acts p b true
      else None
  end.

(** [open(mode)]: exactly one action, not both binary and text (Python;
    dream/io.py:593); anything else is [ValueError]. *)
Definition parse_mode (s : string) : result open_mode :=
  match mode_chars s [] false false false with
  | Some ([a], p, b, t) => if b && t then Err ValueError else Ok (mk_mode a p b t)
  | _ => Err ValueError
  end.

(** The content a file has after opening; [None] is a file that does not exist
    (operating system; dream/io.py:593). *)
Definition opened (m : open_mode) (old : option string) : result string :=
  match act m, old with
  | Write, _ => Ok EmptyString
  | Append, None => Ok EmptyString
  | Append, Some c => Ok c
  | Exclusive, None => Ok EmptyString
  | Exclusive, Some _ => Err FileExistsError
  | Read, Some c => Ok c
  | Read, None => Err FileNotFoundError
  end.

(** [s] without its first [n] characters (the bytes a write replaces; dream/io.py:593). *)
Fixpoint drop (n : nat) (s : string) : string :=
  match n, s with
  | O, _ => s
  | S _, EmptyString => EmptyString
  | S n', String _ r => drop n' r
  end.

(** [file.write] of a text string through the handle, everything since opening
    taken together (Python; dream/io.py:598, 614-637): reading handles refuse,
    binary handles do not take text, 'r+' overwrites from the start, 'a' goes to
    the end. *)
Definition written (windows : bool) (m : open_mode) (content new : string) : result string :=
  match new with
  | EmptyString => Ok content
  | _ =>
      let bytes := newlines windows new in
      if binary m then Err (match act m, plus m with Read, false => UnsupportedOperation | _, _ => TypeError end) else
      match act m with
      | Read => if plus m then Ok (bytes ++ drop (String.length bytes) content) else Err UnsupportedOperation
      | _ => Ok (content ++ bytes)
      end
  end.

(** ** A run *)

(** One run as far as one sensor's file goes (dream/io.py:588-600, 614-637): the
    mode, the rows of the header and the rows of the data, as text cells. *)
Record csv_run := mk_csv_run { run_mode : string; run_header : list (list string); run_rows : list (list string) }.

(** What the run hands to its writer: the header only if the mode is "w"
    (dream/io.py:596-598). *)
Definition run_text (r : csv_run) : string :=
  rows_text ((if String.eqb (run_mode r) "w" then run_header r else []) ++ run_rows r).

(** The file after a run (dream/io.py:593-600, 614-637, 651-655). *)
Definition csv_after (windows : bool) (old : option string) (r : csv_run) : result string :=
  let* m := parse_mode (run_mode r) in
  let* c := opened m old in
  written windows m c (run_text r).

(** The file after a run that was killed: of the text handed over only the first
    [n] bytes have left the buffers (dream/io.py:593; no [flush] anywhere). *)
Definition csv_killed (windows : bool) (old : option string) (r : csv_run) (n : nat) : result string :=
  let* m := parse_mode (run_mode r) in
  let* c := opened m old in
  let bytes := newlines windows (run_text r) in
  written false m c (String.substring 0 n bytes).

(** Several runs one after the other (dream/io.py:593). *)
Fixpoint csv_history (windows : bool) (old : option string) (rs : list csv_run) : result (option string) :=
  match rs with
  | [] => Ok old
  | r :: rest => let* c := csv_after windows old r in csv_history windows (Some c) rest
  end.

(** ** The cells of a sensor *)

Section Cells.
(** Location: a region or a point; measured values. *)
Context {Loc Val : Type}.
(** [str] of locations, numbers and times, which the writer applies to cells that
    are not strings (Python, module csv). *)
Variable str_loc : Loc -> string.
(** [str] of measured values (Python). *)
Variable str_val : Val -> string.
(** [str] of the time (Python). *)
Variable str_time : Q -> string.
(** [str] of a component number (Python). *)
Variable str_nat : nat -> string.

(** A component label as a cell (dream/io.py:598, 709-719). *)
Definition component_text (c : component) : string :=
  match c with CName s => s | CNum n => str_nat n end.

(** The rows of the header (dream/io.py:597-598, 602-612): [key] is "region" or "point" (lines 740, 850). *)
Definition header_rows (key : string) (h : list Loc * list string * list component * option nat) : list (list string) :=
  let '(l, f, c, t) := h in
  [key :: map str_loc l; "field" :: f; "component" :: map component_text c] ++
  match t with None => [] | Some n => ["t" :: repeat " " n] end.

(** A row of data (dream/io.py:616-637). *)
Definition row_cells (r : option Q * list Val) : list string :=
  match fst r with
  | Some t => str_time t :: map str_val (snd r)
  | None => map str_val (snd r)
  end.

End Cells.

(** ** Reading *)

(** A data frame: names of the columns (one entry per header row), index and cells (dream/io.py:639-645). *)
Record frame := mk_frame { fr_columns : list (list string); fr_index : list string; fr_cells : list (list string) }.

(** [n] cells, missing ones filled with NaN, here the empty cell (pandas; dream/io.py:639-645). *)
Fixpoint fit (n : nat) (cells : list string) : option (list string) :=
  match n, cells with
  | O, [] => Some []
  | O, _ :: _ => None
  | S n', [] => option_map (cons "") (fit n' [])
  | S n', c :: rest => option_map (cons c) (fit n' rest)
  end.

(** The data rows, each cut into index and cells (pandas; dream/io.py:639-645). *)
Fixpoint frame_rows (n : nat) (rows : list (list string)) : result (list (string * list string)) :=
  match rows with
  | [] => Ok []
  | r :: rest =>
      match fit (S n) r with
      | Some (i :: cells) => let* l := frame_rows n rest in Ok ((i, cells) :: l)
      | _ => Err ValueError
      end
  end.

(** Column names: the [k]-th cells of the header rows (pandas; dream/io.py:639-645). *)
Definition column_names (header : list (list string)) (n : nat) : list (list string) :=
  map (fun k => map (fun r => nth k r "") header) (seq 1 n).

(** [load_as_dataframe] with its default arguments [header=[0, 1, 2, 3]] and
    [index_col=[0]] (dream/io.py:639-645) on the rows a reader finds in the file:
    four header rows of equal length, then data; fewer rows or rows with more
    cells than the header are errors ([ParserError] is a [ValueError]).  pandas
    also converts the cells to numbers, which is not modelled. *)
Definition load_as_dataframe (rows : list (list string)) : result frame :=
  match rows with
  | a :: b :: c :: d :: data =>
      let n := length a in
      if (length b =? n) && (length c =? n) && (length d =? n) && (1 <=? n) then
        let* l := frame_rows (n - 1) data in
        Ok (mk_frame (column_names [a; b; c; d] (n - 1)) (map fst l) (map snd l))
      else Err ValueError
  | _ => Err ValueError
  end.
