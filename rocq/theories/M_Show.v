(** Model of what VTK snapshots contain (dream/io.py:292-333), of drawn scenes (dream/io.py:890-905) and of the
    documentation of a solver (dream/solver.py:425-433, dream/io.py:235-250). *)
From Coq Require Import String Ascii List Bool Arith.
From Verif Require Import Base Dict M_Conditions M_Run.
Import ListNotations.
Local Open Scope string_scope.
Local Open Scope list_scope.
Local Open Scope nat_scope.

(** ** VTK snapshots *)

(** The options [region] and [fields] of the stream (dream/io.py:296-304): fields by name, coefficient functions as
    numbers. *)
Record vtk_options := mk_vtk_options { v_region : option string; v_fields : dict nat }.
(** The attributes [drawelems], a bit array or [None], and [writer] with its names and coefficients
    (dream/io.py:318-326); [drawelems] is not read before [writer]. *)
Record vtk_stream := mk_vtk_stream { v_options : vtk_options; v_drawelems : option (list bool); v_writer : option (list string * list nat) }.
(** A new stream (dream/io.py:280-304). *)
Definition vtk_new : vtk_stream := mk_vtk_stream (mk_vtk_options None []) None None.

(** [drawelems[nr] = True] (NGSolve [BitArray], called in dream/io.py:323). *)
Fixpoint set_bit (nr : nat) (b : list bool) : list bool :=
  match b, nr with
  | [], _ => []
  | _ :: b, 0 => true :: b
  | x :: b, S nr => x :: set_bit nr b
  end.
(** [mesh.Materials(region).Elements()] (NGSolve, called in dream/io.py:322): the numbers of the elements whose material
    is named; [mats] holds the material of every element, names are separated by bars. *)
Definition elements_of (mats : list string) (region : string) : list nat :=
  filter (fun nr => existsb (String.eqb (nth nr mats "")) (split_bar region)) (seq 0 (length mats)).
(** The loop over these elements on a cleared array of [mesh.ne] bits (dream/io.py:320-323). *)
Definition draw_elements (mats : list string) (region : string) : list bool :=
  fold_left (fun b nr => set_bit nr b) (elements_of mats region) (repeat false (length mats)).

(** [VTKStream.open] (dream/io.py:313-328). *)
Definition vtk_open (mats : list string) (s : vtk_stream) : vtk_stream * option exn :=
  match v_fields (v_options s) with
  | [] => (s, Some ValueError)
  | fs =>
      let drawelems := match v_region (v_options s) with None => None | Some r => Some (draw_elements mats r) end in
      (mk_vtk_stream (v_options s) drawelems (Some (map fst fs, map snd fs)), None)
  end.
(** [VTKStream.close] (dream/io.py:345-346): deletes the attribute [writer]. *)
Definition vtk_close (s : vtk_stream) : vtk_stream * option exn :=
  match v_writer s with
  | None => (s, Some AttributeError)
  | Some _ => (mk_vtk_stream (v_options s) (v_drawelems s) None, None)
  end.

(** A snapshot: the elements written, the names and the coefficient functions (NGSolve [VTKOutput.Do]). *)
Record snapshot := mk_snapshot { sn_elements : list nat; sn_names : list string; sn_values : list nat }.
(** [writer.Do(t, drawelems=...)] (dream/io.py:333, 337, 341, 343; NGSolve skips elements whose bit is not set). *)
Definition vtk_do (mats : list string) (s : vtk_stream) : result snapshot :=
  match v_writer s with
  | None => Err AttributeError
  | Some (names, values) =>
      let drawn nr := match v_drawelems s with None => true | Some b => nth nr b false end in
      Ok (mk_snapshot (filter drawn (seq 0 (length mats))) names values)
  end.

(** What a user or a run does with the stream: set an option, open, close, and write; exceptions are caught by the caller
    (dream/io.py:296-346).  Assigning no fields stores none (300-304). *)
Inductive vtk_op := VRegion (r : option string) | VFields (f : dict nat) | VOpen | VClose | VWrite.
(** One of these steps (dream/io.py:296-346). *)
Definition vtk_step (mats : list string) (s : vtk_stream) (o : vtk_op) : vtk_stream :=
  match o with
  | VRegion r => mk_vtk_stream (mk_vtk_options r (v_fields (v_options s))) (v_drawelems s) (v_writer s)
  | VFields f => mk_vtk_stream (mk_vtk_options (v_region (v_options s)) f) (v_drawelems s) (v_writer s)
  | VOpen => fst (vtk_open mats s)
  | VClose => fst (vtk_close s)
  | VWrite => s
  end.
(** A sequence of steps (dream/io.py:296-346). *)
Definition vtk_run (mats : list string) (l : list vtk_op) (s : vtk_stream) : vtk_stream := fold_left (vtk_step mats) l s.

(** ** Scenes *)

(** The attribute [scenes], if it exists (dream/io.py:896): [Draw] of NGSolve returns a scene in notebooks and [None]
    elsewhere. *)
Definition scenes := option (list (option nat)).
(** What redrawing does: [scene.Redraw()] and [ngs.Redraw(blocking)] (dream/io.py:904-905). *)
Inductive show_event := ERefresh (scene : nat) | EGlobal (blocking : bool).
(** The list of the results of [Draw], one per field, or the first exception (dream/io.py:896). *)
Fixpoint draw_all (l : list (result (option nat))) : result (list (option nat)) :=
  match l with
  | [] => Ok []
  | r :: l => let* s := r in let* rest := draw_all l in Ok (s :: rest)
  end.
(** [IOConfiguration.draw] (dream/io.py:890-896); the argument holds what [Draw] gives for every field. *)
Definition draw (l : list (result (option nat))) (s : scenes) : scenes * option exn :=
  match draw_all l with Ok new => (Some new, None) | Err e => (s, Some e) end.
(** [IOConfiguration.redraw] (dream/io.py:898-905). *)
Definition redraw (s : scenes) (blocking : bool) : list show_event :=
  match s with
  | None => []
  | Some l => flat_map (fun x => match x with Some scene => [ERefresh scene] | None => [] end) l ++ [EGlobal blocking]
  end.
(** Calls of [draw] one after the other; exceptions are caught by the caller (dream/io.py:890-896). *)
Definition draws (calls : list (list (result (option nat)))) (s : scenes) : scenes := fold_left (fun s l => fst (draw l s)) calls s.
(** What one event of a run shows (dream/time.py:323, 380, 387). *)
Definition show_handler (s : scenes) (e : run_event) : list show_event := match e with RRedraw => redraw s false | _ => [] end.

(** ** Documentation *)

(** A line break (Python). *)
Definition newline : ascii := ascii_of_nat 10.
(** ["\n".join(l)] for strings (Python built-in). *)
Definition join_lines (l : list string) : string := String.concat (String newline "") l.
(** A member of a sequence: a string or something else (Python). *)
Inductive doc_line := Line (s : string) | NoLine.
(** Arguments of [set_solver_documentation] (dream/solver.py:425-431). *)
Inductive doc_value := DString (s : string) | DSequence (l : list doc_line) | DOther.
(** The strings of a sequence; [join] raises TypeError for other members (Python built-in). *)
Fixpoint doc_lines (l : list doc_line) : result (list string) :=
  match l with
  | [] => Ok []
  | Line s :: l => let* rest := doc_lines l in Ok (s :: rest)
  | NoLine :: _ => Err TypeError
  end.
(** [set_solver_documentation] (dream/solver.py:425-433) on the attribute [doc], if it exists. *)
Definition set_documentation (v : doc_value) (doc : option string) : option string * option exn :=
  match v with
  | DString s => (Some s, None)
  | DSequence l => match doc_lines l with Ok ls => (Some (join_lines ls), None) | Err e => (doc, Some e) end
  | DOther => (doc, Some ValueError)
  end.
(** The text of the settings file (dream/io.py:243-250); [ack], [dhead], [chead] and [conf] stand for the results of
    [acknowledgements()], [header("Documentation")], [header("Configuration")] and [repr(self.cfg)]. *)
Definition settings_text (ack dhead chead conf : string) (doc : option string) : string :=
  join_lines ([ack; ""] ++ match doc with Some d => [dhead; d; ""] | None => [] end ++ [chead; conf; ""]).
