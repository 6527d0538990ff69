(** Model of the stream switches of the io configuration (dream/io.py:68-88, 856-889)
    and of the log streams (dream/io.py:461-522). *)
From Coq Require Import ZArith String List Bool Arith.
From Verif Require Import Base Dict.
Import ListNotations.
Local Open Scope string_scope.
Local Open Scope nat_scope.

(** * Switches *)

(** The streams of [IOConfiguration] in order (dream/io.py:862-884). *)
Definition stream_names : list string := ["log"; "ngsmesh"; "gfu"; "settings"; "vtk"; "sensor"].

(** Values a user may assign to a switch (dream/io.py:68-88). *)
Inductive switch_value := SBool (b : bool) | SStr (s : string) | SOther.

(** The io configuration: the stored streams by name, each with the identity of the stream object, and the next unused
    identity (dream/io.py:862-884). *)
Record switches := { sw_data : dict nat; sw_next : nat }.

(** [stream.__set__] (dream/io.py:70-81).  The setter functions (862-884) all return
    a freshly built stream. *)
Definition switch_set (name : string) (v : switch_value) (s : switches) : switches * option exn :=
  let v := match v with SStr x => if String.eqb x name then SBool true else v | _ => v end in
  match v with
  | SBool true => ({| sw_data := dset (sw_data s) name (sw_next s); sw_next := S (sw_next s) |}, None)
  | SBool false =>
      match dget (sw_data s) name with
      | Some _ => ({| sw_data := ddel (sw_data s) name; sw_next := sw_next s |}, None)
      | None => (s, None)
      end
  | _ => (s, Some ValueError)
  end.

(** [stream.__get__] (dream/io.py:83-88): [None] stands for the dummy [Stream()]. *)
Definition switch_get (name : string) (s : switches) : option nat := dget (sw_data s) name.

(** Defaults (dream/io.py:862-884): only the log stream is on. *)
Definition switches_default : switches := {| sw_data := [("log", 0)]; sw_next := 1 |}.

(** A sequence of assignments; a raised exception is caught by the caller (dream/io.py:68-88). *)
Definition switch_run (l : list (string * switch_value)) (s : switches) : switches :=
  fold_left (fun s a => fst (switch_set (fst a) (snd a) s)) l s.

(** The two handlers of a log stream (dream/io.py:492, 505). *)

Inductive log_kind := Terminal | File.

(** A handler object: its identity, the log stream that created it ([None] for handlers added by other code), its kind
    and whether its formatter is the debug one (dream/io.py:492-493, 505-506). *)
Record handler := { h_id : nat; h_owner : option nat; h_kind : log_kind; h_debug : bool }.

(** A log stream: its handler attributes, its formatter and its stored options (dream/io.py:461-509). *)
Record log_stream := {
  l_terminal : option handler; l_file : option handler; l_debug : bool;
  l_to_terminal : bool; l_to_file : bool; l_level : string }.

(** The logger 'dream' with its handlers and level, all log streams ever created ([None] once deleted) and the next
    unused identity (dream/io.py:466, 475, 494, 507). *)
Record log_world := {
  w_handlers : list handler; w_level : string;
  w_streams : list (option log_stream); w_next : nat }.

(** [Logger.addHandler] / [Logger.removeHandler] (Python logging): by identity. *)
Definition add_handler (h : handler) (l : list handler) : list handler :=
  if existsb (fun x => h_id x =? h_id h) l then l else (l ++ [h])%list.
(** [Logger.removeHandler] (Python logging; used in dream/io.py:489, 502, 520, 522). *)
Fixpoint remove_handler (h : handler) (l : list handler) : list handler :=
  match l with
  | [] => []
  | x :: l => if h_id x =? h_id h then l else x :: remove_handler h l
  end.

(** [hasattr(self, ...)] followed by [removeHandler] (dream/io.py:488-489, 501-502, 519-522). *)
Definition remove_attr (o : option handler) (l : list handler) : list handler :=
  match o with Some h => remove_handler h l | None => l end.

(** Level assignments: an integer or a name (dream/io.py:469-473). *)
Inductive level_value := LInt (z : Z) | LName (s : string).

(** Names [Logger.setLevel] accepts (Python logging). *)
Definition known_levels : list string :=
  ["CRITICAL"; "FATAL"; "ERROR"; "WARN"; "WARNING"; "INFO"; "DEBUG"; "NOTSET"].

(** [logging.getLevelName] (Python logging).  An unnamed level n gives 'Level n', which
    is none of the accepted names; simplified to 'Level'. *)
Definition level_name_of (z : Z) : string :=
  if (z =? 50)%Z then "CRITICAL" else if (z =? 40)%Z then "ERROR" else if (z =? 30)%Z then "WARNING"
  else if (z =? 20)%Z then "INFO" else if (z =? 10)%Z then "DEBUG" else if (z =? 0)%Z then "NOTSET" else "Level".

(** The name under which a level is stored (dream/io.py:472-473). *)
Definition as_level (v : level_value) : string := match v with LInt z => level_name_of z | LName s => s end.

(** Replacing one stream (the objects of Python; attributes set in dream/io.py:466-509). *)
Fixpoint set_nth {A} (l : list A) (i : nat) (x : A) : list A :=
  match l, i with
  | [], _ => []
  | _ :: l, O => x :: l
  | y :: l, S i => y :: set_nth l i x
  end.

(** Steps of a history.  [openable] in [SetFile] says whether the log file can be opened (dream/io.py:461-522). *)
Inductive log_op :=
| New
| SetLevel (i : nat) (v : level_value)
| SetTerminal (i : nat) (b : bool)
| SetFile (i : nat) (b : bool) (openable : bool)
| Delete (i : nat)
| Foreign (k : log_kind) (debug : bool).

(** [LogStream.level] (dream/io.py:469-483) for the stream [i] with record [s]. *)
Definition set_level (w : log_world) (i : nat) (s : log_stream) (v : level_value) : log_world * option exn :=
  let name := as_level v in
  if existsb (String.eqb name) known_levels then
    ({| w_handlers := w_handlers w; w_level := name;
        w_streams := set_nth (w_streams w) i (Some {| l_terminal := l_terminal s; l_file := l_file s;
          l_debug := String.eqb name "DEBUG"; l_to_terminal := l_to_terminal s; l_to_file := l_to_file s; l_level := name |});
        w_next := w_next w |}, None)
  else (w, Some ValueError).

(** [LogStream.to_terminal] (dream/io.py:485-496). *)
Definition set_terminal (w : log_world) (i : nat) (s : log_stream) (b : bool) : log_world * option exn :=
  let hs := remove_attr (l_terminal s) (w_handlers w) in
  if b then
    let h := {| h_id := w_next w; h_owner := Some i; h_kind := Terminal; h_debug := l_debug s |} in
    ({| w_handlers := add_handler h hs; w_level := w_level w;
        w_streams := set_nth (w_streams w) i (Some {| l_terminal := Some h; l_file := l_file s; l_debug := l_debug s;
          l_to_terminal := true; l_to_file := l_to_file s; l_level := l_level s |});
        w_next := S (w_next w) |}, None)
  else
    ({| w_handlers := hs; w_level := w_level w;
        w_streams := set_nth (w_streams w) i (Some {| l_terminal := l_terminal s; l_file := l_file s; l_debug := l_debug s;
          l_to_terminal := false; l_to_file := l_to_file s; l_level := l_level s |});
        w_next := w_next w |}, None).

(** [LogStream.to_file] (dream/io.py:498-509).  [logging.FileHandler] raises when the file
    cannot be opened, after the old handler was removed. *)
Definition set_file (w : log_world) (i : nat) (s : log_stream) (b openable : bool) : log_world * option exn :=
  let hs := remove_attr (l_file s) (w_handlers w) in
  if b then
    if openable then
      let h := {| h_id := w_next w; h_owner := Some i; h_kind := File; h_debug := l_debug s |} in
      ({| w_handlers := add_handler h hs; w_level := w_level w;
          w_streams := set_nth (w_streams w) i (Some {| l_terminal := l_terminal s; l_file := Some h; l_debug := l_debug s;
            l_to_terminal := l_to_terminal s; l_to_file := true; l_level := l_level s |});
          w_next := S (w_next w) |}, None)
    else
      ({| w_handlers := hs; w_level := w_level w; w_streams := w_streams w; w_next := w_next w |}, Some FileNotFoundError)
  else
    ({| w_handlers := hs; w_level := w_level w;
        w_streams := set_nth (w_streams w) i (Some {| l_terminal := l_terminal s; l_file := l_file s; l_debug := l_debug s;
          l_to_terminal := l_to_terminal s; l_to_file := false; l_level := l_level s |});
        w_next := w_next w |}, None).

(** [LogStream.__del__] (dream/io.py:518-522). *)
Definition delete (w : log_world) (i : nat) (s : log_stream) : log_world :=
  {| w_handlers := remove_attr (l_file s) (remove_attr (l_terminal s) (w_handlers w)); w_level := w_level w;
     w_streams := set_nth (w_streams w) i None; w_next := w_next w |}.

(** The attributes of a stream before its options are reset (dream/io.py:465-467). *)
Definition blank_stream : log_stream :=
  {| l_terminal := None; l_file := None; l_debug := false; l_to_terminal := false; l_to_file := false; l_level := "" |}.

(** Apply [f] to a live stream; there is no reference to a deleted one (Python). *)
Definition on_stream (w : log_world) (i : nat) (f : log_stream -> log_world * option exn) : log_world * option exn :=
  match nth_error (w_streams w) i with
  | Some (Some s) => f s
  | _ => (w, None)
  end.

(** [LogStream.__init__] (dream/io.py:465-467 with dream/config.py:405-408): the options are reset
    in the order level, to_terminal, to_file. *)
Definition new_stream (w : log_world) : log_world :=
  let i := length (w_streams w) in
  let w := {| w_handlers := w_handlers w; w_level := w_level w;
              w_streams := (w_streams w ++ [Some blank_stream])%list; w_next := w_next w |} in
  let w := fst (on_stream w i (fun s => set_level w i s (LInt 20))) in
  let w := fst (on_stream w i (fun s => set_terminal w i s true)) in
  fst (on_stream w i (fun s => set_file w i s false true)).

(** One step; exceptions are caught by the caller (dream/io.py:461-522). *)
Definition log_step (w : log_world) (o : log_op) : log_world * option exn :=
  match o with
  | New => (new_stream w, None)
  | SetLevel i v => on_stream w i (fun s => set_level w i s v)
  | SetTerminal i b => on_stream w i (fun s => set_terminal w i s b)
  | SetFile i b ok => on_stream w i (fun s => set_file w i s b ok)
  | Delete i => on_stream w i (fun s => (delete w i s, None))
  | Foreign k d =>
      ({| w_handlers := add_handler {| h_id := w_next w; h_owner := None; h_kind := k; h_debug := d |} (w_handlers w);
          w_level := w_level w; w_streams := w_streams w; w_next := S (w_next w) |}, None)
  end.

(** The logger before any stream exists (level NOTSET, no handlers) (Python logging; dream/io.py:466). *)
Definition log_start : log_world := {| w_handlers := []; w_level := "NOTSET"; w_streams := []; w_next := 0 |}.

(** A sequence of steps (dream/io.py:461-522). *)
Definition log_run (ops : list log_op) (w : log_world) : log_world :=
  fold_left (fun w o => fst (log_step w o)) ops w.
