(** Model of the files written and read by the output streams (dream/io.py:173-277, 373-387, 441-448, 498-516, 567-572, 588-600). *)
From Coq Require Import String Ascii List Bool.
From Verif Require Import Base Dict M_Path.
Import ListNotations.
Local Open Scope string_scope.
Local Open Scope list_scope.

(** Exceptions of the file operations (Python): a missing file, another [OSError] (a file or folder in the way; simplified: also a
    missing folder), a missing yaml package (dream/io.py:256-259). *)
Inductive file_exn := FileMissing | OSFailure | NoYaml.

Section Files.
Context {M T V : Type}.

(** What a file holds: a pickled mesh (dream/io.py:188), a pickled configuration tree (dream/io.py:234), text (dream/io.py:243-249), yaml
    (dream/io.py:263), a grid function (dream/io.py:448), rows of measurements (dream/io.py:593-600), log messages (dream/io.py:505). *)
Inductive content := CMesh (m : M) | CTree (t : T) | CText (s : string) | CYaml (t : T) | CState (v : V) | CRows (l : list string) | CLog (l : list string).

(** A node of the file system (Python, pathlib). *)
Inductive node := Dir | File (c : content).

(** A file system (pathlib; dream/io.py:180-188): the node at every absolute path. *)
Definition fsys := folder -> option node.

(** Change of one node (pathlib; dream/io.py:181, 187). *)
Definition put (f : fsys) (p : folder) (n : node) : fsys := fun q => if folder_eqb q p then Some n else f q.

(** [path.exists()] (pathlib, used in dream/io.py:180, 215, 376, 514, 570). *)
Definition exists_ (f : fsys) (p : folder) : bool := match f p with Some _ => true | None => false end.

(** [path.mkdir(parents=True, exist_ok=True)] (pathlib, used in dream/io.py:181, 216, 377, 515, 571): creates [done], [done/p1], ...; raises at a
    component that is a file. *)
Fixpoint mkdirs (f : fsys) (done rest : folder) : fsys * option file_exn :=
  match rest with
  | [] => (f, None)
  | x :: rest' =>
      match f (done ++ [x]) with
      | None => mkdirs (put f (done ++ [x]) Dir) (done ++ [x]) rest'
      | Some Dir => mkdirs f (done ++ [x]) rest'
      | Some (File _) => (f, Some OSFailure)
      end
  end.

(** The [path] properties (dream/io.py:177-182, 212-217, 373-378, 511-516, 567-572). *)
Definition ensure (f : fsys) (p : folder) : fsys * option file_exn := if exists_ f p then (f, None) else mkdirs f [] p.

(** Components of a path given as text (pathlib; names joined in dream/io.py:185, 232, 446): empty components and [.] are dropped. *)
Fixpoint components (acc s : string) : list string :=
  let done := if (String.eqb acc "" || String.eqb acc ".")%bool then [] else [acc] in
  match s with
  | EmptyString => done
  | String c r => if Ascii.eqb c "/"%char then done ++ components "" r else components (acc ++ String c "") r
  end.

(** [path.joinpath(name)] (pathlib, used in dream/io.py:185, 191, 232, 241, 261, 270, 385, 446, 505, 593): an absolute name replaces the folder. *)
Definition joinpath (p : folder) (name : string) : folder :=
  match name with
  | String c _ => if Ascii.eqb c "/"%char then components "" name else p ++ components "" name
  | EmptyString => p
  end.

(** [path.open("w")] and writing (Python, used in dream/io.py:187, 233, 243, 262): the folder must exist, the path must not be one. *)
Definition write (f : fsys) (p : folder) (c : content) : fsys * option file_exn :=
  match f p with
  | Some Dir => (f, Some OSFailure)
  | _ =>
      match p with
      | [] => (f, Some OSFailure)
      | _ => match f (parent p) with
             | Some Dir => (put f p (File c), None)
             | _ => (f, Some OSFailure)
             end
      end
  end.

(** The stored folders and file names (dream/io.py:104-122, 151-155). *)
Record places := { pl_root : folder; pl_settings : folder; pl_states : folder; pl_sensors : folder;
  pl_mesh_name : string; pl_settings_name : string; pl_gfu_name : string; pl_log_name : string }.

(** [filename = self.filename if filename is None] (dream/io.py:229-230, 238-239, 253-254, 267-268, 382-383, 443-444). *)
Definition filename (default : string) (name : option string) : string := match name with Some n => n | None => default end.

(** Make the folder, then write into it (dream/io.py:177-188, 227-234, 236-249, 251-263, 441-448). *)
Definition save_at (f : fsys) (dir : folder) (name : string) (c : content) : fsys * option file_exn :=
  match ensure f dir with
  | (f', Some e) => (f', Some e)
  | (f', None) => write f' (joinpath dir name) c
  end.

(** [MeshStream.save_pre_time_routine] (dream/io.py:184-188). *)
Definition save_mesh (pl : places) (m : M) (f : fsys) := save_at f (pl_root pl) (pl_mesh_name pl ++ ".pickle")%string (CMesh m).
(** [save_to_pickle] (dream/io.py:227-234). *)
Definition save_to_pickle (pl : places) (name : option string) (t : T) (f : fsys) :=
  save_at f (pl_settings pl) (filename (pl_settings_name pl) name ++ ".pickle")%string (CTree t).
(** [save_to_txt] (dream/io.py:236-249). *)
Definition save_to_txt (pl : places) (name : option string) (s : string) (f : fsys) :=
  save_at f (pl_settings pl) (filename (pl_settings_name pl) name ++ ".txt")%string (CText s).
(** [save_to_yaml] (dream/io.py:251-263); [installed]: the import of yaml succeeds. *)
Definition save_to_yaml (pl : places) (name : option string) (installed : bool) (t : T) (f : fsys) : fsys * option file_exn :=
  if installed then save_at f (pl_settings pl) (filename (pl_settings_name pl) name ++ ".yaml")%string (CYaml t) else (f, Some NoYaml).
(** One statement after another, unless the first raises (Python; dream/io.py:220-225). *)
Definition andthen (r : fsys * option file_exn) (g : fsys -> fsys * option file_exn) : fsys * option file_exn :=
  match r with (f, None) => g f | _ => r end.
(** [SettingsStream.save_pre_time_routine] (dream/io.py:219-225). *)
Definition save_settings (pl : places) (pickle txt yaml : bool) (installed : bool) (t : T) (s : string) (f : fsys) : fsys * option file_exn :=
  andthen (andthen (if pickle then save_to_pickle pl None t f else (f, None))
    (fun f => if txt then save_to_txt pl None s f else (f, None)))
    (fun f => if yaml then save_to_yaml pl None installed t f else (f, None)).
(** [save_gridfunction] (dream/io.py:441-448); simplified: [gfu.Save] fails like [open]. *)
Definition save_gridfunction (pl : places) (name : option string) (v : V) (f : fsys) :=
  save_at f (pl_states pl) (filename (pl_gfu_name pl) name ++ ".ngs")%string (CState v).
(** A file of a sensor opened for writing, with its rows (dream/io.py:588-600). *)
Definition write_csv (pl : places) (sensor : string) (rows : list string) (f : fsys) := save_at f (pl_sensors pl) (sensor ++ ".csv")%string (CRows rows).
(** The log file (dream/io.py:504-505), opened for appending by [logging.FileHandler]. *)
Definition write_log (pl : places) (lines : list string) (f : fsys) : fsys * option file_exn :=
  match ensure f (pl_root pl) with
  | (f', Some e) => (f', Some e)
  | (f', None) =>
      let p := joinpath (pl_root pl) (pl_log_name pl ++ ".log")%string in
      write f' p (CLog (match f' p with Some (File (CLog old)) => old ++ lines | _ => lines end))
  end.

(** [path.open("rb")] (Python, used in dream/io.py:192, 272): the content of the file. *)
Definition load_at (f : fsys) (dir : folder) (name : string) : fsys * (content + file_exn) :=
  match ensure f dir with
  | (f', Some e) => (f', inr e)
  | (f', None) =>
      match f' (joinpath dir name) with
      | Some (File c) => (f', inl c)
      | Some Dir => (f', inr OSFailure)
      | None => (f', inr FileMissing)
      end
  end.
(** [MeshStream.load_routine] (dream/io.py:190-193). *)
Definition load_mesh (pl : places) (f : fsys) := load_at f (pl_root pl) (pl_mesh_name pl ++ ".pickle")%string.
(** [load_from_pickle] (dream/io.py:265-273). *)
Definition load_from_pickle (pl : places) (name : option string) (f : fsys) :=
  load_at f (pl_settings pl) (filename (pl_settings_name pl) name ++ ".pickle")%string.
(** [load_gridfunction] (dream/io.py:380-387). *)
Definition load_gridfunction (pl : places) (name : option string) (f : fsys) :=
  load_at f (pl_states pl) (filename (pl_gfu_name pl) name ++ ".ngs")%string.

(** What a user may do (dream/io.py:104-122, 151-155, 173-277, 380-387, 441-448, 498-509, 588-600). *)
Inductive op :=
| SaveMesh (m : M) | SavePickle (name : option string) (t : T) | SaveTxt (name : option string) (s : string)
| SaveYaml (name : option string) (installed : bool) (t : T) | SaveSettings (pickle txt yaml installed : bool) (t : T) (s : string)
| SaveState (name : option string) (v : V) | WriteCsv (sensor : string) (rows : list string) | WriteLog (lines : list string)
| LoadMesh | LoadPickle (name : option string) | LoadState (name : option string)
| Configure (pl : places).

(** One operation (dream/io.py:104-122, 151-155, 173-277, 380-387, 441-448, 498-509, 588-600): the new folders and file system, and the exception. *)
Definition file_step (w : places * fsys) (o : op) : (places * fsys) * option file_exn :=
  let '(pl, f) := w in
  let on r := let '(f', e) := r in ((pl, f'), e) in
  let reading (r : fsys * (content + file_exn)) := let '(f', x) := r in ((pl, f'), match x with inl _ => None | inr e => Some e end) in
  match o with
  | SaveMesh m => on (save_mesh pl m f)
  | SavePickle n t => on (save_to_pickle pl n t f)
  | SaveTxt n s => on (save_to_txt pl n s f)
  | SaveYaml n i t => on (save_to_yaml pl n i t f)
  | SaveSettings p x y i t s => on (save_settings pl p x y i t s f)
  | SaveState n v => on (save_gridfunction pl n v f)
  | WriteCsv n rows => on (write_csv pl n rows f)
  | WriteLog lines => on (write_log pl lines f)
  | LoadMesh => reading (load_mesh pl f)
  | LoadPickle n => reading (load_from_pickle pl n f)
  | LoadState n => reading (load_gridfunction pl n f)
  | Configure pl' => ((pl', f), None)
  end.

(** A sequence of operations, exceptions caught (dream/io.py:173-277). *)
Definition file_run (ops : list op) (w : places * fsys) : places * fsys := fold_left (fun w o => fst (file_step w o)) ops w.
End Files.
