(** Model of the output streams that write during a run: VTK, grid functions,
    sensors (dream/io.py:280-458, 525-662), and of the dispatcher
    [IOConfiguration] (dream/io.py:907-942). *)
From Coq Require Import List Bool QArith ZArith String.
From Verif Require Import Base Dict M_Run.
Import ListNotations.
Local Open Scope string_scope.

(** The setters of the rates (dream/io.py:284-289, 358-371, 671-676): [int(i)],
    rejected unless positive.  Accepted rates are positive naturals. *)
Definition rate_fset (i : Z) : result nat :=
  if (i <=? 0)%Z then Err ValueError else Ok (Z.to_nat i).

(** [it % rate == 0] (dream/io.py:432, 438, 454, 626, 635). *)
Definition divides (rate it : nat) : bool := Nat.eqb (Nat.modulo it rate) 0.

(** ** VTK *)

(** [VTKStream.save_pre_time_routine] (dream/io.py:330-333): the time passed to
    the writer, [-1] without time. *)
Definition vtk_pre (t : option Q) : list Q :=
  [match t with None => (-1)%Q | Some t => t end].

(** [VTKStream.save_in_time_routine] (dream/io.py:335-337). *)
Definition vtk_in (rate : nat) (t : Q) (it : nat) : list Q :=
  if divides rate it then [t] else [].

(** [VTKStream.save_post_time_routine] (dream/io.py:339-343). *)
Definition vtk_post (rate : nat) (t : option Q) (it : nat) : list Q :=
  match t with
  | None => [(-1)%Q]
  | Some t => if negb (divides rate it) then [t] else []
  end.

(** The VTK snapshots (time, state) one event of a run produces: the dispatcher
    forwards the three saving events (dream/io.py:918-931). *)
Definition vtk_handler {S} (rate : nat) (s : S) (e : run_event) : list (Q * S) :=
  map (fun t => (t, s))
    match e with
    | RPreSave t => vtk_pre t
    | RInSave t it => vtk_in rate t it
    | RPostSave t it => vtk_post rate t it
    | _ => []
    end.

(** ** Sensors *)

(** A sensor as far as scheduling is concerned (dream/io.py:665-676): name, rate. *)
Record sensor := mk_sensor { se_name : string; se_rate : nat }.

(** A CSV row: the sensor's name (the file), the time cell if any, and the state that was measured (all cells of
    [measure] are functions of it) (dream/io.py:619, 628, 634, 637). *)
Record row (S : Type) := mk_row { row_sensor : string; row_time : option Q; row_state : S }.
Arguments mk_row {S}. Arguments row_sensor {S}. Arguments row_time {S}. Arguments row_state {S}.

(** [SensorStream.save_pre_time_routine] (dream/io.py:614-622). *)
Definition sensor_pre {S} (to_csv : bool) (sensors : list sensor) (s : S) (t : option Q) : list (row S) :=
  flat_map (fun x => if to_csv then [mk_row (se_name x) t s] else []) sensors.

(** [SensorStream.save_in_time_routine] (dream/io.py:624-628). *)
Definition sensor_in {S} (to_csv : bool) (sensors : list sensor) (s : S) (t : Q) (it : nat) : list (row S) :=
  flat_map (fun x => if divides (se_rate x) it then
                       if to_csv then [mk_row (se_name x) (Some t) s] else []
                     else []) sensors.

(** [SensorStream.save_post_time_routine] (dream/io.py:630-637). *)
Definition sensor_post {S} (to_csv : bool) (sensors : list sensor) (s : S) (t : option Q) (it : nat) : list (row S) :=
  flat_map (fun x =>
    match t with
    | None => if to_csv then [mk_row (se_name x) None s] else []
    | Some t => if negb (divides (se_rate x) it) then
                  if to_csv then [mk_row (se_name x) (Some t) s] else []
                else []
    end) sensors.

(** The rows one event of a run produces (dream/io.py:918-931). *)
Definition sensor_handler {S} (to_csv : bool) (sensors : list sensor) (s : S) (e : run_event) : list (row S) :=
  match e with
  | RPreSave t => sensor_pre to_csv sensors s t
  | RInSave t it => sensor_in to_csv sensors s t it
  | RPostSave t it => sensor_post to_csv sensors s t it
  | _ => []
  end.

(** ** Grid functions *)

Section Gfu.
(** Content of a grid function; Python's formatting of a float in an f-string. *)
Context {V : Type}.
(** Python's formatting of the time in a file name (dream/io.py:393, 424, 430). *)
Variable repr : Q -> string.

(** What the stream can save: the solver's grid function and the time levels
    of the scheme per variable (dream/io.py:434-439). *)
Record gstate := mk_gstate { g_gfu : V; g_levels : dict (dict V) }.

(** File name of a state, [f"{filename}_{t}"] or [filename] (dream/io.py:428-430). *)
Definition state_name (filename : string) (t : option Q) : string :=
  match t with None => filename | Some t => filename ++ "_" ++ repr t end.

(** File name of a time level, [f"{filename}_{t}_{fes}_{level}"]
    (dream/io.py:424, 436). *)
Definition level_name (filename : string) (t : Q) (fes level : string) : string :=
  filename ++ "_" ++ repr t ++ "_" ++ fes ++ "_" ++ level.

(** The writes of all time levels, in order (dream/io.py:434-436). *)
Definition level_writes (filename : string) (t : Q) (levels : dict (dict V)) : list (string * V) :=
  flat_map (fun fg => map (fun lv => (level_name filename t (fst fg) (fst lv), snd lv)) (snd fg)) levels.

(** [GridfunctionStream.save_in_time_routine] (dream/io.py:426-439): the files
    written (the suffix ".ngs" and the folder are the same for all). *)
Definition gfu_in (filename : string) (rate tlrate : nat) (s : gstate) (t : option Q) (it : nat) : list (string * V) :=
  (match t with
   | None => []
   | Some t => if divides tlrate it then level_writes filename t (g_levels s) else []
   end) ++
  (if divides rate it then [(state_name filename t, g_gfu s)] else []).

(** [GridfunctionStream.save_pre_time_routine] (dream/io.py:450-451). *)
Definition gfu_pre (filename : string) (rate tlrate : nat) (s : gstate) (t : option Q) : list (string * V) :=
  gfu_in filename rate tlrate s t 0.

(** [GridfunctionStream.save_post_time_routine] (dream/io.py:453-455). *)
Definition gfu_post (filename : string) (rate tlrate : nat) (s : gstate) (t : option Q) (it : nat) : list (string * V) :=
  match t with
  | None => gfu_in filename rate tlrate s t 0
  | Some _ => if negb (divides rate it) then gfu_in filename rate tlrate s t 0 else []
  end.

(** The files one event of a run writes (dream/io.py:918-931). *)
Definition gfu_handler (filename : string) (rate tlrate : nat) (s : gstate) (e : run_event) : list (string * V) :=
  match e with
  | RPreSave t => gfu_pre filename rate tlrate s t
  | RInSave t it => gfu_in filename rate tlrate s (Some t) it
  | RPostSave t it => gfu_post filename rate tlrate s t it
  | _ => []
  end.

(** The file system after a sequence of [gfu.Save] (dream/io.py:448): the last
    write to a name wins. *)
Definition write_all (fs : dict V) (ws : list (string * V)) : dict V :=
  fold_left (fun fs w => dset fs (fst w) (snd w)) ws fs.

(** [GridfunctionStream.load_gridfunction] (dream/io.py:380-387). *)
Definition load_gridfunction (fs : dict V) (filename : string) : result V :=
  match dget fs filename with Some v => Ok v | None => Err FileNotFoundError end.

(** [GridfunctionStream.load_routine] (dream/io.py:389-395). *)
Definition load_routine (fs : dict V) (filename : string) (t : option Q) : result V :=
  load_gridfunction fs (state_name filename t).

(** [GridfunctionStream.load_transient_routine] consumed to its end
    (dream/io.py:397-413) for the values [ts] of the timer: the pairs (label,
    state loaded) up to the end or the exception. *)
Fixpoint load_transient (fs : dict V) (filename : string) (ts : list Q) : list (Q * V) * option exn :=
  match ts with
  | [] => ([], None)
  | t :: rest =>
      match load_routine fs filename (Some t) with
      | Err e => ([], Some e)
      | Ok v => let '(l, e) := load_transient fs filename rest in ((t, v) :: l, e)
      end
  end.

(** [GridfunctionStream.load_time_levels] (dream/io.py:415-424): every level of
    every variable is overwritten by its file. *)
Fixpoint load_levels_of (fs : dict V) (filename : string) (t : Q) (fes : string) (g : dict V) : result (dict V) :=
  match g with
  | [] => Ok []
  | (level, _) :: rest =>
      let* v := load_gridfunction fs (level_name filename t fes level) in
      let* r := load_levels_of fs filename t fes rest in
      Ok ((level, v) :: r)
  end.

(** The outer loop of [load_time_levels] (dream/io.py:420). *)
Fixpoint load_time_levels (fs : dict V) (filename : string) (t : Q) (gfus : dict (dict V)) : result (dict (dict V)) :=
  match gfus with
  | [] => Ok []
  | (fes, g) :: rest =>
      let* g' := load_levels_of fs filename t fes g in
      let* r := load_time_levels fs filename t rest in
      Ok ((fes, g') :: r)
  end.

End Gfu.
Arguments gstate V : clear implicits.

(** ** Running a stream along a trace *)

(** The outputs of a stream along a run: its handler sees the state left by the
    latest solve ([sols] are the results of the successive solves, dream/time.py:315). *)
Fixpoint observe {S Out} (h : S -> run_event -> list Out) (s : S) (sols : list S) (tr : list run_event) : list Out :=
  match tr with
  | [] => []
  | e :: rest =>
      match e, sols with
      | RSolve _, x :: xs => observe h x xs rest
      | RSolverStep _, x :: xs => observe h x xs rest
      | _, _ => (h s e ++ observe h s sols rest)%list
      end
  end.
