(** Model of the output context [IOConfiguration] (dream/io.py:907-942) and of
    the CSV files of the sensor stream (dream/io.py:583-600, 614-637, 651-655). *)
From Coq Require Import String List Bool Arith.
From Verif Require Import Base Dict.
Import ListNotations.

(** ** Opening and dispatching *)

(** The entries of [IOConfiguration.data] that are streams (dream/io.py:862-884);
    for VTK and sensors whether opening succeeds (fields present, dream/io.py:314,
    689; csv header consistent, dream/io.py:607). *)
Inductive active :=
| ALog | AMesh | ASettings | AGfu
| AVtk (opens : bool)
| ASensor (opens : bool).

(** [stream.open()] (dream/io.py:157, 312-328, 574-586). *)
Definition stream_open (a : active) : result unit :=
  match a with
  | AVtk false | ASensor false => Err ValueError
  | _ => Ok tt
  end.

(** [IOConfiguration.open] (dream/io.py:907-916): single streams and file
    streams, in the order of activation. *)
Fixpoint io_open (l : list active) : result (list active * list active) :=
  match l with
  | [] => Ok ([], [])
  | a :: rest =>
      match a with
      | AMesh | ASettings =>
          let* _ := stream_open a in
          let* p := io_open rest in Ok (a :: fst p, snd p)
      | AVtk _ | AGfu | ASensor _ =>
          let* _ := stream_open a in
          let* p := io_open rest in Ok (fst p, a :: snd p)
      | ALog => io_open rest
      end
  end.

(** Number of positional arguments besides [self] that [save_pre_time_routine]
    accepts (dream/io.py:184, 219 against 330, 450, 614). *)
Definition pre_max_args (a : active) : nat :=
  match a with
  | AMesh | ASettings | ALog => 0
  | AVtk _ | AGfu | ASensor _ => 1
  end.

(** A call with [n] positional arguments (Python semantics). *)
Definition call_pre (a : active) (n : nat) : result unit :=
  if n <=? pre_max_args a then Ok tt else Err TypeError.

(** The calls [stream.save_pre_time_routine(t)] for the streams in order
    (dream/io.py:919-923): those performed, and the exception that stopped. *)
Fixpoint call_all_pre (l : list active) : list active * option exn :=
  match l with
  | [] => ([], None)
  | a :: rest =>
      match call_pre a 1 with
      | Err e => ([], Some e)
      | Ok _ => let '(done, e) := call_all_pre rest in (a :: done, e)
      end
  end.

(** [IOConfiguration.save_pre_time_routine] (dream/io.py:918-923). *)
Definition io_save_pre (single files : list active) : list active * option exn :=
  call_all_pre (single ++ files).

(** Entering a solve: [open], then the pre routine (dream/time.py:266-267, 309-310). *)
Definition enter_solve (l : list active) : list active * option exn :=
  match io_open l with
  | Err e => ([], Some e)
  | Ok (single, files) => io_save_pre single files
  end.

(** ** CSV files *)

(** An operating system file handle: path, still open, rows written through it (dream/io.py:593-600). *)
Record handle := mk_handle { hd_path : string; hd_open : bool; hd_rows : list (list string) }.

(** All handles ever opened; a handle is its position (Python; dream/io.py:593). *)
Definition world := list handle.

(** Replace one handle (bookkeeping) (of the handles of dream/io.py:593-600). *)
Fixpoint update_handle (w : world) (i : nat) (f : handle -> handle) : world :=
  match w, i with
  | [], _ => []
  | h :: r, O => f h :: r
  | h :: r, S i => h :: update_handle r i f
  end.

(** A sensor as the CSV writer sees it (dream/io.py:593, 597): its name and the
    rows of its header, or the exception of [get_header] (dream/io.py:607). *)
Record csv_sensor := mk_csv_sensor { cs_name : string; cs_header : result (list (list string)) }.

(** The loop of [open_csv_writers] (dream/io.py:591-600).  [append] is mode "a"
    (no header), otherwise mode "w". *)
Fixpoint open_csv (append : bool) (sensors : list csv_sensor) (w : world) (csv : dict nat) : world * result (dict nat) :=
  match sensors with
  | [] => (w, Ok csv)
  | s :: rest =>
      if append then
        open_csv append rest (w ++ [mk_handle (cs_name s) true []]) (dset csv (cs_name s) (length w))
      else
        match cs_header s with
        | Err e => (w ++ [mk_handle (cs_name s) true []], Err e)
        | Ok rows => open_csv append rest (w ++ [mk_handle (cs_name s) true rows]) (dset csv (cs_name s) (length w))
        end
  end.

(** [self.csv[name][1].writerow(row)] (dream/io.py:622, 628, 634, 637). *)
Definition write_row (csv : dict nat) (w : world) (name : string) (row : list string) : world * option exn :=
  match dget csv name with
  | None => (w, Some KeyError)
  | Some i =>
      match nth_error w i with
      | Some h => if hd_open h then (update_handle w i (fun h => mk_handle (hd_path h) (hd_open h) (hd_rows h ++ [row])), None)
                  else (w, Some ValueError)
      | None => (w, Some ValueError)
      end
  end.

(** A sequence of row writes (dream/io.py:616-637). *)
Definition write_rows (csv : dict nat) (w : world) (rows : list (string * list string)) : world :=
  fold_left (fun w nr => fst (write_row csv w (fst nr) (snd nr))) rows w.

(** [SensorStream.close] (dream/io.py:651-655). *)
Definition close_csv (csv : dict nat) (w : world) : world :=
  fold_left (fun w kv => update_handle w (snd kv) (fun h => mk_handle (hd_path h) false (hd_rows h))) csv w.

(** The context (dream/io.py:937-942) as far as the sensor files are concerned:
    open, the rows of the body up to where it ended, close.  If opening raises,
    [__exit__] is not called. *)
Definition csv_context (append : bool) (sensors : list csv_sensor) (rows : list (string * list string)) (w : world)
    : world * option exn :=
  match open_csv append sensors w [] with
  | (w', Err e) => (w', Some e)
  | (w', Ok csv) => (close_csv csv (write_rows csv w' rows), None)
  end.
