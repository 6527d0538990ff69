(** Model of how sensors are added to the sensor stream (dream/io.py:91-99, 529-557, 574-581). *)
From Coq Require Import String List Bool Arith.
From Verif Require Import Base Dict.
Import ListNotations.
Local Open Scope string_scope.
Local Open Scope list_scope.

(** The kinds of sensors in order (dream/io.py:529-557). *)
Definition sensor_kinds : list string := ["point"; "domain"; "domain_L2"; "boundary"; "boundary_L2"].
(** The stored sensors: by kind and by name, objects as numbers (dream/io.py:94-99). *)
Definition sensor_table := dict (dict nat).

(** [sensor.__set__] (dream/io.py:92-99): a name builds a new sensor [obj] of that name, any other value none
    (529-557). *)
Definition sensor_set (kind : string) (name : option string) (obj : nat) (t : sensor_table) : sensor_table :=
  let t := match dget t kind with None => dset t kind [] | Some _ => t end in
  match name with
  | None => t
  | Some n => match dget t kind with Some d => dset t kind (dset d n obj) | None => t end
  end.
(** [clear] (dream/config.py:405-408) as far as sensors go: all kinds are assigned [None]. *)
Definition sensor_clear : sensor_table := fold_left (fun t kind => sensor_set kind None 0 t) sensor_kinds [].
(** [del stream.kind] (dream/config.py:174-175). *)
Definition sensor_delete (kind : string) (t : sensor_table) : sensor_table * option exn :=
  match dget t kind with Some _ => (ddel t kind, None) | None => (t, Some KeyError) end.
(** [del stream.kind[name]] (Python built-in on the dictionary of dream/io.py:95). *)
Definition sensor_pop (kind name : string) (t : sensor_table) : sensor_table * option exn :=
  match dget t kind with
  | None => (t, Some KeyError)
  | Some d => match dget d name with None => (t, Some KeyError) | Some _ => (dset t kind (ddel d name), None) end
  end.

(** Statements of a user on a stream; exceptions are caught by the caller (dream/io.py:92-99).  The number in [RName] is
    the sensor that the assignment builds. *)
Inductive sensor_op := RName (kind name : string) (obj : nat) | RNoName (kind : string) | RDelete (kind : string) | RPop (kind name : string) | RClear.
(** One statement (dream/io.py:92-99, dream/config.py:174-175, 405-408). *)
Definition sensor_step (t : sensor_table) (o : sensor_op) : sensor_table :=
  match o with
  | RName k n i => sensor_set k (Some n) i t
  | RNoName k => sensor_set k None 0 t
  | RDelete k => fst (sensor_delete k t)
  | RPop k n => fst (sensor_pop k n t)
  | RClear => sensor_clear
  end.
(** A history of a stream (dream/io.py:92-99). *)
Definition sensor_run (l : list sensor_op) : sensor_table := fold_left sensor_step l sensor_clear.

(** The sensors that [SensorStream.open] collects (dream/io.py:575-576); reading a deleted kind raises KeyError
    (dream/config.py:165). *)
Fixpoint collect (kinds : list string) (t : sensor_table) : result (list nat) :=
  match kinds with
  | [] => Ok []
  | k :: ks => match dget t k with
               | None => Err KeyError
               | Some d => let* rest := collect ks t in Ok (map snd d ++ rest)
               end
  end.
(** [SensorStream.open] up to the sensors (dream/io.py:574-576). *)
Definition sensors_opened (t : sensor_table) : result (list nat) := collect sensor_kinds t.
