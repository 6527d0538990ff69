(** Specification vocabulary for the output context (only types of the model are used). *)
From Coq Require Import String List Bool.
From Verif Require Import Base M_Context.
Import ListNotations.

(** Streams saved once per run; streams saved along the run; streams whose setup is complete. *)
Definition is_single (a : active) : bool := match a with AMesh | ASettings => true | _ => false end.
Definition is_file (a : active) : bool := match a with AVtk _ | AGfu | ASensor _ => true | _ => false end.
Definition can_open (a : active) : bool := match a with AVtk b | ASensor b => b | _ => true end.

(** The header rows of a sensor whose header is consistent; none when appending. *)
Definition header_rows (append : bool) (s : csv_sensor) : list (list string) :=
  if append then [] else match cs_header s with Ok rows => rows | _ => [] end.
