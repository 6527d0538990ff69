(** Specification of stream switches and log handlers: what a history of assignments
    means, read off the history alone. *)
From Coq Require Import ZArith String List Bool Arith.
From Verif Require Import M_Stream.
Import ListNotations.
Local Open Scope string_scope.
Local Open Scope nat_scope.

(** An assignment that is accepted, and the switch position it asks for. *)
Definition accepted (name : string) (v : switch_value) : option bool :=
  match v with
  | SBool b => Some b
  | SStr s => if String.eqb s name then Some true else None
  | SOther => None
  end.

(** Position of switch [name] after a history, newest assignment first. *)
Fixpoint position (name : string) (start : bool) (newest_first : list (string * switch_value)) : bool :=
  match newest_first with
  | [] => start
  | (n, v) :: older =>
      if String.eqb n name then match accepted name v with Some b => b | None => position name start older end
      else position name start older
  end.

(** Histories of log streams, newest step first.  Streams are numbered by creation. *)
Fixpoint created (h : list log_op) : nat :=
  match h with [] => 0 | New :: h => S (created h) | _ :: h => created h end.

Fixpoint deleted (i : nat) (h : list log_op) : bool :=
  match h with
  | [] => false
  | Delete j :: h => ((i =? j) && (i <? created h)) || deleted i h
  | _ :: h => deleted i h
  end.

Definition alive (i : nat) (h : list log_op) : bool := (i <? created h) && negb (deleted i h).

(** The last value assigned to to_terminal of stream [i]; a new stream starts with true. *)
Fixpoint last_terminal (i : nat) (h : list log_op) : bool :=
  match h with
  | [] => false
  | New :: h => if i =? created h then true else last_terminal i h
  | SetTerminal j b :: h => if (i =? j) && alive i h then b else last_terminal i h
  | _ :: h => last_terminal i h
  end.

(** The last value assigned to to_file of stream [i]; a new stream starts with false. *)
Fixpoint last_file (i : nat) (h : list log_op) : bool :=
  match h with
  | [] => false
  | New :: h => if i =? created h then false else last_file i h
  | SetFile j b _ :: h => if (i =? j) && alive i h then b else last_file i h
  | _ :: h => last_file i h
  end.

(** Every log file that was asked for could be opened. *)
Definition files_open (h : list log_op) : Prop := forall i, ~ In (SetFile i true false) h.

Definition is_owner (i : option nat) (h : handler) : bool :=
  match i, h_owner h with
  | Some i, Some j => i =? j
  | None, None => true
  | _, _ => false
  end.
Definition is_kind (k : log_kind) (h : handler) : bool :=
  match k, h_kind h with Terminal, Terminal | File, File => true | _, _ => false end.

(** Number of handlers of one kind that stream [i] has at the logger. *)
Definition registered (i : option nat) (k : log_kind) (l : list handler) : nat :=
  length (filter (fun h => is_owner i h && is_kind k h) l).

(** Number of foreign handlers of one kind added in a history. *)
Fixpoint foreign (k : log_kind) (h : list log_op) : nat :=
  match h with
  | [] => 0
  | Foreign Terminal _ :: h => (match k with Terminal => 1 | File => 0 end) + foreign k h
  | Foreign File _ :: h => (match k with Terminal => 0 | File => 1 end) + foreign k h
  | _ :: h => foreign k h
  end.

(** The standard level names and numbers of Python logging. *)
Definition level_meaning (v : level_value) : option string :=
  match v with
  | LInt 0 => Some "NOTSET" | LInt 10 => Some "DEBUG" | LInt 20 => Some "INFO"
  | LInt 30 => Some "WARNING" | LInt 40 => Some "ERROR" | LInt 50 => Some "CRITICAL"
  | LInt _ => None
  | LName s => if in_dec string_dec s ["CRITICAL"; "FATAL"; "ERROR"; "WARN"; "WARNING"; "INFO"; "DEBUG"; "NOTSET"] then Some s else None
  end.

(** The level of the logger after a history: the last accepted one on any stream; creating a
    stream sets INFO. *)
Fixpoint last_level (h : list log_op) : string :=
  match h with
  | [] => "NOTSET"
  | New :: _ => "INFO"
  | SetLevel i v :: h =>
      if alive i h then match level_meaning v with Some n => n | None => last_level h end else last_level h
  | _ :: h => last_level h
  end.
