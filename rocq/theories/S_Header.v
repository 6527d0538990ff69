(** Specification of sensor tables: the columns a user expects. *)
From Coq Require Import String List Arith.
From Verif Require Import M_Header.
Import ListNotations.
Local Open Scope string_scope.
Local Open Scope nat_scope.

(** A column of the table. *)
Record column (Loc : Type) := mk_column { col_loc : Loc; col_field : string; col_dims : list nat; col_index : nat }.
Arguments mk_column {Loc}. Arguments col_loc {Loc}. Arguments col_field {Loc}.
Arguments col_dims {Loc}. Arguments col_index {Loc}.

(** The columns: for every location every field with all its components. *)
Definition columns {Loc} (locs : list Loc) (fs : list (string * list nat)) : list (column Loc) :=
  flat_map (fun l =>
    flat_map (fun f => map (fun k => mk_column l (fst f) (snd f) k) (seq 0 (fold_right Nat.mul 1 (snd f)))) fs) locs.

(** The name a user expects for component [k] (row major) of a field with [dims]. *)
Definition axis (i : nat) : string := match i with 0 => "x" | 1 => "y" | _ => "z" end.
Definition component_label (dims : list nat) (k : nat) : component :=
  match dims with
  | [] => CName " "
  | [n] => if n <=? 3 then CName (axis k) else CNum k
  | [m; n] => if m * n <=? 9 then CName (axis (k / n) ++ axis (k mod n)) else CNum k
  | _ => CNum k
  end.

(** Shapes for which names are available: everything but small matrices other
    than 2x2 and 3x3. *)
Definition nameable (dims : list nat) : Prop :=
  match dims with
  | [m; n] => m * n <= 9 -> (m = 2 /\ n = 2) \/ (m = 3 /\ n = 3)
  | _ => True
  end.
