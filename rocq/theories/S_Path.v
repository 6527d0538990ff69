(** Specification of folder relocation. *)
From Coq Require Import String List.
Import ListNotations.

(** [p] lies strictly below [q], at the relative place [r]. *)
Definition below (p q r : list string) : Prop := r <> [] /\ p = (q ++ r)%list.

(** Where the folder [p] is expected after the folder at [old] moved to [new]:
    at the same place below the new location if it was below the old one. *)
Inductive moved (old new p : list string) : list string -> Prop :=
| moved_below : forall r, below p old r -> p <> new -> moved old new p (new ++ r)%list
| moved_same : p = new -> moved old new p p
| moved_other : (forall r, p <> (old ++ r)%list) -> moved old new p p.
