(** Vocabulary for the sensors of a stream (C93). *)
From Coq Require Import String List.
From Verif Require Import Base Dict M_Registered.
Import ListNotations.
Local Open Scope list_scope.

(** A statement that takes away what was stored under a kind and a name. *)
Definition replaces (kind name : string) (o : sensor_op) : Prop :=
  match o with RName k n _ => k = kind /\ n = name | RPop k n => k = kind /\ n = name | RDelete k => k = kind | RClear => True | RNoName _ => False end.
(** The sensor that was assigned last under a kind and a name and not taken away since. *)
Definition in_place (l : list sensor_op) (kind name : string) (i : nat) : Prop :=
  exists l1 l2, l = l1 ++ RName kind name i :: l2 /\ forall o, In o l2 -> ~ replaces kind name o.
(** A kind that was deleted and not assigned since. *)
Definition gone (l : list sensor_op) (kind : string) : Prop :=
  exists l1 l2, l = l1 ++ RDelete kind :: l2 /\ forall o, In o l2 -> match o with RName k _ _ => k <> kind | RNoName k => k <> kind | RClear => False | _ => True end.
