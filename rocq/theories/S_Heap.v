(** Specification vocabulary for configuration objects with identity. *)
From Coq Require Import String List Bool Arith.
From Verif Require Import Base Dict M_Heap.
Import ListNotations.

(** [child h i j]: object [j] is stored in object [i]. *)
Definition child (h : heap) (i j : nat) : Prop := exists o name, nth_error h i = Some o /\ In (name, j) (o_subs o).

(** Reachable through any number of stored sub-configurations. *)
Inductive hreach (h : heap) : nat -> nat -> Prop :=
| hreach_self : forall i, hreach h i i
| hreach_step : forall i j k, child h i j -> hreach h j k -> hreach h i k.

(** Root and mesh of an object. *)
Definition labels (h : heap) (i : nat) : option (nat * nat) := option_map (fun o => (o_root o, o_mesh o)) (nth_error h i).

(** The instance [ch] is not used, not even partly, by a configuration with another root or mesh
    than [p]. *)
Definition not_used_elsewhere (h : heap) (p ch : nat) : Prop :=
  forall i j, child h i j -> hreach h ch j -> ~ hreach h ch i -> labels h i = labels h p.

(** No configuration contains itself. *)
Definition acyclic (h : heap) : Prop := exists rank : nat -> nat, forall i j, child h i j -> rank j < rank i.

(** Scripts that store an instance only while it is not used elsewhere. *)
Inductive careful (step : heap -> hop -> result heap) : heap -> list hop -> heap -> Prop :=
| careful_nil : forall h, careful step h [] h
| careful_cons : forall h o h' rest h'', step h o = Ok h' ->
    (forall p name ch, o = HAttach p name ch -> not_used_elsewhere h p ch) ->
    careful step h' rest h'' -> careful step h (o :: rest) h''.
