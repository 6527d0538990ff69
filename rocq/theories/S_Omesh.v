(** Specification vocabulary for triangulations. *)
From Coq Require Import Reals List Arith.
Import ListNotations.

(** The directed edges of a triangle and of a list of triangles. *)
Definition sides (t : nat * nat * nat) : list (nat * nat) := let '(a, b, c) := t in [(a, b); (b, c); (c, a)].
Definition directed_edges (ts : list (nat * nat * nat)) : list (nat * nat) := flat_map sides ts.

(** A segment joins two points, in either direction. *)
Definition joins (s : (nat * nat) * nat) (u v : nat) : Prop := fst s = (u, v) \/ fst s = (v, u).

(** Number of segments with a label. *)
Definition labelled (k : nat) (ss : list ((nat * nat) * nat)) : nat := length (filter (fun s => snd s =? k) ss).

(** Twice the signed area of a triangle in the plane. *)
Definition area2 (a b c : R * R) : R :=
  ((fst b - fst a) * (snd c - snd a) - (fst c - fst a) * (snd b - snd a))%R.
