(** Specification vocabulary for the time schemes; independent of the model. *)
From Coq Require Import String List Bool QArith ZArith Reals.
Import ListNotations.

(** The sequence of solutions of one run: the initial state followed by what
    the solver computed; before the start it is the initial state. *)
Definition solution {V} (init : V) (computed : list V) (k : nat) : V :=
  match k with O => init | S j => nth j computed init end.

(** Number of positive multiples of [m] below [n]. *)
Definition positive_multiples_below (m : Z) (n : nat) : nat :=
  List.length (filter (fun k => (0 <? Z.of_nat k) && (Z.of_nat k mod m =? 0))%Z (seq 0 n)).

(** The smaller of two rationals. *)
Definition smaller (a b : Q) : Q := if Qle_bool a b then a else b.
