(** Specification vocabulary for the timer properties; independent of the model. *)
From Coq Require Import QArith ZArith List.
Import ListNotations.
Local Open Scope Q_scope.

(** [x] has at most [d] decimal places. *)
Definition has_decimals (d : nat) (x : Q) : Prop :=
  exists z : Z, x * inject_Z (10 ^ Z.of_nat d) == inject_Z z.

(** The [i]-th element of [l] exists and equals [x] as a number. *)
Definition nth_is (l : list Q) (i : nat) (x : Q) : Prop :=
  exists y, nth_error l i = Some y /\ y == x.

(** [l] is strictly increasing. *)
Definition increasing (l : list Q) : Prop :=
  forall i j x y, (i < j)%nat -> nth_error l i = Some x -> nth_error l j = Some y -> x < y.

(** No number occurs at two positions of [l]. *)
Definition distinct (l : list Q) : Prop :=
  forall i j x y, nth_error l i = Some x -> nth_error l j = Some y -> x == y -> i = j.

(** A time interval a user may integrate over. *)
Definition valid_interval (ab : Q * Q) : Prop := 0 <= fst ab /\ fst ab < snd ab.

(** What the user asked for: the sequence assigned is a pair [a, b] with 0 <= a < b. *)
Definition acceptable (v : list Q) : Prop :=
  exists a b, v = [a; b] /\ 0 <= a /\ a < b.

(** What a user may assign on a timer. *)
Inductive timer_action := AssignInterval (v : list Q) | AssignStep (h : Q) | AssignT (t : Q).

(** The interval a user expects after a history of assignments starting from
    [init]: the last acceptable one; rejected assignments leave it untouched. *)
Fixpoint expected_interval (init : Q * Q) (ops : list timer_action) (cur : Q * Q) : Prop :=
  match ops with
  | [] => cur = init
  | o :: rest =>
      exists next, expected_interval next rest cur /\
        match o with
        | AssignInterval v => (exists a b, v = [a; b] /\ 0 <= a /\ a < b /\ next = (a, b)) \/
                              (~ acceptable v /\ next = init)
        | _ => next = init
        end
  end.

(** Number of the first point visited: 0 when the start is included, else 1. *)
Definition first_number (include_start : bool) : Z := if include_start then 0%Z else 1%Z.
