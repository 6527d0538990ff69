(** Model of [Timer] (dream/time.py:17-65).  Floats are idealised as exact
    rationals; everything else follows the code branch by branch. *)
From Coq Require Import QArith Qround ZArith List Bool.
From Verif Require Import Base S_Timer.
Import ListNotations.
Local Open Scope Q_scope.

(** Python's built-in [round(x)] to an integer: round half to even
    (used at dream/time.py:45). *)
Definition py_round (q : Q) : Z :=
  let f := Qfloor q in
  match Qcompare (q - inject_Z f) (1 # 2) with
  | Lt => f
  | Gt => (f + 1)%Z
  | Eq => if Z.even f then f else (f + 1)%Z
  end.

(** 10^d as a rational (the scale of Python's [round] in dream/time.py:49). *)
Definition pow10 (d : nat) : Q := inject_Z (10 ^ Z.of_nat d).

(** Python's [round(x, d)] (used at dream/time.py:49), on exact rationals. *)
Definition py_round_digits (q : Q) (d : nat) : Q :=
  inject_Z (py_round (q * pow10 d)) / pow10 d.

(** [len(digits.rstrip("0"))] where [frac] is the integer whose [k] decimal
    digits are the string [digits] (dream/time.py:60-61). *)
Fixpoint strip_zeros (k : nat) (frac : Z) : nat :=
  match k with
  | O => O
  | S k' => if (frac mod 10 =? 0)%Z then strip_zeros k' (frac / 10)%Z else k
  end.

(** [Timer._set_digit] (dream/time.py:59-61): [f"{step:.16f}"] rounds the step
    to 16 decimals; the digits after the point are stripped of trailing zeros. *)
Definition set_digit (step : Q) : nat :=
  let n := Z.abs (py_round (step * pow10 16)) in
  strip_zeros 16 (n mod 10 ^ 16)%Z.

(** The state of a [Timer] configuration (dream/time.py:19-38): interval, step,
    current time and the derived attribute [digit] (set by the step setter). *)
Record timer := mk_timer {
  tm_interval : Q * Q;
  tm_step : Q;
  tm_t : Q;
  tm_digit : nat
}.

(** [Timer] after [clear] (dream/config.py:405-408) with the defaults of
    dream/time.py:19, 31, 36. *)
Definition timer_default : timer :=
  mk_timer (0, 1) (1 # 10000) 0 (set_digit (1 # 10000)).

(** [Timer.interval] setter (dream/time.py:19-29 through dream/config.py:168-172).
    The assigned sequence is a list; unpacking a sequence of another length
    than two raises ValueError.  [float(...)] is the identity here. *)
Definition interval_fset (v : list Q) : result (Q * Q) :=
  match v with
  | [start; end_] =>
      if negb (Qle_bool 0 start) || negb (Qle_bool 0 end_) then Err ValueError
      else if Qle_bool end_ start then Err ValueError
      else Ok (start, end_)
  | _ => Err ValueError
  end.

(** Assignment [timer.interval = v]: the state after it and the exception, if
    any (dream/config.py:168-172: [fset] runs before the store). *)
Definition set_interval (tm : timer) (v : list Q) : timer * option exn :=
  match interval_fset v with
  | Ok i => (mk_timer i (tm_step tm) (tm_t tm) (tm_digit tm), None)
  | Err e => (tm, Some e)
  end.

(** Assignment [timer.step = h] (dream/time.py:31-34, dream/config.py:194-202). *)
Definition set_step (tm : timer) (h : Q) : timer :=
  mk_timer (tm_interval tm) h (tm_t tm) (set_digit h).

(** Assignment [timer.t = t] (dream/time.py:36-38). *)
Definition set_t (tm : timer) (t : Q) : timer :=
  mk_timer (tm_interval tm) (tm_step tm) t (tm_digit tm).

(** Python [range(lo, hi)] on integers. *)
Definition zrange (lo hi : Z) : list Z :=
  map (fun k => (lo + Z.of_nat k)%Z) (seq 0 (Z.to_nat (hi - lo))).

(** [Timer.start] (dream/time.py:40-49): for every yielded value the pair
    (value of the parameter [t] at that moment, yielded label).
    A zero denominator raises ZeroDivisionError at line 45. *)
Definition timer_start (tm : timer) (include_start : bool) (stride : Z) : result (list (Q * Q)) :=
  let '(start, end_) := tm_interval tm in
  let step := tm_step tm in
  let den := inject_Z stride * step in
  if Qeq_bool den 0 then Err ZeroDivisionError
  else
    let N := (py_round ((end_ - start) / den) + 1)%Z in
    Ok (map (fun i =>
               let t := start + inject_Z stride * inject_Z i * step in
               (t, py_round_digits t (tm_digit tm)))
            (zrange (if include_start then 0 else 1)%Z N)).

(** The timer after the generator has run to completion: [t] holds the last
    value assigned at dream/time.py:48. *)
Definition timer_after (tm : timer) (vals : list (Q * Q)) : timer :=
  set_t tm (List.last (map fst vals) (tm_t tm)).

(** [Timer.to_array] (dream/time.py:51-52). *)
Definition timer_to_array (tm : timer) (include_start : bool) (stride : Z) : result (list Q) :=
  let* vals := timer_start tm include_start stride in Ok (map snd vals).

(** [Timer.__call__] without keyword arguments (dream/time.py:54-57). *)
Definition timer_call (tm : timer) : result (list Q) :=
  timer_to_array tm false 1.

(** One user assignment [timer.interval = v] / [timer.step = h] / [timer.t = t]
    (dream/time.py:19-38); an exception leaves the state of [set_interval]. *)
Definition timer_exec (tm : timer) (o : timer_action) : timer :=
  match o with
  | AssignInterval v => fst (set_interval tm v)
  | AssignStep h => set_step tm h
  | AssignT t => set_t tm t
  end.
