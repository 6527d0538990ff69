(** Vocabulary for time marching: norms, dissipative problems, runs. *)
From Coq Require Import Reals String List.
From Coquelicot Require Import Coquelicot.
From Verif Require Import Base Dict M_Scheme S_Scheme M_March M_Weak S_Weak.
Import ListNotations.
Local Open Scope R_scope.

(** Inner product and norm of functions given at the points of a rule. *)
Definition ip (q : rule) (u v : nat -> R) : R := weighted q (fun x => u x * v x).
Definition norm (q : rule) (u : nat -> R) : R := sqrt (ip q u u).
Definition minus (u v : nat -> R) : nat -> R := fun x => u x - v x.

Definition nonnegative (q : rule) : Prop := forall w x, In (w, x) q -> 0 <= w.
(** The sum of the weights. *)
Definition volume (q : rule) : R := weighted q (fun _ => 1).

(** A space of functions. *)
Definition subspace (W : (nat -> R) -> Prop) : Prop := forall u v, W u -> W v -> W (minus u v).

(** The spatial forms of all time steps are dissipative: the distance of two solutions does not grow. *)
Definition dissipative (W : (nat -> R) -> Prop) (a : nat -> (nat -> R) -> (nat -> R) -> R) : Prop :=
  forall k u v, W u -> W v -> 0 <= a k u (minus u v) - a k v (minus u v).

(** The solver leaves a function whose residual is [r k] in step [k]; the equation of the step is formed from the levels stored so
    far. *)
Definition marches (sc : scheme_kind) (dt : R) (q : rule) (W : (nat -> R) -> Prop) (a : nat -> (nat -> R) -> (nat -> R) -> R) (r : nat -> nat -> R)
  (zero : nat -> R) (start : dict (nat -> R)) (var : string) (sols : list (string -> nat -> R)) : Prop :=
  forall k sol, nth_error sols k = Some sol ->
    W (sol var) /\
    exists g0 g gv, scheme_start (time_levels sc) zero start = Ok g0 /\ iterate_steps (transient_step (time_levels sc)) g0 (firstn k sols) = Ok g /\
      dget g var = Some gv /\
      forall v, W v -> exists T, temporal_form sc dt q gv (sol var) v = Ok T /\ T + a k (sol var) v = ip q (r k) v.

(** An exact solution at the times [t0 + dt], [t0 + 2 dt], ... *)
Definition exact_solution (q : rule) (W : (nat -> R) -> Prop) (a : nat -> (nat -> R) -> (nat -> R) -> R) (t0 dt : R) (U : R -> nat -> R) : Prop :=
  forall k, W (U (t0 + INR (S k) * dt)) /\
    forall v, W v -> ip q (fun x => Derive (fun t => U t x) (t0 + INR (S k) * dt)) v + a k (U (t0 + INR (S k) * dt)) v = 0.

(** [n] derivatives exist, and the last is bounded from the time [t1] on. *)
Definition smooth (n : nat) (M t1 : R) (U : R -> nat -> R) : Prop :=
  forall x, (forall t k, (k <= n)%nat -> ex_derive_n (fun s => U s x) k t) /\ forall t, t1 <= t -> Rabs (Derive_n (fun s => U s x) n t) <= M.

(** Sum of the first [n] terms. *)
Fixpoint accumulated (f : nat -> R) (n : nat) : R := match n with O => 0 | S m => accumulated f m + f m end.
