(** Vocabulary for the compressible flow properties: the physical state and the quantities that the ideal gas law
    and the definitions of the energies assign to it. *)
From Coq Require Import Reals List Arith Lra.
From Coquelicot Require Import Coquelicot.
From Verif Require Import Base M_Bla M_Flow.
Import ListNotations.
Open Scope R_scope.

(** A state of the gas: density, velocity, pressure. *)
Record state := mk_state { st_rho : R; st_u : list R; st_p : R }.

Definition valid (s : state) : Prop := 0 < st_rho s /\ 0 < st_p s.

(** Dimensionless ideal gas: p = (g - 1)/g rho T, c^2 = g p/rho, rho Ei = p/(g - 1); E = Ei + |u|^2/2, H = E + p/rho. *)
Section Quantities.
Variable g : R.
Definition q_T (s : state) : R := g * st_p s / ((g - 1) * st_rho s).
Definition q_c (s : state) : R := sqrt (g * st_p s / st_rho s).
Definition q_rho_Ei (s : state) : R := st_p s / (g - 1).
Definition q_Ei (s : state) : R := q_rho_Ei s / st_rho s.
Definition q_Ek (s : state) : R := inner (st_u s) (st_u s) / 2.
Definition q_rho_Ek (s : state) : R := st_rho s * q_Ek s.
Definition q_E (s : state) : R := q_Ei s + q_Ek s.
Definition q_rho_E (s : state) : R := st_rho s * q_E s.
Definition q_H (s : state) : R := q_E s + st_p s / st_rho s.
Definition q_rho_H (s : state) : R := st_rho s * q_H s.
Definition q_rho_u (s : state) : list R := map (fun a => st_rho s * a) (st_u s).
End Quantities.

(** What is given is right. *)
Definition given {A} (o : option A) (v : A) : Prop := forall x, o = Some x -> x = v.

(** The fields describe the state. *)
Definition describes (g : R) (s : state) (U : flow) : Prop :=
  given (f_rho U) (st_rho s) /\ given (f_u U) (st_u s) /\ given (f_rho_u U) (q_rho_u s) /\ given (f_p U) (st_p s) /\
  given (f_T U) (q_T g s) /\ given (f_rho_E U) (q_rho_E g s) /\ given (f_E U) (q_E g s) /\ given (f_rho_Ei U) (q_rho_Ei g s) /\
  given (f_Ei U) (q_Ei g s) /\ given (f_rho_Ek U) (q_rho_Ek s) /\ given (f_Ek U) (q_Ek s) /\ given (f_rho_H U) (q_rho_H g s) /\
  given (f_H U) (q_H g s) /\ given (f_c U) (q_c g s).

(** The fields by name, and whether they are given. *)
Inductive fname := Rho | Uu | RhoU | Pp | Tt | RhoE | Ee | RhoEi | Eie | RhoEk | Eke | RhoH | Hh | Cc.
Definition some {A} (o : option A) : bool := match o with Some _ => true | None => false end.
Definition has (U : flow) (f : fname) : bool :=
  match f with
  | Rho => some (f_rho U) | Uu => some (f_u U) | RhoU => some (f_rho_u U) | Pp => some (f_p U) | Tt => some (f_T U)
  | RhoE => some (f_rho_E U) | Ee => some (f_E U) | RhoEi => some (f_rho_Ei U) | Eie => some (f_Ei U) | RhoEk => some (f_rho_Ek U)
  | Eke => some (f_Ek U) | RhoH => some (f_rho_H U) | Hh => some (f_H U) | Cc => some (f_c U)
  end.

(** One of the listed combinations of fields is given. *)
Definition determined (sources : list (list fname)) (U : flow) : Prop :=
  exists l, In l sources /\ forall f, In f l -> has U f = true.

(** A function that answers exactly on the listed combinations and raises ValueError otherwise. *)
Definition answers {A} (sources : list (list fname)) (U : flow) (r : result A) : Prop :=
  (determined sources U /\ exists v, r = Ok v) \/ (~ determined sources U /\ r = Err ValueError).

(** ** Derivatives along the coordinate lines *)

(** [line i t]: the state at the point moved by [t] in coordinate direction [i]. *)
Definition is_gradient (d : nat) (line : nat -> R -> state) (q : state -> R) (l : list R) : Prop :=
  length l = d /\ forall i, (i < d)%nat -> is_derive (fun t => q (line i t)) 0 (nth i l 0).

(** Gradient of a vector: entry (j, i) is the derivative of component j in direction i. *)
Definition is_jacobian (d : nat) (line : nat -> R -> state) (q : state -> list R) (m : matrix) : Prop :=
  rows m = d /\ cols m = d /\ length (entries m) = (d * d)%nat /\
  forall i j, (i < d)%nat -> (j < d)%nat -> is_derive (fun t => nth j (q (line i t)) 0) 0 (entry m j i).

Definition given_gradient d line q (o : option (list R)) : Prop := forall l, o = Some l -> is_gradient d line q l.
Definition given_jacobian d line q (o : option matrix) : Prop := forall m, o = Some m -> is_jacobian d line q m.

(** The gradients describe the state along the coordinate lines. *)
Definition describes_gradients (g : R) (d : nat) (line : nat -> R -> state) (dU : grads) : Prop :=
  given_gradient d line st_rho (g_rho dU) /\ given_jacobian d line st_u (g_u dU) /\ given_jacobian d line q_rho_u (g_rho_u dU) /\
  given_gradient d line st_p (g_p dU) /\ given_gradient d line (q_T g) (g_T dU) /\ given_gradient d line (q_rho_E g) (g_rho_E dU) /\
  given_gradient d line (q_E g) (g_E dU) /\ given_gradient d line (q_rho_Ei g) (g_rho_Ei dU) /\ given_gradient d line (q_Ei g) (g_Ei dU) /\
  given_gradient d line q_rho_Ek (g_rho_Ek dU) /\ given_gradient d line q_Ek (g_Ek dU) /\ given_gradient d line (q_rho_H g) (g_rho_H dU).

(** The coordinate lines start in the state [s] and run through valid states of dimension [d] near it. *)
Definition smooth_lines (d : nat) (s : state) (line : nat -> R -> state) : Prop :=
  forall i, (i < d)%nat -> line i 0 = s /\ locally 0 (fun t => valid (line i t) /\ length (st_u (line i t)) = d).

(** ** Matrices *)

(** Equality of matrices of known shape, entry by entry. *)
Definition meq (n m : nat) (a b : matrix) : Prop :=
  rows a = n /\ cols a = m /\ rows b = n /\ cols b = m /\ forall i j, (i < n)%nat -> (j < m)%nat -> entry a i j = entry b i j.

(** ** Gradients by name *)
Inductive gname := GRho | GU | GRhoU | GP | GT | GRhoE | GE | GRhoEi | GEi | GRhoEk | GEk | GRhoH | GEps.
Definition has_gradient (dU : grads) (f : gname) : bool :=
  match f with
  | GRho => some (g_rho dU) | GU => some (g_u dU) | GRhoU => some (g_rho_u dU) | GP => some (g_p dU) | GT => some (g_T dU)
  | GRhoE => some (g_rho_E dU) | GE => some (g_E dU) | GRhoEi => some (g_rho_Ei dU) | GEi => some (g_Ei dU) | GRhoEk => some (g_rho_Ek dU)
  | GEk => some (g_Ek dU) | GRhoH => some (g_rho_H dU) | GEps => some (g_eps dU)
  end.

(** One of the listed combinations of fields and gradients is given. *)
Definition determined_gradient (sources : list (list fname * list gname)) (U : flow) (dU : grads) : Prop :=
  exists l k, In (l, k) sources /\ (forall f, In f l -> has U f = true) /\ (forall f, In f k -> has_gradient dU f = true).
Definition answers_gradient {A} (sources : list (list fname * list gname)) (U : flow) (dU : grads) (r : result A) : Prop :=
  (determined_gradient sources U dU /\ exists v, r = Ok v) \/ (~ determined_gradient sources U dU /\ r = Err ValueError).
