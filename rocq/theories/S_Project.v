(** Vocabulary for projected functions. *)
From Coq Require Import Reals String List Arith Permutation.
From Verif Require Import Base Dict M_Flow M_Conditions S_Conditions M_Weak S_Weak M_Project.
Import ListNotations.
Open Scope R_scope.
Open Scope list_scope.

(** The points of a rule that lie in the cell [e]. *)
Definition inside (cell : nat -> nat) (e : nat) (q : rule) : rule := at_points (fun x => Nat.eqb (cell x) e) q.

(** The polynomials on cells: a matter of the values in the cell, closed under sums and multiples, more for higher
    orders, and constants are among them. *)
Record polynomials (cell : nat -> nat) (shape : nat -> nat -> (nat -> R) -> Prop) : Prop := {
  shape_local : forall e p f g, (forall x, cell x = e -> f x = g x) -> shape e p f -> shape e p g;
  shape_plus : forall e p f g, shape e p f -> shape e p g -> shape e p (fun x => f x + g x);
  shape_scale : forall e p c f, shape e p f -> shape e p (fun x => c * f x);
  shape_constant : forall e p c, shape e p (fun _ => c);
  shape_order : forall e p p' f, (p <= p')%nat -> shape e p f -> shape e p' f;
  shape_zero : forall e f, shape e 0%nat f -> exists c, forall x, cell x = e -> f x = c }.

(** Both rules give the integral of products of polynomials of order [p] on the cell [e]. *)
Definition exact (cell : nat -> nat) (shape : nat -> nat -> (nat -> R) -> Prop) (q q' : rule) (e p : nat) : Prop :=
  forall f g, shape e p f -> shape e p g ->
    weighted (inside cell e q) (fun x => f x * g x) = weighted (inside cell e q') (fun x => f x * g x).

(** Positive weights, and some point in the cell. *)
Definition positive_in (cell : nat -> nat) (q : rule) (e : nat) : Prop :=
  (forall w x, In (w, x) (inside cell e q) -> 0 < w) /\ inside cell e q <> [].

(** A polynomial that vanishes at the points of the rule vanishes in the whole cell. *)
Definition unisolvent (cell : nat -> nat) (shape : nat -> nat -> (nat -> R) -> Prop) (q : rule) (e p : nat) : Prop :=
  forall f, shape e p f -> (forall w x, In (w, x) (inside cell e q) -> f x = 0) -> forall x, cell x = e -> f x = 0.

(** What is assumed of the quadrature rules that the code lets NGSolve choose. *)
Definition resolves (cell : nat -> nat) (shape : nat -> nat -> (nat -> R) -> Prop) (q q' : rule) (e p : nat) : Prop :=
  exact cell shape q q' e p /\ positive_in cell q' e /\ unisolvent cell shape q' e p.

(** The cell belongs to one of the regions of a layer. *)
Definition covered_by (name : nat -> string) (e : nat) (p : string) : Prop := exists names, names_of (PStr p) names /\ In (name e) names.

(** The sum of the functions of the layers that contain the cell of the point. *)
Inductive layer_sum (cell : nat -> nat) (name : nat -> string) (x : nat) : dict blayer -> R -> Prop :=
| sum_none : layer_sum cell name x [] 0
| sum_in p l rest f s : covered_by name (cell x) p -> bl_function l = Some f -> layer_sum cell name x rest s -> layer_sum cell name x ((p, l) :: rest) (f x + s)
| sum_out p l rest s : ~ covered_by name (cell x) p -> layer_sum cell name x rest s -> layer_sum cell name x ((p, l) :: rest) s.

(** The order in the cell is that of the last layer that contains it. *)
Definition order_at (name : nat -> string) (layers : dict blayer) (e p : nat) : Prop :=
  exists before key l after, layers = before ++ (key, l) :: after /\ covered_by name e key /\
    (forall key' l', In (key', l') after -> ~ covered_by name e key') /\ bl_order l = p.

(** No layer contains the cell. *)
Definition free (name : nat -> string) (layers : dict blayer) (e : nat) : Prop := forall key l, In (key, l) layers -> ~ covered_by name e key.

(** The mean square of the distance of two functions on the points of a rule. *)
Definition distance (q : rule) (f g : nat -> R) : R := weighted q (fun x => (f x - g x) ^ 2).

(** The mean value. *)
Definition mean (q : rule) (f : nat -> R) : R := weighted q f / weighted q (fun _ => 1).

(** The fields prescribed where a cell is. *)
Definition prescribed {A} (name : nat -> string) (items : dict A) (e : nat) (a : A) : Prop := exists p, In (p, a) items /\ covered_by name e p.
(** Every cell is in one of the domains at most. *)
Definition disjoint {A} (name : nat -> string) (items : dict A) : Prop := forall e a b, prescribed name items e a -> prescribed name items e b -> a = b.

(** The component [k] of the unknowns is a solution for every component. *)
Definition started (n : nat) (y : nat -> system) (u : nat -> list R) : Prop :=
  (forall x, length (u x) = n) /\ forall k, (k < n)%nat -> solution (y k) (fun x => nth k (u x) 0).

(** The two sides of a facet: [twin y] is the point opposite to [y]; rules weigh both sides alike, and functions on the
    facets are the same on both sides. *)
Definition two_sided (q : rule) (twin : nat -> nat) : Prop := Permutation (map (fun wx => (fst wx, twin (snd wx))) q) q.
Definition single_valued (facet : nat -> nat) (shape : nat -> nat -> (nat -> R) -> Prop) (twin : nat -> nat) : Prop :=
  (forall y, facet (twin y) = facet y) /\ (forall e p f y, shape e p f -> facet y = e -> f (twin y) = f y).
