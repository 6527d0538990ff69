(** Vocabulary for what conditions on named regions contribute (C87). *)
From Coq Require Import Reals String List Arith Bool.
From Verif Require Import Base Dict M_Bla M_Flow M_Formulation M_Weak M_Conditions S_Conditions S_Weak.
Import ListNotations.
Open Scope R_scope.
Open Scope list_scope.

Fixpoint sum_over {A} (l : list A) (f : A -> R) : R := match l with [] => 0 | a :: l' => f a + sum_over l' f end.

Definition cond_dec (a b : cond) : {a = b} + {a <> b}.
Proof. decide equality; [apply string_dec|]. decide equality; apply Nat.eq_dec. Defined.

(** What the conditions with terms contribute region by region: the integral of [g] over the points of the region, for every
    condition that is attached to it. *)
Definition by_region (region : nat -> string) (points : cond -> rule) (acts : cond -> bool) (g : cond -> nat -> R) (k : conditions) : R :=
  sum_over (k_data k) (fun rl => sum_over (nodup cond_dec (filter acts (snd rl)))
    (fun c => weighted (points c) (fun y => if String.eqb (region y) (fst rl) then g c y else 0))).

(** No two conditions are attached to exactly the same regions. *)
Definition distinct_regions (k : conditions) : Prop :=
  forall a b rs, attached_to k a rs -> attached_to k b rs -> rs <> [] -> a = b.

(** The statements with one name in each assignment. *)
Definition spread_op (o : op) : list op := match o with Assign p v => map (fun n => Assign (PSeq [n]) v) (pattern_names p) | _ => [o] end.
Definition spread (ops : list op) : list op := concat (map spread_op ops).

(** No region has more than one condition. *)
Definition one_each (k : conditions) : Prop := forall r l, dget (k_data k) r = Some l -> (length l <= 1)%nat.

(** Two objects that were created by the same keyword. *)
Definition twins (a b : cond) : Prop := a = b \/ exists m n, c_id a = Auto m /\ c_id b = Auto n /\ c_class a = c_class b.
