(** Vocabulary for periodic flows: a domain with periodic boundaries and the domain of several periods (C89). *)
From Coq Require Import Reals List Arith Permutation.
From Verif Require Import Base M_Bla M_Flow M_Formulation M_Weak M_Mixed.
Import ListNotations.
Open Scope R_scope.
Open Scope list_scope.

(** Several copies of a domain: their number, the point of a copy above a point of the domain, and the point below. *)
Record periods := mk_periods { copies : nat; at_copy : nat -> nat -> nat; below : nat -> nat }.
Definition periods_ok (K : periods) : Prop := (0 < copies K)%nat /\ forall x j, below K (at_copy K x j) = x.

(** Quadrature over all copies. *)
Definition unroll (K : periods) (q : rule) : rule := concat (map (fun wx => map (fun j => (fst wx, at_copy K (snd wx) j)) (seq 0 (copies K))) q).
Definition unroll_rules (K : periods) (r : rules) : rules :=
  mk_rules (unroll K (r_cvol r)) (unroll K (r_cbnd r)) (unroll K (r_dvol r)) (unroll K (r_dbnd r)) (unroll K (r_time r)).

(** The copies look like the domain; facets between the copies are no domain boundary, as periodic boundaries are none. *)
Definition unrolled (K : periods) (m m' : mesh) : Prop := forall y j,
  normal m' (at_copy K y j) = normal m y /\ outer_facet m' (facet m' (at_copy K y j)) = outer_facet m (facet m y).

(** The same flow in all copies. *)
Definition repeated_flow (K : periods) (u u' : unknowns) : Prop := forall x j,
  uU u' (at_copy K x j) = uU u x /\ uUhat u' (at_copy K x j) = uUhat u x /\ uQ u' (at_copy K x j) = uQ u x.
Definition repeated_scheme (K : periods) (sc sc' : scheme) : Prop :=
  match sc, sc' with
  | IE dt n, IE dt' n' => dt' = dt /\ forall x j, n' (at_copy K x j) = n x
  | BDF dt n nm1, BDF dt' n' nm1' => dt' = dt /\ forall x j, n' (at_copy K x j) = n x /\ nm1' (at_copy K x j) = nm1 x
  | _, _ => False
  end.
(** The same boundary conditions and sponge layers in all copies. *)
Definition repeated_term (K : periods) (b b' : bterm) : Prop :=
  b_rule b' = unroll K (b_rule b) /\ forall y j, b_vector b' (at_copy K y j) = b_vector b y.
Definition repeated_layer (K : periods) (l l' : sponge) : Prop :=
  s_rule l' = unroll K (s_rule l) /\ forall x j, s_target l' (at_copy K x j) = s_target l x /\ s_function l' (at_copy K x j) = s_function l x.

(** The sum over the copies; what the domain sees of a test function; a test function of the domain spread over the copies. *)
Definition over_copies (K : periods) (f : nat -> R) : R := fold_right (fun j a => f j + a) 0 (seq 0 (copies K)).
Definition gather (K : periods) (d : nat) (t : test) : test :=
  mk_test (fun x => map (fun k => over_copies K (fun j => nth k (tV t (at_copy K x j)) 0)) (seq 0 (d + 2)))
          (fun x => mk_matrix (d + 2) d (map (fun k => over_copies K (fun j => nth k (entries (tdV t (at_copy K x j))) 0)) (seq 0 ((d + 2) * d))))
          (fun x => map (fun k => over_copies K (fun j => nth k (tVhat t (at_copy K x j)) 0)) (seq 0 (d + 2))).
Definition spread (K : periods) (t : test) : test :=
  let c := / INR (copies K) in
  mk_test (fun p => map (Rmult c) (tV t (below K p)))
          (fun p => mk_matrix (rows (tdV t (below K p))) (cols (tdV t (below K p))) (map (Rmult c) (entries (tdV t (below K p)))))
          (fun p => map (Rmult c) (tVhat t (below K p))).

(** The other side of a facet of a copy lies in the copy that [next] tells: the same one inside the domain, a neighbour at
    its periodic boundaries. *)
Definition glued (K : periods) (twin twin' : nat -> nat) : Prop := (forall p, below K (twin' p) = twin (below K p)) /\ exists next : nat -> nat -> nat,
  forall y, (forall j, (j < copies K)%nat -> twin' (at_copy K y j) = at_copy K (twin y) (next y j)) /\
            Permutation (map (next y) (seq 0 (copies K))) (seq 0 (copies K)).

(** The mixed test functions of one copy, of both mixed methods. *)
Definition in_copy (K : periods) (j : nat) (P : mixed_test) : mixed_test := mk_mixed_test (fun x => tP P (at_copy K x j)) (fun x => tdP P (at_copy K x j)).
Definition gradient_in_copy (K : periods) (j : nat) (P : gradient_test) : gradient_test := mk_gradient_test (fun x => tG P (at_copy K x j)) (fun x => tdivG P (at_copy K x j)).
