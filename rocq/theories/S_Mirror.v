(** Vocabulary for a flow that is mirrored at a plane. *)
From Coq Require Import Reals String List Arith Bool.
From Verif Require Import Base M_Bla M_Flow M_Formulation M_Weak M_Mixed S_Flow S_Chars S_Formulation S_Stress S_Weak S_Mixed S_Turn.
Import ListNotations.
Open Scope R_scope.
Open Scope list_scope.

(** The mirror image at the plane with unit normal [n]. *)
Definition reflection (n : list R) (i j : nat) : R := delta i j - 2 * nth i n 0 * nth j n 0.

(** A field on both sides: the points of the half have even numbers, their images odd ones. *)
Definition both {X : Type} (here there : nat -> X) (x : nat) : X := if Nat.odd x then there (Nat.div2 x) else here (Nat.div2 x).

Definition image (x : nat) : nat := S (2 * x).

Definition doubled (q : rule) : rule := map (fun wx => (fst wx, (2 * snd wx)%nat)) q ++ map (fun wx => (fst wx, image (snd wx))) q.

(** The mesh made of the half and its image: the facets on the plane are common to both and no longer on the boundary. *)
Definition doubled_mesh (d : nat) (A : nat -> nat -> R) (plane : nat -> bool) (m : mesh) : mesh :=
  mk_mesh (both (fun x => 2 * element m x)%nat (fun x => image (element m x)))
    (both (fun y => 2 * facet m y)%nat (fun y => if plane (facet m y) then (2 * facet m y)%nat else image (facet m y)))
    (both (normal m) (fun y => turn_vector d A (normal m y)))
    (fun f => negb (plane (Nat.div2 f)) && outer_facet m (Nat.div2 f)).

Definition doubled_rules (r : rules) : rules :=
  mk_rules (doubled (r_cvol r)) (doubled (r_cbnd r)) (doubled (r_dvol r)) (doubled (r_dbnd r)) (doubled (r_time r)).

(** The flow and its mirror image. *)
Definition doubled_unknowns (d : nat) (A : nat -> nat -> R) (u : unknowns) : unknowns :=
  mk_unknowns (both (uU u) (fun x => turn d A (uU u x))) (both (uUhat u) (fun x => turn d A (uUhat u x))) (both (uQ u) (uQ u)).

Definition doubled_scheme (d : nat) (A : nat -> nat -> R) (sc : scheme) : scheme :=
  match sc with
  | IE dt n => IE dt (both n (fun x => turn d A (n x)))
  | BDF dt n nm1 => BDF dt (both n (fun x => turn d A (n x))) (both nm1 (fun x => turn d A (nm1 x)))
  end.

(** A boundary condition and its image, a sponge layer and its image. *)
Definition doubled_terms (bs bs' : list bterm) : list bterm :=
  map (fun p => mk_bterm (doubled (b_rule (fst p))) (both (b_vector (fst p)) (b_vector (snd p)))) (combine bs bs').
Definition doubled_layers (ls ls' : list sponge) : list sponge :=
  map (fun p => mk_sponge (doubled (s_rule (fst p))) (both (s_target (fst p)) (s_target (snd p))) (both (s_function (fst p)) (s_function (snd p)))) (combine ls ls').

(** The parts of a test function on the two sides. *)
Definition here_test (t : test) : test := mk_test (fun x => tV t (2 * x)%nat) (fun x => tdV t (2 * x)%nat) (fun x => tVhat t (2 * x)%nat).
Definition there_test (t : test) : test := mk_test (fun x => tV t (image x)) (fun x => tdV t (image x)) (fun x => tVhat t (image x)).

(** The test functions of the doubled mesh: both parts are test functions of the half and on the plane there is one value. *)
Definition doubled_space (d : nat) (A : nat -> nat -> R) (plane : nat -> bool) (m : mesh) (W : test -> Prop) (t : test) : Prop :=
  W (here_test t) /\ W (turn_test d A (there_test t)) /\ well_formed d t /\ forall y, plane (facet m y) = true -> tVhat t (image y) = tVhat t (2 * y)%nat.

(** The condition of a symmetry on the points of a rule. *)
Definition symmetry_term (s : settings) (m : mesh) (u : unknowns) (q : rule) : bterm :=
  mk_bterm q (fun y => inviscid_wall_residual s (uU u y) (uUhat u y) (normal m y)).

(** The Riemann solvers that see a flow and its image alike. *)
Definition fair (s : settings) : Prop := s_riemann s <> Upwind /\ (s_dim s = 2%nat \/ s_riemann s = LaxFriedrich \/ s_riemann s = HLL).
