(** Vocabulary for a turn of the coordinate system: rotations and reflections of vectors, states, gradients and of the whole discrete problem. *)
From Coq Require Import Reals String List Arith Bool.
From Verif Require Import Base M_Bla M_Flow M_Formulation M_Weak M_Mixed S_Flow S_Chars S_Formulation S_Stress S_Weak S_Mixed.
Import ListNotations.
Open Scope R_scope.
Open Scope list_scope.

(** The matrix of the turn, by its entries; rows and columns are orthonormal. *)
Definition orthogonal (d : nat) (A : nat -> nat -> R) : Prop :=
  forall j k, (j < d)%nat -> (k < d)%nat ->
    total d (fun i => A i j * A i k) = delta j k /\ total d (fun i => A j i * A k i) = delta j k.

(** Component [i] of the turned vector with components [x]. *)
Definition turn_of (d : nat) (A : nat -> nat -> R) (x : nat -> R) (i : nat) : R := total d (fun k => A i k * x k).

Definition turn_vector (d : nat) (A : nat -> nat -> R) (v : list R) : list R := map (turn_of d A (fun k => nth k v 0)) (seq 0 d).

(** Mass and energy stay, the momentum turns. *)
Definition carry (d : nat) (A : nat -> nat -> R) (x : nat -> R) (i : nat) : R :=
  if (i =? 0)%nat then x 0%nat else if (i <=? d)%nat then turn_of d A (fun k => x (k + 1)%nat) (i - 1) else x i.

Definition turn (d : nat) (A : nat -> nat -> R) (U : list R) : list R := map (carry d A (fun k => nth k U 0)) (seq 0 (d + 2)).

Definition turn_state (A : nat -> nat -> R) (st : state) : state := mk_state (st_rho st) (turn_vector (length (st_u st)) A (st_u st)) (st_p st).

(** A tensor turns in both indices. *)
Definition turn_tensor (d : nat) (A : nat -> nat -> R) (m : matrix) : matrix :=
  tabulate d d (fun i j => total d (fun k => total d (fun l => A i k * entry m k l * A j l))).

(** The gradient of a vector of mass, momentum and energy. *)
Definition turn_gradient (d : nat) (A : nat -> nat -> R) (m : matrix) : matrix :=
  tabulate (d + 2) d (fun i j => carry d A (fun k => total d (fun l => entry m k l * A j l)) i).

(** ** The discrete problem *)

Definition turn_mesh (d : nat) (A : nat -> nat -> R) (m : mesh) : mesh :=
  mk_mesh (element m) (facet m) (fun y => turn_vector d A (normal m y)) (outer_facet m).

Definition turn_unknowns (d : nat) (A : nat -> nat -> R) (Q : nat -> grads) (u : unknowns) : unknowns :=
  mk_unknowns (fun x => turn d A (uU u x)) (fun x => turn d A (uUhat u x)) Q.

Definition turn_test (d : nat) (A : nat -> nat -> R) (t : test) : test :=
  mk_test (fun x => turn d A (tV t x)) (fun x => turn_gradient d A (tdV t x)) (fun x => turn d A (tVhat t x)).

Definition turn_scheme (d : nat) (A : nat -> nat -> R) (sc : scheme) : scheme :=
  match sc with IE dt n => IE dt (fun x => turn d A (n x)) | BDF dt n nm1 => BDF dt (fun x => turn d A (n x)) (fun x => turn d A (nm1 x)) end.

(** The strain rate and the temperature gradient are turned. *)
Definition turned_gradients (s : settings) (A : nat -> nat -> R) (dU dU' : grads) : Prop :=
  exists eps dT, viscous_gradients s eps dT dU /\ viscous_gradients s (turn_tensor (s_dim s) A eps) (turn_vector (s_dim s) A dT) dU'.

(** A vector that is computed is computed turned. *)
Definition turned_result (d : nat) (A : nat -> nat -> R) (r r' : result (list R)) : Prop :=
  forall v, r = Ok v -> length v = (d + 2)%nat /\ r' = Ok (turn d A v).

(** Boundary conditions with the same rules and turned vectors. *)
Definition turned_terms (d : nat) (A : nat -> nat -> R) : list bterm -> list bterm -> Prop :=
  Forall2 (fun b b' => b_rule b' = b_rule b /\ forall w y, In (w, y) (b_rule b) -> turned_result d A (b_vector b y) (b_vector b' y)).

(** Sponge layers with the same rules and functions and turned targets. *)
Definition turned_layers (s : settings) (A : nat -> nat -> R) : list sponge -> list sponge -> Prop :=
  Forall2 (fun l l' => s_rule l' = s_rule l /\ forall w x, In (w, x) (s_rule l) ->
    s_function l' x = s_function l x /\ turned_result (s_dim s) A (conservative_vector s (s_target l x)) (conservative_vector s (s_target l' x))).

(** The flow is given by states of the gas. *)
Definition gas (s : settings) (u : unknowns) : Prop :=
  forall x, (exists st, valid st /\ length (st_u st) = s_dim s /\ uU u x = conservative_list (s_gamma s) st) /\
            (exists st, valid st /\ length (st_u st) = s_dim s /\ uUhat u x = conservative_list (s_gamma s) st).

(** Normals of unit length with the right number of components. *)
Definition unit_normals (d : nat) (m : mesh) : Prop := forall y, length (normal m y) = d /\ inner (normal m y) (normal m y) = 1.

(** The turned test functions. *)
Definition turn_space (d : nat) (A : nat -> nat -> R) (W : test -> Prop) (t' : test) : Prop := exists t, W t /\ t' = turn_test d A t.

(** The vectors of a flow container. *)
Definition turn_flow (d : nat) (A : nat -> nat -> R) (U : flow) : flow :=
  mk_flow (f_rho U) (option_map (turn_vector d A) (f_u U)) (option_map (turn_vector d A) (f_rho_u U)) (f_p U) (f_T U) (f_rho_E U) (f_E U)
    (f_rho_Ei U) (f_Ei U) (f_rho_Ek U) (f_Ek U) (f_rho_H U) (f_H U) (f_c U).

(** ** The mixed unknown of a flow in the plane: strain rate (xx, xy, yy) and temperature gradient *)

Definition turn_five (A : nat -> nat -> R) (Q : list R) : list R :=
  let e i j := total 2 (fun k => total 2 (fun l => A i k * stored Q k l * A j l)) in
  [e 0 0; e 0 1; e 1 1]%nat ++ map (turn_of 2 A (fun k => nth (3 + k) Q 0)) [0; 1]%nat.

Definition turn_mixed (A : nat -> nat -> R) (P : mixed_test) : mixed_test :=
  mk_mixed_test (fun x => turn_five A (tP P x))
    (fun x => tabulate 5 2 (fun k j => total 2 (fun l => A j l * nth k (turn_five A (map (fun i => entry (tdP P x) i l) (seq 0 5))) 0))).

(** The rotation of the plane with cosine [a] and sine [b]. *)
Definition rotation (a b : R) (i j : nat) : R := match i, j with O, O => a | O, _ => - b | _, O => b | _, _ => a end.
