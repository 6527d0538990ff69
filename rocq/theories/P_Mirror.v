(** C82: a symmetry boundary computes half of a mirror symmetric flow. *)
From Coq Require Import Reals String List Arith Bool Lia Lra FunctionalExtensionality.
From Coquelicot Require Import Coquelicot.
From Verif Require Import Base M_Bla M_Flow M_Formulation M_Weak M_Mixed S_Flow S_Chars S_Formulation S_Stress S_Weak S_Mixed S_Trace S_Turn S_Mirror L_Flow L_Formulation L_Weak P_Eos P_Chars P_Jacobian P_Split P_Riemann P_Boundary P_Unknowns P_Walls L_Small L_Curve L_Turn P_Stress P_Trace L_Turn2 P_Mixed P_Turn P_Turn2 P_Turn3.
From Verif Require Import S_Formulation.
Import ListNotations.
Open Scope R_scope.
Open Scope list_scope.

(** ** The mirror image *)

Section Reflection.
Variables (d : nat) (n : list R).
Hypothesis Ln : length n = d.
Hypothesis N : inner n n = 1.
Notation A := (reflection n).

Lemma reflection_of x i : (i < d)%nat -> turn_of d A x i = x i - 2 * nth i n 0 * total d (fun k => nth k n 0 * x k).
Proof.
  intros I. unfold turn_of, reflection. rewrite (total_ext _ (fun k => delta i k * x k + (- 2 * nth i n 0) * (nth k n 0 * x k))) by (intros; ring).
  rewrite total_plus, (total_delta x) by exact I. rewrite total_scale. ring.
Qed.

Lemma normal_square : total d (fun k => nth k n 0 * nth k n 0) = 1.
Proof. rewrite <- N, inner_total by reflexivity. now rewrite Ln. Qed.

Lemma reflection_twice x i : (i < d)%nat -> turn_of d A (turn_of d A x) i = x i.
Proof.
  intros I. rewrite !reflection_of by exact I.
  rewrite (total_ext (fun k => nth k n 0 * turn_of d A x k) (fun k => nth k n 0 * x k + (- 2 * total d (fun k => nth k n 0 * x k)) * (nth k n 0 * nth k n 0))).
  2:{ intros k K. rewrite reflection_of by exact K. ring. }
  rewrite total_plus, total_scale, normal_square. ring.
Qed.

Lemma reflection_symmetric i j : A i j = A j i.
Proof. unfold reflection, delta. rewrite (Nat.eqb_sym i j). ring. Qed.

Lemma reflection_orthogonal : orthogonal d A.
Proof.
  assert (H : forall j k, (j < d)%nat -> (k < d)%nat -> total d (fun i => A j i * A k i) = delta j k).
  { intros j k J K. change (total d (fun i => A j i * A k i)) with (turn_of d A (fun i => A k i) j).
    replace (turn_of d A (fun i => A k i) j) with (turn_of d A (turn_of d A (fun l => delta k l)) j).
    - rewrite reflection_twice by exact J. unfold delta. now rewrite Nat.eqb_sym.
    - apply turn_of_ext. intros i I. unfold turn_of. rewrite (total_ext _ (fun l => delta k l * A i l)) by (intros; ring). rewrite total_delta by exact K. apply reflection_symmetric. }
  intros j k J K. split; [|now apply H]. rewrite <- (H j k J K). apply total_ext. intros i _. now rewrite !(reflection_symmetric i).
Qed.

Lemma reflection_normal : turn_vector d A n = map Ropp n.
Proof.
  apply (nth_ext _ _ 0 0); [now rewrite turn_vector_length, map_length|]. intros i I. rewrite turn_vector_length in I.
  rewrite turn_vector_nth by exact I. rewrite reflection_of by exact I. rewrite normal_square. rewrite (nth_indep (map Ropp n) 0 (- 0)) by (rewrite map_length; lia). rewrite map_nth. ring.
Qed.

Lemma carry_twice x i : (i < d + 2)%nat -> carry d A (carry d A x) i = x i.
Proof.
  intros I. unfold carry at 1. destruct (Nat.eqb_spec i 0) as [->|N0]; [reflexivity|]. destruct (Nat.leb_spec i d) as [L|L].
  - replace (x i) with ((fun k => x (k + 1)%nat) (i - 1)%nat) by (cbn beta; f_equal; lia). rewrite <- (reflection_twice (fun k => x (k + 1)%nat)) by lia. apply turn_of_ext. intros k K. unfold carry.
    destruct (Nat.eqb_spec (k + 1) 0); [lia|]. destruct (Nat.leb_spec (k + 1) d); [|lia]. f_equal. lia.
  - unfold carry. destruct (Nat.eqb_spec i 0); [lia|]. destruct (Nat.leb_spec i d); [lia|reflexivity].
Qed.

Lemma turn_twice U : length U = (d + 2)%nat -> turn d A (turn d A U) = U.
Proof.
  intros L. apply (nth_ext _ _ 0 0); [now rewrite turn_length|]. intros i I. rewrite turn_length in I. rewrite turn_nth by exact I.
  rewrite (carry_ext d A _ (carry d A (fun k => nth k U 0))) by (trivial; intros k K; now apply turn_nth). now apply (carry_twice (fun k => nth k U 0)).
Qed.

Lemma gradient_twice M : rows M = (d + 2)%nat -> cols M = d -> length (entries M) = ((d + 2) * d)%nat -> turn_gradient d A (turn_gradient d A M) = M.
Proof.
  intros R1 C1 L1. set (M' := turn_gradient d A (turn_gradient d A M)).
  assert (E : forall i j, (i < d + 2)%nat -> (j < d)%nat -> entry M' i j = entry M i j).
  { intros i j I J. unfold M', turn_gradient at 1. rewrite entry_tabulate by assumption.
    rewrite (carry_ext d A _ (carry d A (fun k => entry M k j))); [now apply (carry_twice (fun k => entry M k j))|exact I|]. intros k K. unfold turn_gradient.
    rewrite (total_ext _ (fun l => carry d A (fun q => total d (fun r => entry M q r * A l r)) k * A j l)) by (intros l L; now rewrite entry_tabulate).
    rewrite (carry_sum d A d (fun l q => total d (fun r => entry M q r * A l r))). apply carry_ext; [exact K|]. intros q Q.
    transitivity (turn_of d A (turn_of d A (fun r => entry M q r)) j); [|now apply reflection_twice].
    unfold turn_of at 1. apply total_ext. intros l L. rewrite Rmult_comm. f_equal. unfold turn_of. apply total_ext. intros; ring. }
  assert (R2 : rows M' = (d + 2)%nat) by reflexivity. assert (C2 : cols M' = d) by reflexivity. assert (L2 : length (entries M') = ((d + 2) * d)%nat) by apply tabulate_length.
  clearbody M'. destruct M as [a b l], M' as [a' b' l']. cbn [rows cols entries] in *. subst a b a' b'. f_equal.
  apply (nth_ext _ _ 0 0); [congruence|]. intros i I. rewrite L2 in I.
  assert (D0 : d <> 0%nat) by (intros ->; lia).
  assert (Dm : i = (i / d * d + i mod d)%nat) by (rewrite Nat.mul_comm; apply Nat.div_mod; exact D0).
  assert (Q1 : (i / d < d + 2)%nat) by (apply Nat.div_lt_upper_bound; lia). assert (Q2 : (i mod d < d)%nat) by (apply Nat.mod_upper_bound; exact D0).
  specialize (E _ _ Q1 Q2). unfold entry in E. cbn [cols entries] in E. rewrite <- Dm in E. exact E.
Qed.

(** The image of the image is the test function. *)
Lemma test_twice t : well_formed d t -> turn_test d A (turn_test d A t) = t.
Proof.
  intros Wf. destruct t as [a b c]. unfold turn_test. cbn [tV tdV tVhat]. f_equal; apply functional_extensionality; intros x; destruct (Wf x) as (L1 & L2 & R3 & C3 & L3); cbn in *.
  - now apply turn_twice.
  - now apply gradient_twice.
  - now apply turn_twice.
Qed.

Lemma turn_well_formed t : well_formed d (turn_test d A t).
Proof.
  intros x. cbn [turn_test tV tdV tVhat]. rewrite !turn_length. do 2 (split; [reflexivity|]). unfold turn_gradient. split; [reflexivity|]. split; [reflexivity|]. apply tabulate_length.
Qed.
End Reflection.

(** ** The plane of symmetry *)

(** The mirror image leaves the state without normal velocity as it is. *)
Lemma reflection_state n st g : 1 < g -> valid st -> length n = length (st_u st) -> inner n n = 1 ->
  turn_vector (length (st_u st)) (reflection n) (st_u (slip st n g)) = st_u (slip st n g).
Proof.
  intros G V Ln N. destruct (c50_slip st n g G V Ln N) as (_ & Ls & _ & Un & _). apply (nth_ext _ _ 0 0); [rewrite turn_vector_length; lia|].
  intros i I. rewrite turn_vector_length in I. rewrite turn_vector_nth by exact I. rewrite (reflection_of _ n) by exact I.
  replace (total (length (st_u st)) (fun k => nth k n 0 * nth k (st_u (slip st n g)) 0)) with 0; [ring|].
  transitivity (inner (st_u (slip st n g)) n); [exact (eq_sym Un)|]. rewrite inner_total by lia. rewrite Ls. apply total_ext. intros k _. apply Rmult_comm.
Qed.

Lemma reflection_slip n st g : 1 < g -> valid st -> length n = length (st_u st) -> inner n n = 1 ->
  turn (length (st_u st)) (reflection n) (conservative_list g (slip st n g)) = conservative_list g (slip st n g).
Proof.
  intros G V Ln N. destruct (c50_slip st n g G V Ln N) as (_ & Ls & _). pose proof (reflection_state n st g G V Ln N) as E.
  rewrite <- (turn_state_list _ _ (reflection_orthogonal _ n Ln N) g (slip st n g) Ls). f_equal.
  unfold turn_state. rewrite Ls, E. now destruct (slip st n g).
Qed.

Lemma slip_mean n st g : 1 < g -> valid st -> length n = length (st_u st) -> inner n n = 1 ->
  mean_of (length (st_u st)) 1 1 (conservative_list g st) (turn (length (st_u st)) (reflection n) (conservative_list g st)) (conservative_list g (slip st n g)).
Proof.
  intros G V Ln N i I. set (d := length (st_u st)) in *. destruct (c50_slip st n g G V Ln N) as (_ & Ls & Rs & _ & _ & Es). fold d in Ls.
  rewrite turn_nth by exact I. unfold carry. destruct (Nat.eqb_spec i 0) as [->|N0]; [cbn [conservative_list nth]; rewrite Rs; field|].
  assert (Mo : forall (z : state) k, length (st_u z) = d -> (k < d)%nat -> nth (k + 1) (conservative_list g z) 0 = st_rho z * nth k (st_u z) 0).
  { intros z k Lz K. unfold conservative_list. rewrite Nat.add_1_r. cbn [nth]. unfold q_rho_u. rewrite app_nth1 by (rewrite map_length; lia).
    rewrite (nth_indep _ 0 (st_rho z * 0)) by (rewrite map_length; lia). now rewrite (map_nth (fun x => st_rho z * x)). }
  destruct (Nat.leb_spec i d) as [L|L].
  - replace i with ((i - 1) + 1)%nat at 1 2 by lia. rewrite (reflection_of d n) by lia. rewrite !Mo by (trivial; lia). rewrite Rs.
    rewrite (total_ext _ (fun k => st_rho st * (nth k (st_u st) 0 * nth k n 0))) by (intros k K; rewrite Mo by trivial; ring).
    rewrite total_scale. unfold d at 1. rewrite <- (inner_total (st_u st) n) by exact (eq_sym Ln).
    unfold slip. cbn [st_u]. rewrite vsub_nth by (rewrite ?vscale_length; lia). rewrite vscale_nth by lia. field.
  - replace i with (S d) by lia. unfold conservative_list. cbn [nth]. rewrite !app_nth2 by (unfold q_rho_u; rewrite map_length; lia).
    unfold q_rho_u. rewrite !map_length, Ls. fold d. rewrite Nat.sub_diag. cbn [nth]. rewrite Es. field.
Qed.

(** Between a flow and its mirror image the state of the symmetry condition balances the fluxes; with Lax-Friedrichs it is the only one. *)
Theorem c82_balanced : forall s st n, 1 < s_gamma s -> valid st -> length (st_u st) = s_dim s -> length n = s_dim s -> inner n n = 1 ->
  let U := conservative_list (s_gamma s) st in let U' := turn (s_dim s) (reflection n) U in
  (fair s -> balanced s U U' (slip st n (s_gamma s)) n) /\
  (s_riemann s = LaxFriedrich -> forall sth, valid sth -> length (st_u sth) = s_dim s -> balanced s U U' sth n ->
     conservative_list (s_gamma s) sth = conservative_list (s_gamma s) (slip st n (s_gamma s))).
Proof.
  intros s st n G V Dim Ln N U U'. destruct (c50_slip st n (s_gamma s) G V ltac:(congruence) N) as (Vs & Ls & _ & Un & _).
  pose proof (slip_mean n st (s_gamma s) G V ltac:(congruence) N) as M. rewrite Dim in M. fold U in M. fold U' in M. rewrite Dim in Ls.
  assert (LU : length U = (s_dim s + 2)%nat) by (unfold U; rewrite conservative_list_length; lia).
  assert (LU' : length U' = (s_dim s + 2)%nat) by apply turn_length.
  pose proof (q_c_pos _ _ G Vs) as C0. set (w := slip st n (s_gamma s)) in *. set (c := q_c (s_gamma s) w) in *.
  assert (Mc : mean_of (s_dim s) (leaving (inner (st_u w) n) c) (entering (inner (st_u w) n) c) U U' (conservative_list (s_gamma s) w)).
  { intros i I. rewrite Un. unfold leaving, entering. rewrite !Rmax_left by lra. rewrite (M i I). field. lra. }
  split.
  - intros [NU Ds]. destruct (s_riemann s) as [| | | |th] eqn:Rs.
    + congruence.
    + exact (proj2 (proj1 (c80_scalar s w U U' n G Vs Ls Ln LU LU') Rs) M).
    + destruct Ds as [D2|[X|X]]; [|congruence|congruence]. rewrite D2 in *. destruct (unit_two n Ln N) as (n0 & n1 & N2).
      destruct (c80_roe s w U U' n n0 n1 G Vs D2 Ls N2 LU LU' Rs) as (Q & _ & _ & X & _). apply X, M.
    + exact (proj2 (proj2 (c80_scalar s w U U' n G Vs Ls Ln LU LU') Rs) Mc).
    + destruct Ds as [D2|[X|X]]; [|congruence|congruence]. rewrite D2 in *. destruct (unit_two n Ln N) as (n0 & n1 & N2).
      exact (proj1 (c80_hllem s w U U' n n0 n1 th G Vs D2 Ls N2 LU LU' Rs) Mc).
  - intros Rs sth Vh Lh B. pose proof (proj1 (proj1 (c80_scalar s sth U U' n G Vh Lh Ln LU LU') Rs) B) as Mh.
    apply (nth_ext _ _ 0 0); rewrite conservative_list_length, Lh; [rewrite conservative_list_length, Ls; reflexivity|].
    intros i I. assert (I' : (i < s_dim s + 2)%nat) by lia. rewrite (Mh i I'), (M i I'). reflexivity.
Qed.
Print Assumptions c82_balanced.

(** With Upwind it does not: wherever the element has a normal velocity, mass comes out of the plane or vanishes in it. *)
Theorem c82_upwind_refuted : forall s st n, 1 < s_gamma s -> valid st -> s_dim s = 2%nat -> length (st_u st) = 2%nat -> length n = 2%nat -> inner n n = 1 ->
  s_riemann s = Upwind -> inner (st_u st) n <> 0 ->
  ~ balanced s (conservative_list (s_gamma s) st) (turn 2 (reflection n) (conservative_list (s_gamma s) st)) (slip st n (s_gamma s)) n.
Proof.
  intros s st n G V D2 Lu Ln N Rs Un (f & f' & E & E' & B). pose proof (reflection_orthogonal 2 n Ln N) as O.
  destruct (unit_two n Ln N) as (n0 & n1 & N2).
  destruct (c61_upwind_refuted s st n n0 n1 f G V Lu D2 N2 Rs E) as [F0 _].
  pose proof (reflection_slip n st (s_gamma s) G V ltac:(congruence) N) as Sl. rewrite Lu in Sl.
  pose proof (slip_turn (reflection n) st n (s_gamma s) ltac:(rewrite Lu; exact O) ltac:(congruence)) as St. rewrite Lu, (reflection_normal 2 n Ln N) in St.
  assert (Ls : length (st_u (slip st n (s_gamma s))) = 2%nat) by (destruct (c50_slip st n (s_gamma s) G V ltac:(congruence) N) as (_ & X & _); congruence).
  rewrite <- (turn_state_list 2 _ O (s_gamma s) st Lu) in E'. rewrite <- Sl, <- (turn_state_list 2 _ O (s_gamma s) _ Ls), <- St in E'.
  destruct (unit_two (map Ropp n) ltac:(rewrite map_length; exact Ln)) as (k0 & k1 & K2).
  { destruct (two_entries n Ln) as (x & y & ->). cbn in N |- *. lra. }
  assert (Vt : valid (turn_state (reflection n) st)) by exact V.
  destruct (c61_upwind_refuted s (turn_state (reflection n) st) (map Ropp n) k0 k1 f' G Vt (turn_state_dim 2 _ st Lu) D2 K2 Rs E') as [F1 _].
  specialize (B 0%nat ltac:(lia)). rewrite F0, F1 in B. rewrite (turn_state_u 2 _ st Lu), <- (reflection_normal 2 n Ln N), (turn_vector_inner 2 _ O) in B by assumption.
  cbn [turn_state st_rho] in B. apply Un. destruct V as [R0 _]. apply (Rmult_eq_reg_l (st_rho st)); lra.
Qed.
Print Assumptions c82_upwind_refuted.
