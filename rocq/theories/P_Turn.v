(** C81: the orientation of the coordinate system. *)
From Coq Require Import Reals String List Arith Bool Lia Lra.
From Coquelicot Require Import Coquelicot.
From Verif Require Import Base M_Bla M_Flow M_Formulation M_Weak M_Mixed S_Flow S_Chars S_Formulation S_Stress S_Weak S_Mixed S_Turn L_Flow L_Formulation L_Weak P_Eos P_Chars P_Jacobian P_Split P_Riemann P_Boundary P_Unknowns L_Small L_Curve L_Turn P_Stress P_Trace L_Turn2 P_Mixed.
From Verif Require Import S_Formulation.
Import ListNotations.
Open Scope R_scope.
Open Scope list_scope.

(** ** The fluxes *)

Lemma normal_flux_turn g st A n i : orthogonal (length (st_u st)) A -> (i < length (st_u st) + 2)%nat ->
  normal_flux g (turn_state A st) (turn_vector (length (st_u st)) A n) i = carry (length (st_u st)) A (normal_flux g st n) i.
Proof.
  intros O I. unfold normal_flux. rewrite (turn_state_dim _ A st eq_refl).
  apply (normal_turn _ A O (euler_flux g (length (st_u st)) st)); [exact I|]. intros j J. now apply euler_flux_turn.
Qed.

Lemma unit_two n : length n = 2%nat -> inner n n = 1 -> exists n0 n1, unit2 n n0 n1.
Proof. intros L N. destruct (two_entries n L) as (x & y & ->). exists x, y. split; [reflexivity|]. cbn in N. lra. Qed.

(** The numerical convective flux of a turned flow through a turned facet is the turned flux, with every Riemann solver. *)
Theorem c81_flux : forall s A st U n f, 1 < s_gamma s -> orthogonal (s_dim s) A -> valid st -> length (st_u st) = s_dim s -> length U = (s_dim s + 2)%nat ->
  length n = s_dim s -> inner n n = 1 ->
  get_convective_numerical_flux s U (conservative_list (s_gamma s) st) n = Ok f ->
  length f = (s_dim s + 2)%nat /\
  get_convective_numerical_flux s (turn (s_dim s) A U) (turn (s_dim s) A (conservative_list (s_gamma s) st)) (turn_vector (s_dim s) A n) = Ok (turn (s_dim s) A f).
Proof.
  intros s A st U n f G O V Dim LU Ln N E. pose proof Dim as Dim'. symmetry in Dim'.
  assert (LH : length (conservative_list (s_gamma s) st) = (s_dim s + 2)%nat) by (rewrite conservative_list_length; lia).
  rewrite <- (turn_state_list _ A O (s_gamma s) st Dim). set (st' := turn_state A st).
  assert (V' : valid st') by exact V. assert (Dim2 : length (st_u st') = s_dim s) by (apply turn_state_dim; exact Dim).
  assert (Nf : forall i, (i < s_dim s + 2)%nat -> normal_flux (s_gamma s) st' (turn_vector (s_dim s) A n) i = carry (s_dim s) A (normal_flux (s_gamma s) st n) i).
  { intros i I. rewrite Dim' in O, I |- *. now apply normal_flux_turn. }
  assert (Ln' : length (turn_vector (s_dim s) A n) = s_dim s) by apply turn_vector_length.
  destruct (Nat.eq_dec (s_dim s) 2) as [D2|D2].
  - (* waves *)
    destruct (unit_two n ltac:(congruence) N) as (n0 & n1 & N2). destruct (two_entries (st_u st) ltac:(congruence)) as (ux & uy & Eu).
    rewrite D2 in *. rewrite (flux_value s st ux uy n0 n1 n G V Eu D2 N2) in E. apply ok_inj in E.
    split; [rewrite <- E; reflexivity|].
    rewrite (flux_value s st' _ _ _ _ (turn_vector 2 A n) G V' (turn_velocity A st ux uy Eu) D2 (turn_unit A n0 n1 n N2 O)). f_equal.
    apply turn_make; [reflexivity|]. cbn [Nat.add]. intros i I. rewrite four_list_nth by exact I. rewrite Nf by exact I.
    transitivity (1 * carry 2 A (normal_flux (s_gamma s) st n) i + 1 * carry 2 A (fun k => nth k (mvmul (wave (wP s st n) (wQ s st n) (dissipation (s_riemann s) (ux * n0 + uy * n1) (q_c (s_gamma s) st))) (vsub U (conservative_list (s_gamma s) st))) 0) i).
    + rewrite !Rmult_1_l. f_equal.
      pose proof (wave_turn s A st ux uy n0 n1 n G V Eu N2 O (dissipation (s_riemann s) (ux * n0 + uy * n1) (q_c (s_gamma s) st)) (vsub U (conservative_list (s_gamma s) st)) ltac:(rewrite vsub_length, LU, LH; reflexivity)) as W.
      rewrite <- turn_nth by exact I. rewrite <- W. clear W.
      rewrite <- (turn_vsub 2 A) by assumption. replace (conservative_list (s_gamma s) st') with (turn 2 A (conservative_list (s_gamma s) st)) by (symmetry; exact (turn_state_list 2 A O (s_gamma s) st Dim)).
      assert (Eu' : st_u st' = [nth 0 (turn_vector 2 A [ux; uy]) 0; nth 1 (turn_vector 2 A [ux; uy]) 0]) by exact (turn_velocity A st ux uy Eu).
      assert (Un : nth 0 (turn_vector 2 A [ux; uy]) 0 * nth 0 (turn_vector 2 A n) 0 + nth 1 (turn_vector 2 A [ux; uy]) 0 * nth 1 (turn_vector 2 A n) 0 = ux * n0 + uy * n1).
      { destruct N2 as [En _]. rewrite En. pose proof (turn_vector_inner 2 A O [ux; uy] [n0; n1] eq_refl eq_refl) as X. cbn in X |- *. lra. }
      rewrite Un. unfold wP, wQ. fold st'. rewrite Eu'. reflexivity.
    + rewrite <- carry_lin. apply carry_ext; [exact I|]. intros k K. rewrite <- E, four_list_nth by exact K.
      rewrite (wP_here s st ux uy n0 n1 n Eu N2), (wQ_here s st ux uy n0 n1 n Eu N2). ring.
  - (* one number *)
    assert (Rs : s_riemann s = LaxFriedrich \/ s_riemann s = HLL).
    { destruct (s_riemann s) eqn:R; auto; exfalso; pose proof (proj2 (c47_exists s U st n G V Dim Ln) D2) as X; rewrite R in X;
        specialize (X ltac:(discriminate) ltac:(discriminate)); rewrite E in X; discriminate X. }
    destruct (scalar_value s st U n G V Dim Ln LU Rs) as (f1 & E1 & L1 & H1). rewrite E in E1. apply ok_inj in E1. subst f1. split; [exact L1|].
    destruct (scalar_value s st' (turn (s_dim s) A U) (turn_vector (s_dim s) A n) G V' Dim2 Ln' (turn_length _ _ _) Rs) as (f2 & E2 & L2 & H2).
    rewrite E2. f_equal. apply turn_make; [exact L2|]. intros i I. rewrite (H2 i I), (Nf i I).
    unfold st' at 1. rewrite (turn_state_u _ A st Dim), (turn_vector_inner _ A O) by congruence. change (q_c (s_gamma s) st') with (q_c (s_gamma s) st).
    set (q := dissipation (s_riemann s) (inner (st_u st) n) (q_c (s_gamma s) st) 0) in *. unfold st'. rewrite (turn_state_list _ A O (s_gamma s) st Dim), !turn_nth by exact I.
    transitivity (1 * carry (s_dim s) A (normal_flux (s_gamma s) st n) i + q * (1 * carry (s_dim s) A (fun k => nth k U 0) i + (-1) * carry (s_dim s) A (fun k => nth k (conservative_list (s_gamma s) st) 0) i)); [ring|].
    rewrite <- (carry_lin _ _ _ _ 1 (-1)), <- carry_lin. apply carry_ext; [exact I|]. intros k K. rewrite (H1 k K). ring.
Qed.
Print Assumptions c81_flux.

Lemma diffusive_numbers s V dU M : get_diffusive_flux s false V dU = Ok M ->
  exists mu re pr, viscosity s V = Ok mu /\ reference_reynolds_number s = Ok re /\ prandtl_number s = Ok pr.
Proof.
  unfold get_diffusive_flux. intros H. apply bind_ok in H as (u & _ & H). apply bind_ok in H as (t & Ht & H). apply bind_ok in H as (q & Hq & _).
  unfold heat_flux in Hq. destruct (viscosity s V) as [mu|]; [|discriminate Hq]. destruct (reference_reynolds_number s) as [re|]; [|discriminate Hq].
  destruct (prandtl_number s) as [pr|]; [|discriminate Hq]. now exists mu, re, pr.
Qed.

Lemma full_velocity s st : determined velocity_sources (full_fields s st).
Proof. exists [Uu]. split; [left; reflexivity|]. intros f [<-|[]]; reflexivity. Qed.

(** Multiplication with one number for the momentum. *)
Lemma carry_diagonal d A (D x : nat -> R) i : (forall k, (k < d)%nat -> D (k + 1)%nat = D 1%nat) -> (i < d + 2)%nat -> carry d A (fun k => D k * x k) i = D i * carry d A x i.
Proof.
  intros H I. unfold carry. destruct (Nat.eqb_spec i 0) as [->|N0]; [reflexivity|]. destruct (Nat.leb_spec i d) as [L|L]; [|reflexivity].
  replace (D i) with (D 1%nat) by (replace i with (i - 1 + 1)%nat by lia; symmetry; apply H; lia).
  unfold turn_of. rewrite <- total_scale. apply total_ext. intros k K. rewrite (H k K). ring.
Qed.

Section Diffusion.
Variables (s : settings) (A : nat -> nat -> R) (st : state) (dU dU' : grads).
Hypothesis G : 1 < s_gamma s.
Hypothesis O : orthogonal (s_dim s) A.
Hypothesis V : valid st.
Hypothesis Dim : length (st_u st) = s_dim s.
Hypothesis T : turned_gradients s A dU dU'.

Lemma diffusive_flux_turn M : get_diffusive_flux s false (full_fields s st) dU = Ok M ->
  rows M = (s_dim s + 2)%nat /\ cols M = s_dim s /\ length (entries M) = ((s_dim s + 2) * s_dim s)%nat /\
  exists M', get_diffusive_flux s false (full_fields s (turn_state A st)) dU' = Ok M' /\
    rows M' = (s_dim s + 2)%nat /\ cols M' = s_dim s /\ length (entries M') = ((s_dim s + 2) * s_dim s)%nat /\
    forall i j, (i < s_dim s + 2)%nat -> (j < s_dim s)%nat -> entry M' i j = carry (s_dim s) A (fun k => total (s_dim s) (fun l => entry M k l * A j l)) i.
Proof.
  intros E. destruct (diffusive_numbers _ _ _ _ E) as (mu & re & pr & Em & Er & Ep). destruct T as (eps & dT & H1 & H2).
  destruct (c51_flux s st (full_fields s st) dU eps dT mu re pr G V (full_describes s st) (full_velocity s st) Dim H1 Em Er Ep) as (M1 & E1 & R1 & C1 & L1 & B1).
  rewrite E in E1. apply ok_inj in E1. subst M1. split; [exact R1|]. split; [exact C1|]. split; [exact L1|].
  pose proof (turn_state_dim _ A st Dim) as Dim2.
  destruct (c51_flux s (turn_state A st) (full_fields s (turn_state A st)) dU' (turn_tensor (s_dim s) A eps) (turn_vector (s_dim s) A dT) mu re pr G V (full_describes s (turn_state A st)) (full_velocity s _) Dim2 H2 Em Er Ep) as (M' & E' & R2 & C2 & L2 & B2).
  exists M'. split; [exact E'|]. split; [exact R2|]. split; [exact C2|]. split; [exact L2|]. cbn zeta in B1, B2. intros i j I J.
  destruct (B2 j J) as (Z0 & Z1 & Z2). unfold carry. destruct (Nat.eqb_spec i 0) as [->|N0].
  - rewrite Z0. symmetry. rewrite (total_ext _ (fun _ => 0)); [apply total_zero|]. intros l L. rewrite (proj1 (B1 l L)). ring.
  - destruct (Nat.leb_spec i (s_dim s)) as [L|L].
    + replace i with (S (i - 1)) at 1 by lia. rewrite Z1 by lia. unfold turn_tensor. rewrite entry_tabulate by lia. rewrite <- total_scale. unfold turn_of. apply total_ext. intros k K.
      rewrite <- !total_scale. apply total_ext. intros l Ll. replace (k + 1)%nat with (S k) by lia. rewrite (proj1 (proj2 (B1 l Ll)) k K). ring.
    + replace i with (s_dim s + 1)%nat by lia. rewrite Z2. rewrite turn_vector_nth by exact J. rewrite (turn_state_u _ A st Dim).
      rewrite (total_ext (fun l => entry M (s_dim s + 1) l * A j l) (fun l => A j l * total (s_dim s) (fun k => 2 * mu / re * entry eps l k * nth k (st_u st) 0) + mu / (re * pr) * (A j l * nth l dT 0))).
      2:{ intros l Ll. rewrite (proj2 (proj2 (B1 l Ll))). ring. }
      rewrite total_plus, total_scale. fold (turn_of (s_dim s) A (fun l => nth l dT 0) j). f_equal.
      rewrite (total_ext _ (fun k => total (s_dim s) (fun l => A j l * (total (s_dim s) (fun q => 2 * mu / re * entry eps l q * A k q) * turn_of (s_dim s) A (fun q => nth q (st_u st) 0) k)))).
      2:{ intros k K. rewrite turn_vector_nth by exact K. unfold turn_tensor. rewrite entry_tabulate by assumption. rewrite <- total_scale, <- total_scale_r. apply total_ext. intros l Ll.
          rewrite <- Rmult_assoc, <- !total_scale. f_equal. apply total_ext. intros q Q. ring. }
      rewrite total_swap. apply total_ext. intros l Ll. rewrite total_scale. f_equal. apply (turn_of_back _ A O (fun q => 2 * mu / re * entry eps l q)).
Qed.

Lemma diffusive_numerical_turn U n f : length U = (s_dim s + 2)%nat -> length n = s_dim s ->
  get_diffusive_numerical_flux s U (conservative_list (s_gamma s) st) dU n = Ok f ->
  length f = (s_dim s + 2)%nat /\
  get_diffusive_numerical_flux s (turn (s_dim s) A U) (turn (s_dim s) A (conservative_list (s_gamma s) st)) dU' (turn_vector (s_dim s) A n) = Ok (turn (s_dim s) A f).
Proof.
  intros LU Ln E. rewrite <- (turn_state_list _ A O (s_gamma s) st Dim). unfold get_diffusive_numerical_flux in *.
  assert (LH : length (conservative_list (s_gamma s) st) = (s_dim s + 2)%nat) by (rewrite conservative_list_length; lia).
  rewrite (fields_ok s st G V Dim) in E. rewrite (fields_ok s (turn_state A st) G V (turn_state_dim _ A st Dim)). cbn [bind] in E |- *.
  apply bind_ok in E as (tau & Et & E). apply bind_ok in E as (M & EM & E). apply ok_inj in E.
  destruct (diffusive_numbers _ _ _ _ EM) as (mu & re & pr & Em & Er & Ep).
  destruct (stabilisation_entries s (full_fields s st) mu re pr Em Er Ep) as (t1 & Et1 & R1 & C1 & B1). rewrite Et in Et1. apply ok_inj in Et1. subst t1.
  assert (Em' : viscosity s (full_fields s (turn_state A st)) = Ok mu) by exact Em.
  destruct (stabilisation_entries s (full_fields s (turn_state A st)) mu re pr Em' Er Ep) as (t2 & Et2 & R2 & C2 & B2).
  destruct (diffusive_flux_turn M EM) as (RM & CM & LM & M' & EM' & RM' & CM' & LM' & H). rewrite Et2, EM'. cbn [bind].
  set (D := fun i : nat => if (i =? 0)%nat then 0 else if (i <=? s_dim s)%nat then mu / re else mu / (re * pr)) in *.
  assert (Dv : forall t W i, rows t = (s_dim s + 2)%nat -> cols t = (s_dim s + 2)%nat -> (forall i j, (i < s_dim s + 2)%nat -> (j < s_dim s + 2)%nat -> entry t i j = delta i j * D i) ->
    (i < s_dim s + 2)%nat -> nth i (mvmul t W) 0 = D i * nth i W 0).
  { intros t W i R C B I. rewrite mvmul_total by lia. rewrite C. rewrite (total_ext _ (fun k => D i * (delta i k * nth k W 0))) by (intros k K; rewrite B by assumption; ring).
    rewrite total_scale, (total_delta (fun k => nth k W 0)) by exact I. reflexivity. }
  rewrite <- E. split; [rewrite vsub_length, !mvmul_length, RM, R1; apply Nat.min_id|]. f_equal.
  apply turn_make; [rewrite vsub_length, !mvmul_length, RM', R2; apply Nat.min_id|]. intros i I.
  rewrite (vsub_nth (mvmul M' _)) by (rewrite !mvmul_length, RM', R2; reflexivity). rewrite (Dv t2 _ i R2 C2 B2 I), mvmul_total by lia. rewrite CM'.
  rewrite (normal_turn _ A O (entry M) (entry M') n i I) by (intros j J; now apply H).
  rewrite (turn_state_list _ A O (s_gamma s) st Dim), turn_vsub, turn_nth by assumption.
  assert (Dc : forall k, (k < s_dim s)%nat -> D (k + 1)%nat = D 1%nat).
  { intros k K. unfold D. cbn [Nat.eqb]. destruct (Nat.eqb_spec (k + 1) 0); [lia|]. destruct (Nat.leb_spec (k + 1) (s_dim s)); [|lia]. destruct (Nat.leb_spec 1 (s_dim s)); [reflexivity|lia]. }
  rewrite <- (carry_diagonal _ A D) by assumption.
  match goal with |- ?x - ?y = _ => transitivity (1 * x + (-1) * y); [ring|] end. rewrite <- carry_lin. apply carry_ext; [exact I|]. intros k K.
  rewrite (vsub_nth (mvmul M n)) by (rewrite !mvmul_length, RM, R1; reflexivity). rewrite (Dv tau _ k R1 C1 B1 K), (mvmul_total M) by lia. rewrite CM. ring.
Qed.
End Diffusion.

(** The numerical diffusive flux turns with the flow, its strain rate and its temperature gradient. *)
Theorem c81_diffusion : forall s A st dU dU' U n f, 1 < s_gamma s -> orthogonal (s_dim s) A -> valid st -> length (st_u st) = s_dim s -> length U = (s_dim s + 2)%nat ->
  length n = s_dim s -> turned_gradients s A dU dU' ->
  get_diffusive_numerical_flux s U (conservative_list (s_gamma s) st) dU n = Ok f ->
  length f = (s_dim s + 2)%nat /\
  get_diffusive_numerical_flux s (turn (s_dim s) A U) (turn (s_dim s) A (conservative_list (s_gamma s) st)) dU' (turn_vector (s_dim s) A n) = Ok (turn (s_dim s) A f).
Proof. intros. eapply diffusive_numerical_turn; eassumption. Qed.
Print Assumptions c81_diffusion.
