(** Lemmas on turned vectors, states, fluxes and waves. *)
From Coq Require Import Reals String List Arith Bool Lia Lra.
From Coquelicot Require Import Coquelicot.
From Verif Require Import Base M_Bla M_Flow M_Formulation M_Weak M_Mixed S_Flow S_Chars S_Formulation S_Stress S_Weak S_Mixed S_Turn L_Flow L_Formulation L_Weak P_Eos P_Chars P_Jacobian P_Split P_Riemann P_Boundary L_Small L_Curve.
From Verif Require Import S_Formulation.
Import ListNotations.
Open Scope R_scope.
Open Scope list_scope.

(** ** Sums *)

Lemma total_swap n m (f : nat -> nat -> R) : total n (fun i => total m (f i)) = total m (fun j => total n (fun i => f i j)).
Proof.
  induction n as [|n IH]; cbn [total]; [symmetry; apply total_zero|]. rewrite IH, <- total_plus. reflexivity.
Qed.

Lemma total_scale_r f n a : total n (fun k => f k * a) = total n f * a.
Proof. rewrite (total_ext _ (fun k => a * f k)) by (intros; ring). rewrite total_scale. ring. Qed.

Lemma total_delta_r f n i : (i < n)%nat -> total n (fun k => f k * delta k i) = f i.
Proof.
  intros I. rewrite (total_ext _ (fun k => delta i k * f k)); [now apply total_delta|]. intros k _. unfold delta. rewrite (Nat.eqb_sym i k). ring.
Qed.

Lemma total_head n f : total (S n) f = f 0%nat + total n (fun k => f (k + 1)%nat).
Proof.
  induction n as [|n IH]; [cbn [total]; ring|]. cbn [total] in *. replace (n + 1)%nat with (S n) by lia.
  assert (E : total n f + f n = f 0%nat + total n (fun k => f (k + 1)%nat)) by exact IH. rewrite E. ring.
Qed.

Section Turn.
Variables (d : nat) (A : nat -> nat -> R).
Hypothesis O : orthogonal d A.

Lemma turn_of_inner x y : total d (fun i => turn_of d A x i * turn_of d A y i) = total d (fun k => x k * y k).
Proof.
  unfold turn_of.
  rewrite (total_ext _ (fun i => total d (fun k => total d (fun l => x k * y l * (A i k * A i l))))).
  2:{ intros i _. rewrite <- total_scale_r. apply total_ext. intros k _. rewrite <- total_scale. apply total_ext. intros l _. ring. }
  rewrite total_swap. apply total_ext. intros k K. rewrite total_swap.
  rewrite (total_ext _ (fun l => x k * y l * delta l k)).
  2:{ intros l L. rewrite total_scale. rewrite (proj1 (O k l K L)). unfold delta. rewrite (Nat.eqb_sym l k). reflexivity. }
  now apply (total_delta_r (fun l => x k * y l)).
Qed.

(** The same against the rows. *)
Lemma turn_of_back x y : total d (fun j => total d (fun l => x l * A j l) * turn_of d A y j) = total d (fun l => x l * y l).
Proof.
  rewrite <- (turn_of_inner x y). apply total_ext. intros j _. rewrite (total_ext _ (fun l => A j l * x l)) by (intros; ring). reflexivity.
Qed.

Lemma turn_of_ext x y i : (forall k, (k < d)%nat -> x k = y k) -> turn_of d A x i = turn_of d A y i.
Proof. intros H. apply total_ext. intros k K. now rewrite H. Qed.

Lemma turn_of_lin x y a b i : turn_of d A (fun k => a * x k + b * y k) i = a * turn_of d A x i + b * turn_of d A y i.
Proof. unfold turn_of. rewrite <- !total_scale, <- total_plus. apply total_ext. intros; ring. Qed.

Lemma turn_of_sum n (x : nat -> nat -> R) w i : total n (fun j => turn_of d A (x j) i * w j) = turn_of d A (fun k => total n (fun j => x j k * w j)) i.
Proof.
  unfold turn_of. rewrite (total_ext _ (fun j => total d (fun k => A i k * (x j k * w j)))).
  2:{ intros j _. rewrite <- total_scale_r. apply total_ext. intros; ring. }
  rewrite total_swap. apply total_ext. intros k _. now rewrite total_scale.
Qed.

Lemma carry_ext x y i : (i < d + 2)%nat -> (forall k, (k < d + 2)%nat -> x k = y k) -> carry d A x i = carry d A y i.
Proof.
  intros I H. unfold carry. destruct (Nat.eqb_spec i 0); [apply H; lia|]. destruct (Nat.leb_spec i d); [|apply H; exact I].
  apply turn_of_ext. intros k K. apply H. lia.
Qed.

Lemma carry_lin x y a b i : carry d A (fun k => a * x k + b * y k) i = a * carry d A x i + b * carry d A y i.
Proof. unfold carry. destruct (i =? 0)%nat; [reflexivity|]. destruct (i <=? d)%nat; [|reflexivity]. apply turn_of_lin. Qed.

Lemma carry_sum n (x : nat -> nat -> R) w i : total n (fun j => carry d A (x j) i * w j) = carry d A (fun k => total n (fun j => x j k * w j)) i.
Proof. unfold carry. destruct (i =? 0)%nat; [reflexivity|]. destruct (i <=? d)%nat; [|reflexivity]. apply (turn_of_sum n (fun j k => x j (k + 1)%nat)). Qed.

Lemma total_parts f : total (d + 2) f = f 0%nat + total d (fun k => f (k + 1)%nat) + f (d + 1)%nat.
Proof. replace (d + 2)%nat with (S (S d)) by lia. rewrite total_head. cbn [total]. ring. Qed.

Lemma carry_inner x y : total (d + 2) (fun i => carry d A x i * carry d A y i) = total (d + 2) (fun k => x k * y k).
Proof.
  rewrite !total_parts. assert (E : forall z, carry d A z (d + 1) = z (d + 1)%nat).
  { intros z. unfold carry. destruct (Nat.eqb_spec (d + 1) 0); [lia|]. destruct (Nat.leb_spec (d + 1) d); [lia|reflexivity]. }
  rewrite !E. change (carry d A x 0) with (x 0%nat). change (carry d A y 0) with (y 0%nat). f_equal. f_equal.
  rewrite <- (turn_of_inner (fun k => x (k + 1)%nat) (fun k => y (k + 1)%nat)). apply total_ext. intros k K.
  assert (E1 : forall z, carry d A z (k + 1) = turn_of d A (fun k => z (k + 1)%nat) k).
  { intros z. unfold carry. destruct (Nat.eqb_spec (k + 1) 0); [lia|]. destruct (Nat.leb_spec (k + 1) d); [|lia]. f_equal. lia. }
  now rewrite !E1.
Qed.

(** ** Lists *)

Lemma map_seq_nth (f : nat -> R) n i : (i < n)%nat -> nth i (map f (seq 0 n)) 0 = f i.
Proof. intros I. rewrite (nth_indep _ 0 (f 0%nat)) by (now rewrite map_length, seq_length). rewrite (map_nth f), seq_nth by exact I. reflexivity. Qed.

Lemma turn_vector_length v : length (turn_vector d A v) = d.
Proof. unfold turn_vector. now rewrite map_length, seq_length. Qed.

Lemma turn_vector_nth v i : (i < d)%nat -> nth i (turn_vector d A v) 0 = turn_of d A (fun k => nth k v 0) i.
Proof. intros I. unfold turn_vector. now rewrite map_seq_nth. Qed.

Lemma turn_length U : length (turn d A U) = (d + 2)%nat.
Proof. unfold turn. now rewrite map_length, seq_length. Qed.

Lemma turn_nth U i : (i < d + 2)%nat -> nth i (turn d A U) 0 = carry d A (fun k => nth k U 0) i.
Proof. intros I. unfold turn. now rewrite map_seq_nth. Qed.

Lemma turn_make f U : length f = (d + 2)%nat -> (forall i, (i < d + 2)%nat -> nth i f 0 = carry d A (fun k => nth k U 0) i) -> f = turn d A U.
Proof. intros L H. apply (nth_ext _ _ 0 0); [now rewrite turn_length|]. rewrite L. intros i I. now rewrite H, turn_nth. Qed.

Lemma turn_combine U W Z a b : length U = (d + 2)%nat -> length W = (d + 2)%nat -> length Z = (d + 2)%nat ->
  (forall k, nth k Z 0 = a * nth k U 0 + b * nth k W 0) -> forall i, (i < d + 2)%nat -> nth i (turn d A Z) 0 = a * nth i (turn d A U) 0 + b * nth i (turn d A W) 0.
Proof. intros LU LW LZ H i I. rewrite !turn_nth by exact I. rewrite <- carry_lin. apply carry_ext; [exact I|]. intros k _. apply H. Qed.

Lemma turn_vsub U W : length U = (d + 2)%nat -> length W = (d + 2)%nat -> vsub (turn d A U) (turn d A W) = turn d A (vsub U W).
Proof.
  intros LU LW. apply (nth_ext _ _ 0 0); [now rewrite vsub_length, !turn_length, Nat.min_id|]. intros i I. rewrite vsub_length, !turn_length, Nat.min_id in I.
  rewrite vsub_nth by now rewrite !turn_length. rewrite (turn_combine U W (vsub U W) 1 (-1)); trivial; [ring|rewrite vsub_length; lia|].
  intros k. rewrite vsub_nth by congruence. ring.
Qed.

Lemma turn_vadd U W : length U = (d + 2)%nat -> length W = (d + 2)%nat -> vadd (turn d A U) (turn d A W) = turn d A (vadd U W).
Proof.
  intros LU LW. apply (nth_ext _ _ 0 0); [now rewrite vadd_length, !turn_length, Nat.min_id|]. intros i I. rewrite vadd_length, !turn_length, Nat.min_id in I.
  rewrite vadd_nth by now rewrite !turn_length. rewrite (turn_combine U W (vadd U W) 1 1); trivial; [ring|rewrite vadd_length; lia|].
  intros k. rewrite vadd_nth by congruence. ring.
Qed.

Lemma turn_vscale U a : length U = (d + 2)%nat -> vscale a (turn d A U) = turn d A (vscale a U).
Proof.
  intros LU. apply (nth_ext _ _ 0 0); [now rewrite vscale_length, !turn_length|]. intros i I. rewrite vscale_length, turn_length in I.
  rewrite vscale_nth. rewrite (turn_combine U U (vscale a U) a 0); trivial; [ring|now rewrite vscale_length|].
  intros k. rewrite vscale_nth. ring.
Qed.

Lemma turn_vdiv U a : length U = (d + 2)%nat -> vdiv (turn d A U) a = turn d A (vdiv U a).
Proof.
  intros LU. apply (nth_ext _ _ 0 0); [now rewrite vdiv_length, !turn_length|]. intros i I. rewrite vdiv_length, turn_length in I.
  rewrite vdiv_nth. rewrite (turn_combine U U (vdiv U a) (/ a) 0); trivial; [unfold Rdiv; ring|now rewrite vdiv_length|].
  intros k. rewrite vdiv_nth. unfold Rdiv. ring.
Qed.

Lemma turn_inner U W : length U = (d + 2)%nat -> length W = (d + 2)%nat -> inner (turn d A U) (turn d A W) = inner U W.
Proof.
  intros LU LW. rewrite !inner_total by (rewrite ?turn_length; congruence). rewrite turn_length, LU. rewrite <- (carry_inner (fun k => nth k U 0) (fun k => nth k W 0)).
  apply total_ext. intros i I. now rewrite !turn_nth.
Qed.

Lemma turn_vector_inner v w : length v = d -> length w = d -> inner (turn_vector d A v) (turn_vector d A w) = inner v w.
Proof.
  intros LU LW. rewrite !inner_total by (rewrite ?turn_vector_length; congruence). rewrite turn_vector_length, LU. rewrite <- (turn_of_inner (fun k => nth k v 0) (fun k => nth k w 0)).
  apply total_ext. intros i I. now rewrite !turn_vector_nth.
Qed.

(** ** States *)

Section OfState.
Variables (g : R) (st : state).
Hypothesis Dim : length (st_u st) = d.

Lemma turn_state_u : st_u (turn_state A st) = turn_vector d A (st_u st).
Proof. cbn. now rewrite Dim. Qed.

Lemma turn_state_dim : length (st_u (turn_state A st)) = d.
Proof. rewrite turn_state_u. apply turn_vector_length. Qed.

Lemma turn_state_valid : valid st -> valid (turn_state A st).
Proof. exact (fun V => V). Qed.

Lemma turn_state_T : q_T g (turn_state A st) = q_T g st. Proof. reflexivity. Qed.
Lemma turn_state_c : q_c g (turn_state A st) = q_c g st. Proof. reflexivity. Qed.

Lemma turn_state_E : q_rho_E g (turn_state A st) = q_rho_E g st.
Proof. unfold q_rho_E, q_E, q_Ek. rewrite turn_state_u, turn_vector_inner by assumption. reflexivity. Qed.

Lemma turn_state_list : conservative_list g (turn_state A st) = turn d A (conservative_list g st).
Proof.
  apply turn_make; [rewrite conservative_list_length, turn_state_dim; reflexivity|]. intros i I.
  rewrite conservative_list_nth by (rewrite turn_state_dim; exact I). rewrite turn_state_dim. unfold conservative, carry.
  destruct (Nat.eqb_spec i 0); [reflexivity|]. destruct (Nat.leb_spec i d).
  - rewrite turn_state_u, turn_vector_nth by lia. change (st_rho (turn_state A st)) with (st_rho st). unfold turn_of. rewrite <- total_scale. apply total_ext. intros k K.
    rewrite conservative_list_nth by (rewrite Dim; lia). unfold conservative. rewrite Dim. destruct (Nat.eqb_spec (k + 1) 0); [lia|]. destruct (Nat.leb_spec (k + 1) d); [|lia].
    replace (k + 1 - 1)%nat with k by lia. ring.
  - rewrite conservative_list_nth by (rewrite Dim; lia). unfold conservative. rewrite Dim. destruct (Nat.eqb_spec i 0); [lia|]. destruct (Nat.leb_spec i d); [lia|]. apply turn_state_E.
Qed.

(** ** The flux *)

Lemma euler_flux_turn i j : (i < d + 2)%nat -> (j < d)%nat ->
  euler_flux g d (turn_state A st) i j = carry d A (fun k => total d (fun l => euler_flux g d st k l * A j l)) i.
Proof.
  intros I J. unfold euler_flux, carry. rewrite turn_state_u, turn_vector_nth by exact J. change (st_rho (turn_state A st)) with (st_rho st). change (st_p (turn_state A st)) with (st_p st).
  destruct (Nat.eqb_spec i 0) as [->|N0].
  - cbn [Nat.eqb]. unfold turn_of. rewrite <- total_scale. apply total_ext. intros; ring.
  - destruct (Nat.leb_spec i d) as [L|L].
    + rewrite turn_vector_nth by lia. unfold turn_of.
      symmetry. etransitivity; [apply (total_ext _ (fun k => st_rho st * total d (fun l => A j l * nth l (st_u st) 0) * (A (i - 1)%nat k * nth k (st_u st) 0) + st_p st * (A (i - 1)%nat k * A j k)))|]; [intros k K|].
      2:{ rewrite total_plus, !total_scale. rewrite (proj2 (O (i - 1)%nat j ltac:(lia) J)). ring. }
        destruct (Nat.eqb_spec (k + 1) 0); [lia|]. destruct (Nat.leb_spec (k + 1) d); [|lia]. replace (k + 1 - 1)%nat with k by lia.
        rewrite (total_ext _ (fun l => st_rho st * nth k (st_u st) 0 * (A j l * nth l (st_u st) 0) + st_p st * (delta k l * A j l))) by (intros; ring).
        rewrite total_plus, !total_scale. rewrite (total_delta (fun l => A j l)) by exact K. ring.
    + destruct (Nat.eqb_spec i 0); [lia|]. destruct (Nat.leb_spec i d); [lia|]. rewrite turn_state_E. unfold turn_of. rewrite <- total_scale. apply total_ext. intros; ring.
Qed.
End OfState.

(** A turned flux matrix through a turned surface. *)
Lemma normal_turn (F F' : nat -> nat -> R) (n : list R) i : (i < d + 2)%nat ->
  (forall j, (j < d)%nat -> F' i j = carry d A (fun k => total d (fun l => F k l * A j l)) i) ->
  total d (fun j => F' i j * nth j (turn_vector d A n) 0) = carry d A (fun k => total d (fun j => F k j * nth j n 0)) i.
Proof.
  intros I H. rewrite (total_ext _ (fun j => carry d A (fun k => total d (fun l => F k l * A j l)) i * turn_of d A (fun k => nth k n 0) j)).
  2:{ intros j J. rewrite H, turn_vector_nth by exact J. reflexivity. }
  rewrite carry_sum. apply carry_ext; [exact I|]. intros k _. apply turn_of_back.
Qed.

Lemma entries_inner n m a b : rows a = n -> cols a = m -> length (entries a) = (n * m)%nat -> rows b = n -> cols b = m -> length (entries b) = (n * m)%nat ->
  inner (entries a) (entries b) = total n (fun i => total m (fun j => entry a i j * entry b i j)).
Proof.
  intros Ra Ca La Rb Cb Lb. rewrite inner_total by congruence. rewrite La.
  assert (E : forall k f, total (k * m) f = total k (fun i => total m (fun j => f (i * m + j)%nat))).
  { induction k as [|k IH]; intros f; [reflexivity|]. cbn [total]. rewrite <- IH. replace (S k * m)%nat with (k * m + m)%nat by lia.
    assert (P : forall q p, total (p + q) f = total p f + total q (fun j => f (p + j)%nat)).
    { induction q as [|q IHq]; intros p; cbn [total]; [rewrite Nat.add_0_r; ring|]. replace (p + S q)%nat with (S (p + q)) by lia. cbn [total]. rewrite IHq. ring. }
    apply P. }
  rewrite E. apply total_ext. intros i _. apply total_ext. intros j _. unfold entry. now rewrite Ca, Cb.
Qed.

(** The product of two turned flux matrices. *)
Lemma frobenius_turn (F F' T T' : nat -> nat -> R) :
  (forall i j, (i < d + 2)%nat -> (j < d)%nat -> F' i j = carry d A (fun k => total d (fun l => F k l * A j l)) i) ->
  (forall i j, (i < d + 2)%nat -> (j < d)%nat -> T' i j = carry d A (fun k => total d (fun l => T k l * A j l)) i) ->
  total (d + 2) (fun i => total d (fun j => F' i j * T' i j)) = total (d + 2) (fun i => total d (fun j => F i j * T i j)).
Proof.
  intros HF HT. rewrite total_swap. rewrite (total_ext _ (fun j => total (d + 2) (fun k => total d (fun l => F k l * A j l) * total d (fun l => T k l * A j l)))).
  2:{ intros j J. rewrite <- (carry_inner (fun k => total d (fun l => F k l * A j l)) (fun k => total d (fun l => T k l * A j l))). apply total_ext. intros i I. now rewrite HF, HT. }
  rewrite total_swap. apply total_ext. intros k _. rewrite <- (turn_of_back (F k) (T k)). apply total_ext. intros j _. rewrite (total_ext (fun l => T k l * A j l) (fun l => A j l * T k l)) by (intros; ring). reflexivity.
Qed.

Lemma turn_gradient_inner (F F' : matrix) (t : matrix) :
  rows F = (d + 2)%nat -> cols F = d -> length (entries F) = ((d + 2) * d)%nat -> rows F' = (d + 2)%nat -> cols F' = d -> length (entries F') = ((d + 2) * d)%nat ->
  rows t = (d + 2)%nat -> cols t = d -> length (entries t) = ((d + 2) * d)%nat ->
  (forall i j, (i < d + 2)%nat -> (j < d)%nat -> entry F' i j = carry d A (fun k => total d (fun l => entry F k l * A j l)) i) ->
  inner (entries F') (entries (turn_gradient d A t)) = inner (entries F) (entries t).
Proof.
  intros R1 C1 L1 R2 C2 L2 R3 C3 L3 H. rewrite !(entries_inner (d + 2) d); trivial; try (unfold turn_gradient; apply tabulate_length).
  apply (frobenius_turn (entry F) (entry F') (entry t) (entry (turn_gradient d A t)) H). intros i j I J. unfold turn_gradient. now rewrite entry_tabulate.
Qed.
End Turn.
