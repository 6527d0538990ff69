(** Lengths of vectors, and one Newton step near a regular solution. *)
From Coq Require Import Reals List Arith Bool Lra Lia.
From Coquelicot Require Import Coquelicot.
From Verif Require Import M_Solve M_Condense S_Condense P_Condense S_Newton.
Open Scope R_scope.

Lemma sum_nonneg n f : (forall k, (k < n)%nat -> 0 <= f k) -> 0 <= sum n f.
Proof. induction n as [|n IH]; intros H; cbn [sum]; [lra|]. specialize (IH ltac:(intros; apply H; lia)). specialize (H n ltac:(lia)). lra. Qed.

Lemma squares_nonneg n x : 0 <= sum n (fun i => x i * x i).
Proof. apply sum_nonneg. intros k _. apply Rle_0_sqr. Qed.

Lemma length_nonneg n x : 0 <= length_of n x.
Proof. apply sqrt_pos. Qed.

Lemma length_square n x : length_of n x * length_of n x = sum n (fun i => x i * x i).
Proof. apply sqrt_sqrt, squares_nonneg. Qed.

Lemma length_ext n x y : (forall i, (i < n)%nat -> x i = y i) -> length_of n x = length_of n y.
Proof. intros E. unfold length_of. f_equal. apply sum_ext. intros i I. rewrite E by exact I. reflexivity. Qed.

Lemma squares_zero n x : sum n (fun i => x i * x i) = 0 -> forall i, (i < n)%nat -> x i = 0.
Proof.
  induction n as [|n IH]; intros H i I; [lia|]. cbn [sum] in H. pose proof (squares_nonneg n x). pose proof (Rle_0_sqr (x n)) as Q. unfold Rsqr in Q.
  destruct (Nat.eq_dec i n) as [->|D]; [apply Rsqr_0_uniq; unfold Rsqr; lra|]. apply IH; [lra|lia].
Qed.

Lemma length_zero n x : length_of n x = 0 -> forall i, (i < n)%nat -> x i = 0.
Proof. intros H. apply squares_zero. rewrite <- length_square, H. ring. Qed.

Lemma cauchy_schwarz n x y : product n x y * product n x y <= sum n (fun i => x i * x i) * sum n (fun i => y i * y i).
Proof.
  set (a := sum n (fun i => y i * y i)). set (b := product n x y). set (c := sum n (fun i => x i * x i)).
  assert (E : sum n (fun i => (a * x i - b * y i) * (a * x i - b * y i)) = a * (a * c - b * b)).
  { transitivity (sum n (fun i => a * a * (x i * x i)) + sum n (fun i => - (2 * a * b) * (x i * y i)) + sum n (fun i => b * b * (y i * y i))).
    - rewrite <- !sum_plus. apply sum_ext. intros i _. ring.
    - rewrite !sum_scale. change (sum n (fun i => x i * y i)) with b. change (sum n (fun i => x i * x i)) with c.
      change (sum n (fun i => y i * y i)) with a. ring. }
  pose proof (squares_nonneg n (fun i => a * x i - b * y i)) as P. cbv beta in P. rewrite E in P.
  assert (A : 0 <= a) by apply squares_nonneg. destruct (Rle_lt_or_eq_dec 0 a A) as [Pa|Z].
  - assert (0 <= a * c - b * b); [|lra]. apply (Rmult_le_reg_l a); lra.
  - assert (b = 0); [|subst b; rewrite H; rewrite <- Z; lra]. unfold b, product. apply sum_zero. intros i I.
    rewrite (squares_zero n y (eq_sym Z) i I). ring.
Qed.

Lemma product_bound n x y : Rabs (product n x y) <= length_of n x * length_of n y.
Proof.
  apply Rsqr_incr_0_var; [|apply Rmult_le_pos; apply length_nonneg]. rewrite <- Rsqr_abs. unfold Rsqr.
  replace (length_of n x * length_of n y * (length_of n x * length_of n y)) with
    ((length_of n x * length_of n x) * (length_of n y * length_of n y)) by ring. rewrite !length_square. apply cauchy_schwarz.
Qed.

Lemma length_plus n x y : length_of n (fun i => x i + y i) <= length_of n x + length_of n y.
Proof.
  pose proof (length_nonneg n x). pose proof (length_nonneg n y).
  apply Rsqr_incr_0_var; [|lra]. unfold Rsqr. rewrite length_square.
  replace (sum n (fun i => (x i + y i) * (x i + y i))) with
    (sum n (fun i => x i * x i) + (2 * product n x y + sum n (fun i => y i * y i))).
  2:{ unfold product. rewrite <- sum_scale, <- !sum_plus. apply sum_ext. intros. ring. }
  rewrite <- !length_square. pose proof (product_bound n x y) as B. pose proof (Rle_abs (product n x y)). nra.
Qed.

Lemma length_scale n c x : length_of n (fun i => c * x i) = Rabs c * length_of n x.
Proof.
  unfold length_of. replace (sum n (fun i => c * x i * (c * x i))) with (Rsqr c * sum n (fun i => x i * x i)).
  2:{ rewrite <- sum_scale. apply sum_ext. intros. unfold Rsqr. ring. }
  rewrite sqrt_mult; [|apply Rle_0_sqr | apply squares_nonneg]. rewrite sqrt_Rsqr_abs. reflexivity.
Qed.

Lemma length_neg n x : length_of n (fun i => - x i) = length_of n x.
Proof. rewrite (length_ext n _ (fun i => -1 * x i)) by (intros; ring). rewrite length_scale. replace (Rabs (-1)) with 1 by (rewrite Rabs_left; lra). ring. Qed.

Lemma distance_self n x : distance n x x = 0.
Proof.
  unfold distance, length_of. rewrite sum_zero; [apply sqrt_0|]. intros. ring.
Qed.

Lemma distance_sym n x y : distance n x y = distance n y x.
Proof. unfold distance. rewrite <- length_neg. apply length_ext. intros. ring. Qed.

Lemma length_only n free x : length_of n (only free x) <= length_of n x.
Proof.
  unfold length_of. apply sqrt_le_1; try apply squares_nonneg.
  induction n as [|n IH]; cbn [sum]; [lra|]. pose proof (Rle_0_sqr (x n)) as Q. unfold Rsqr in Q. change (only free x n) with (if free n then x n else 0). destruct (free n); lra.
Qed.

(** A vector whose product with itself is bounded by its length times [c]. *)
Lemma length_le n x c : sum n (fun i => x i * x i) <= c * length_of n x -> 0 <= c -> length_of n x <= c.
Proof.
  intros H C. rewrite <- length_square in H. pose proof (length_nonneg n x). destruct (Rle_lt_or_eq_dec _ _ H0) as [P|P]; [|lra].
  apply (Rmult_le_reg_r (length_of n x)); lra.
Qed.

Lemma sum_derive n (f : nat -> R -> R) (d : nat -> R) t : (forall i, (i < n)%nat -> is_derive (f i) t (d i)) ->
  is_derive (fun x => sum n (fun i => f i x)) t (sum n d).
Proof.
  induction n as [|n IH]; intros H; cbn [sum]; [apply (is_derive_const 0 t)|].
  apply (is_derive_plus (fun x => sum n (fun i => f i x)) (f n)); [apply IH; intros; apply H; lia | apply H; lia].
Qed.

Section Step.
Variable n : nat.
Variable free : nat -> bool.
Variable F : (nat -> R) -> nat -> R.
Variable A : (nat -> R) -> nat -> nat -> R.
Variable s : nat -> R.
Variables r L M : R.
Hypothesis reg : regular_solution n free F A s r L M.
Hypothesis r_pos : 0 <= r.
Hypothesis L_pos : 0 <= L.
Hypothesis M_pos : 0 <= M.

Lemma around_line u t : around n free s r u -> 0 <= t <= 1 -> around n free s r (line s u t).
Proof.
  intros [O D] T. split.
  - intros i I E. unfold line. rewrite (O i I E). ring.
  - unfold distance in *. rewrite (length_ext n _ (fun i => t * (u i - s i))) by (intros; unfold line; ring).
    rewrite length_scale, Rabs_pos_eq by lra. pose proof (length_nonneg n (fun i => u i - s i)). nra.
Qed.

Lemma around_within u : around n free s r u -> within n free (fun j => u j - s j).
Proof. intros [O _] i I E. rewrite (O i I E). ring. Qed.

(** The error of the linearization. *)
Lemma linearization_error u : around n free s r u ->
  length_of n (only free (fun i => F u i - times n (A u) (fun j => u j - s j) i)) <= L * distance n u s * distance n u s.
Proof.
  intros U. set (z := only free (fun i => F u i - times n (A u) (fun j => u j - s j) i)).
  pose proof (length_nonneg n (fun i => u i - s i)) as D0. fold (distance n u s) in D0.
  apply length_le; [|apply Rmult_le_pos; [apply Rmult_le_pos|]; assumption].
  set (g := fun t => sum n (fun i => z i * F (line s u t) i)).
  set (g' := fun t => sum n (fun i => z i * times n (A (line s u t)) (fun j => u j - s j) i)).
  assert (G : forall t, 0 <= t <= 1 -> is_derive g t (g' t)).
  { intros t T. apply (sum_derive n (fun i t => z i * F (line s u t) i) (fun i => z i * times n (A (line s u t)) (fun j => u j - s j) i) t).
    intros i I. unfold z, only. destruct (free i) eqn:E.
    - apply (is_derive_scal (fun t => F (line s u t) i)). apply (rs_derivative _ _ _ _ _ _ _ _ reg u U i I E t T).
    - apply is_derive_ext with (fun _ => 0); [intros; match goal with |- ?x = ?y => change (@eq R x y) end; ring|].
      replace (0 * times n (A (line s u t)) (fun j => u j - s j) i) with 0 by ring. apply (is_derive_const 0 t). }
  destruct (MVT_gen g 0 1 g') as (xi & X & E).
  { intros t T. apply G. rewrite Rmin_left, Rmax_right in T by lra. lra. }
  { intros t T. rewrite Rmin_left, Rmax_right in T by lra. apply continuity_pt_filterlim, (ex_derive_continuous g). exists (g' t). apply G, T. }
  rewrite Rmin_left, Rmax_right in X by lra.
  assert (E0 : g 0 = 0).
  { unfold g. apply sum_zero. intros i I. unfold z, only. destruct (free i) eqn:Fr; [|ring].
    assert (H : F (line s u 0) i = 0); [|rewrite H; ring].
    assert (EQ : line s u 0 = s) by (apply FunctionalExtensionality.functional_extensionality; intros; unfold line; ring).
    rewrite EQ. apply (rs_solution _ _ _ _ _ _ _ _ reg i I Fr). }
  assert (E1 : line s u 1 = u) by (apply FunctionalExtensionality.functional_extensionality; intros; unfold line; ring).
  set (w := fun j => u j - s j) in *.
  assert (Z : sum n (fun i => z i * z i) = product n z (only free (fun i => times n (A (line s u xi)) w i - times n (A u) w i))).
  { transitivity (g 1 - g 0 - sum n (fun i => z i * times n (A u) w i)).
    - rewrite E0. unfold g. rewrite E1.
      replace (sum n (fun i => z i * F u i) - 0 - sum n (fun i => z i * times n (A u) w i)) with
        (sum n (fun i => z i * F u i) + -1 * sum n (fun i => z i * times n (A u) w i)) by ring.
      rewrite <- sum_scale, <- sum_plus. apply sum_ext. intros i I. unfold z at 2, only. destruct (free i) eqn:Fr; [ring|].
      unfold z, only. rewrite Fr. ring.
    - rewrite E. unfold g', product.
      replace (sum n (fun i => z i * times n (A (line s u xi)) w i) * (1 - 0) - sum n (fun i => z i * times n (A u) w i)) with
        (sum n (fun i => z i * times n (A (line s u xi)) w i) + -1 * sum n (fun i => z i * times n (A u) w i)) by ring.
      rewrite <- sum_scale, <- sum_plus. apply sum_ext. intros i I. unfold only at 1. unfold z, only. destruct (free i); ring. }
  rewrite Z. eapply Rle_trans; [apply Rle_abs|]. eapply Rle_trans; [apply product_bound|].
  rewrite Rmult_comm. apply Rmult_le_compat_r; [apply length_nonneg|].
  eapply Rle_trans; [apply (rs_change _ _ _ _ _ _ _ _ reg (line s u xi) u w); [apply around_line; assumption | exact U | apply around_within, U]|].
  change (length_of n w) with (distance n u s). apply Rmult_le_compat_r; [exact D0|]. apply Rmult_le_compat_l; [exact L_pos|].
  unfold distance. rewrite (length_ext n _ (fun i => (xi - 1) * w i)) by (intros; unfold line, w; ring). rewrite length_scale.
  rewrite <- (Rmult_1_l (length_of n (fun i => u i - s i))). apply Rmult_le_compat; try apply Rabs_pos; try apply length_nonneg; [|apply Rle_refl].
  rewrite Rabs_left1; lra.
Qed.

(** The full Newton correction leaves a quadratic error. *)
Lemma correction_error u du : around n free s r u -> solves_system n free (A u) (F u) du ->
  within n free du /\ length_of n (fun i => u i - s i - du i) <= M * L * distance n u s * distance n u s.
Proof.
  intros U Sy.
  assert (W : within n free du) by (intros i I E; specialize (Sy i I); rewrite E in Sy; exact Sy).
  split; [exact W|].
  assert (WW : within n free (fun i => u i - s i - du i)).
  { intros i I E. rewrite (W i I E). pose proof (around_within u U i I E) as Q. cbn beta in Q. lra. }
  eapply Rle_trans; [apply (rs_inverse _ _ _ _ _ _ _ _ reg u _ U WW)|].
  replace (M * L * distance n u s * distance n u s) with (M * (L * distance n u s * distance n u s)) by ring.
  apply Rmult_le_compat_l; [exact M_pos|]. eapply Rle_trans; [|apply linearization_error, U].
  rewrite <- length_neg. apply Req_le, length_ext. intros i I. unfold only. destruct (free i) eqn:E; [|ring].
  rewrite (times_vector n (A u) (fun i => u i - s i - du i) (fun j => (u j - s j) + -1 * du j)) by (intros; ring).
  rewrite (times_plus n (A u) (fun j => u j - s j) (fun j => -1 * du j)), times_scale.
  specialize (Sy i I). rewrite E in Sy. rewrite Sy. ring.
Qed.

(** A damped step. *)
Lemma damped_error d u du : around n free s r u -> solves_system n free (A u) (F u) du ->
  (forall i, (i < n)%nat -> free i = false -> update_solution d u du i = s i) /\
  distance n (update_solution d u du) s <= Rabs (1 - d) * distance n u s + Rabs d * (M * L * distance n u s * distance n u s).
Proof.
  intros U Sy. destruct (correction_error u du U Sy) as [W B]. split.
  - intros i I E. unfold update_solution. rewrite (W i I E). destruct U as [O _]. rewrite (O i I E). ring.
  - unfold distance at 1. rewrite (length_ext n _ (fun i => (1 - d) * (u i - s i) + d * (u i - s i - du i))) by (intros; unfold update_solution; ring).
    eapply Rle_trans; [apply length_plus|]. rewrite !length_scale. apply Rplus_le_compat_l. apply Rmult_le_compat_l; [apply Rabs_pos | exact B].
Qed.

Lemma correction_length u du : around n free s r u -> solves_system n free (A u) (F u) du ->
  length_of n du <= (1 + M * L * r) * distance n u s /\ (1 - M * L * r) * distance n u s <= length_of n du.
Proof.
  intros U Sy. destruct (correction_error u du U Sy) as [W B]. pose proof (length_nonneg n (fun i => u i - s i)) as D0. fold (distance n u s) in D0.
  assert (Q : M * L * distance n u s * distance n u s <= M * L * r * distance n u s).
  { apply Rmult_le_compat_r; [exact D0|]. apply Rmult_le_compat_l; [apply Rmult_le_pos; assumption | apply U]. }
  split.
  - rewrite (length_ext n du (fun i => (u i - s i) + - (u i - s i - du i))) by (intros; ring). eapply Rle_trans; [apply length_plus|].
    rewrite length_neg. unfold distance in *. lra.
  - assert (T : distance n u s <= length_of n du + length_of n (fun i => u i - s i - du i)); [|lra].
    unfold distance. rewrite (length_ext n (fun i => u i - s i) (fun i => du i + (u i - s i - du i))) by (intros; ring). apply length_plus.
Qed.

End Step.
