(** Consistency of the time discretisations. *)
From Coq Require Import Reals Lra Lia.
From Coquelicot Require Import Coquelicot.
From Verif Require Import M_Scheme.
Local Open Scope R_scope.

Lemma ie_consistent : forall (a b t h : R), h <> 0 ->
  let u := fun s => a + b * s in
  ie_derivative h (u (t + h)) (u t) = b.
Proof. intros a b t h H u. unfold ie_derivative, u. field. exact H. Qed.

Lemma bdf2_consistent : forall (a b c t h : R), h <> 0 ->
  let u := fun s => a + b * s + c * s ^ 2 in
  bdf2_derivative h (u (t + h)) (u t) (u (t - h)) = b + 2 * c * (t + h).
Proof. intros a b c t h H u. unfold bdf2_derivative, u. field. exact H. Qed.

Lemma ie_levels_steps : forall dt np1 n normalized, dt <> 0 ->
  (np1 - ie_current_level normalized n) / ie_time_step normalized dt = ie_derivative dt np1 n.
Proof. intros. unfold ie_current_level, ie_time_step, ie_derivative. reflexivity. Qed.

Lemma bdf2_levels_steps : forall dt np1 n nm1, dt <> 0 ->
  (np1 - bdf2_current_level true n nm1) / bdf2_time_step true dt = bdf2_derivative dt np1 n nm1 /\
  (3 * np1 - bdf2_current_level false n nm1) / bdf2_time_step false dt = bdf2_derivative dt np1 n nm1.
Proof.
  intros. unfold bdf2_current_level, bdf2_time_step, bdf2_derivative. split; field; assumption.
Qed.

(** Taylor expansion backwards in time. *)
Lemma taylor_backward : forall (u : R -> R) n T d, 0 < d ->
  (forall s k, (k <= S n)%nat -> ex_derive_n u k s) ->
  exists z, T - d < z < T /\
    u (T - d) = sum_f_R0 (fun m => d ^ m / INR (fact m) * ((-1) ^ m * Derive_n u m T)) n
                + d ^ (S n) / INR (fact (S n)) * ((-1) ^ (S n) * Derive_n u (S n) z).
Proof.
  intros u n T d Hd Hu.
  set (v := fun s => u (- s)).
  assert (Hloc : forall k s, (k <= S n)%nat ->
     locally (- s) (fun y => forall j, (j <= k)%nat -> ex_derive_n u j y)).
  { intros k s Hk. apply filter_forall. intros y j Hj. apply Hu. lia. }
  assert (Hv : forall t, - T <= t <= - T + d -> forall k, (k <= S n)%nat -> ex_derive_n v k t).
  { intros t _ k Hk. apply ex_derive_n_comp_opp. apply Hloc. exact Hk. }
  destruct (Taylor_Lagrange v n (- T) (- T + d) ltac:(lra) Hv) as [z [Hz E]].
  exists (- z). split; [lra|].
  replace (u (T - d)) with (v (- T + d)) by (unfold v; f_equal; ring).
  rewrite E. replace (- T + d - - T) with d by ring.
  f_equal.
  - apply sum_eq. intros i Hi. f_equal. unfold v. rewrite Derive_n_comp_opp by (apply Hloc; lia).
    rewrite Ropp_involutive. reflexivity.
  - f_equal. unfold v. rewrite Derive_n_comp_opp by (apply Hloc; lia). reflexivity.
Qed.

Lemma ie_error : forall (u : R -> R) t h M, 0 < h ->
  (forall s k, (k <= 2)%nat -> ex_derive_n u k s) ->
  (forall s, t <= s <= t + h -> Rabs (Derive_n u 2 s) <= M) ->
  Rabs (ie_derivative h (u (t + h)) (u t) - Derive u (t + h)) <= h / 2 * M.
Proof.
  intros u t h M Hh Hu HM.
  destruct (taylor_backward u 1 (t + h) h Hh Hu) as [z [Hz E]].
  replace (t + h - h) with t in E, Hz by ring.
  cbn [sum_f_R0 pow fact INR Nat.mul Nat.add] in E.
  change (Derive_n u 0 (t + h)) with (u (t + h)) in E.
  change (Derive_n u 1 (t + h)) with (Derive u (t + h)) in E.
  unfold ie_derivative.
  replace ((u (t + h) - u t) / h - Derive u (t + h)) with (- (h / 2) * Derive_n u 2 z)
    by (rewrite E; cbn [Derive_n]; field; lra).
  rewrite Rabs_mult, Rabs_Ropp, (Rabs_pos_eq (h / 2)) by lra.
  apply Rmult_le_compat_l; [lra|]. apply HM. lra.
Qed.

Lemma bdf2_error : forall (u : R -> R) t h M, 0 < h ->
  (forall s k, (k <= 3)%nat -> ex_derive_n u k s) ->
  (forall s, t - h <= s <= t + h -> Rabs (Derive_n u 3 s) <= M) ->
  Rabs (bdf2_derivative h (u (t + h)) (u t) (u (t - h)) - Derive u (t + h)) <= h ^ 2 * M.
Proof.
  intros u t h M Hh Hu HM.
  destruct (taylor_backward u 2 (t + h) h Hh Hu) as [z1 [Hz1 E1]].
  destruct (taylor_backward u 2 (t + h) (2 * h) ltac:(lra) Hu) as [z2 [Hz2 E2]].
  replace (t + h - h) with t in E1, Hz1 by ring.
  replace (t + h - 2 * h) with (t - h) in E2, Hz2 by ring.
  cbn [sum_f_R0 pow fact INR Nat.mul Nat.add] in E1, E2.
  change (Derive_n u 0 (t + h)) with (u (t + h)) in E1, E2.
  change (Derive_n u 1 (t + h)) with (Derive u (t + h)) in E1, E2.
  unfold bdf2_derivative.
  replace ((3 * u (t + h) - 4 * u t + u (t - h)) / (2 * h) - Derive u (t + h))
    with (h ^ 2 * (1 / 3 * Derive_n u 3 z1 - 2 / 3 * Derive_n u 3 z2))
    by (rewrite E1, E2; field; lra).
  pose proof (HM z1 ltac:(lra)) as B1. pose proof (HM z2 ltac:(lra)) as B2.
  assert (Hp : 0 <= h ^ 2) by nra.
  rewrite Rabs_mult, (Rabs_pos_eq (h ^ 2)) by exact Hp.
  apply Rmult_le_compat_l; [exact Hp|].
  apply Rabs_le. apply Rabs_le_between in B1. apply Rabs_le_between in B2. lra.
Qed.

(** First step of BDF2 with n-1 = n = initial value. *)
Lemma bdf2_startup : forall a b t h, h <> 0 ->
  let u := fun s => a + b * s in
  bdf2_derivative h (u (t + h)) (u t) (u t) = 3 / 2 * b.
Proof. intros a b t h H u. unfold bdf2_derivative, u. field. exact H. Qed.
