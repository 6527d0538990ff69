(** C06: the pseudo time step over several solves. *)
From Coq Require Import List QArith ZArith Lia Lqa.
From Verif Require Import Base S_Scheme M_Scheme L_Scheme M_Reruns P_Scheme.
Import ListNotations.
Local Open Scope Q_scope.

Lemma smaller_le_left x y : smaller x y <= x.
Proof. unfold smaller. destruct (Qle_bool x y) eqn:E; [apply Qle_refl|]. assert (~ x <= y) by (intros H; apply Qle_bool_iff in H; congruence). lra. Qed.

Lemma smaller_cases x y : (smaller x y == x /\ x <= y) \/ (smaller x y == y /\ y <= x).
Proof. unfold smaller. destruct (Qle_bool x y) eqn:E; [left; split; [reflexivity|now apply Qle_bool_iff]|right; split; [reflexivity|]]. assert (~ x <= y) by (intros H; apply Qle_bool_iff in H; congruence). lra. Qed.

Lemma power_pos f k : (1 <= f)%Z -> (1 <= f ^ Z.of_nat k)%Z.
Proof. intros F. pose proof (Z.pow_pos_nonneg f (Z.of_nat k) ltac:(lia) ltac:(lia)). lia. Qed.

(** The increments of all solves add up: the next solve goes on where the last one stopped. *)
Theorem c06_solves : forall c ns h0,
  (ps_increment_at c <> 0)%Z -> (1 <= ps_increment_factor c)%Z ->
  0 < h0 -> h0 <= ps_max_time_step c ->
  exists h, pseudo_solves c h0 ns = Ok h /\
    h == smaller (ps_max_time_step c)
           (h0 * inject_Z (ps_increment_factor c ^ Z.of_nat (fold_right (fun n k => (positive_multiples_below (ps_increment_at c) n + k)%nat) 0%nat ns))).
Proof.
  intros c ns. induction ns as [|n ns IH]; intros h0 A F P M.
  - exists h0. split; [reflexivity|]. cbn [fold_right Z.of_nat Z.pow]. destruct (smaller_cases (ps_max_time_step c) (h0 * inject_Z 1)) as [[E L]|[E L]]; rewrite E; change (inject_Z 1) with 1 in *; lra.
  - destruct (c06_closed_form c h0 n A F P M) as (h1 & E1 & H1). cbn [pseudo_solves fold_right]. rewrite E1. cbn [bind].
    set (a := positive_multiples_below (ps_increment_at c) n) in *.
    set (b := fold_right _ 0%nat ns) in *.
    set (x := inject_Z (ps_increment_factor c ^ Z.of_nat a)) in *. 
    assert (X : 1 <= x) by (unfold x; change 1 with (inject_Z 1); rewrite <- Zle_Qle; apply power_pos; exact F).
    assert (P1 : 0 < h1 /\ h1 <= ps_max_time_step c).
    { split; [|rewrite H1; apply smaller_le_left]. rewrite H1. destruct (smaller_cases (ps_max_time_step c) (h0 * x)) as [[E L]|[E L]]; rewrite E; nra. }
    destruct (IH h1 A F (proj1 P1) (proj2 P1)) as (h & E & H). exists h. split; [exact E|]. rewrite H.
    rewrite Nat2Z.inj_add, Z.pow_add_r, inject_Z_mult by lia. fold x. set (y := inject_Z (ps_increment_factor c ^ Z.of_nat b)).
    assert (Y : 1 <= y) by (unfold y; change 1 with (inject_Z 1); rewrite <- Zle_Qle; apply power_pos; exact F).
    destruct (smaller_cases (ps_max_time_step c) (h0 * x)) as [[S1 L1]|[S1 L1]]; rewrite S1 in H1;
      destruct (smaller_cases (ps_max_time_step c) (h1 * y)) as [[S2 L2]|[S2 L2]]; rewrite S2;
      destruct (smaller_cases (ps_max_time_step c) (h0 * (x * y))) as [[S3 L3]|[S3 L3]]; rewrite S3; rewrite H1 in *; try reflexivity; nra.
Qed.
Print Assumptions c06_solves.

(** A solve does not start with the step that was set: once a solve has increased it, no later solve starts with it again. *)
Theorem c06_restart_refuted : forall c h0 n ns,
  (0 < ps_increment_at c)%Z -> (2 <= ps_increment_factor c)%Z -> 0 < h0 -> h0 < ps_max_time_step c ->
  (0 < positive_multiples_below (ps_increment_at c) n)%nat ->
  exists h, pseudo_solves c h0 (n :: ns) = Ok h /\ h0 < h.
Proof.
  intros c h0 n ns A F P M N. destruct (c06_solves c (n :: ns) h0 ltac:(lia) ltac:(lia) P (Qlt_le_weak _ _ M)) as (h & E & H). exists h. split; [exact E|]. rewrite H. cbn [fold_right].
  set (k := (positive_multiples_below (ps_increment_at c) n + _)%nat). assert (K : (0 < k)%nat) by (unfold k; lia). clearbody k.
  assert (X : 2 <= inject_Z (ps_increment_factor c ^ Z.of_nat k)).
  { change 2 with (inject_Z 2). rewrite <- Zle_Qle. destruct k as [|k]; [lia|]. rewrite Nat2Z.inj_succ, Z.pow_succ_r by lia. pose proof (power_pos (ps_increment_factor c) k ltac:(lia)). nia. }
  destruct (smaller_cases (ps_max_time_step c) (h0 * inject_Z (ps_increment_factor c ^ Z.of_nat k))) as [[S1 L1]|[S1 L1]]; rewrite S1; nra.
Qed.
Print Assumptions c06_restart_refuted.

(** Factor 10 every 10 iterations, steps 1e-4 to 1: two solves of 21 iterations end with the step 1, one of 41 too; after the first it is 1e-2. *)
Example c06_solves_example : let c := mk_pseudo 1 10 10 in
  (exists h, pseudo_solves c (1#10000) [21%nat] = Ok h /\ h == 1#100) /\
  (exists h, pseudo_solves c (1#10000) [21%nat; 21%nat] = Ok h /\ h == 1) /\
  (exists h, pseudo_solves c (1#10000) [11%nat; 5%nat; 11%nat] = Ok h /\ h == 1#100).
Proof. repeat split; eexists; split; vm_compute; reflexivity. Qed.
