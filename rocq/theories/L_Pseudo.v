(** Proofs about the pseudo time step. *)
From Coq Require Import List Bool QArith Qround ZArith Lia Lqa Psatz.
From Verif Require Import Base M_Scheme S_Scheme.
Import ListNotations.
Local Open Scope Q_scope.

Lemma Qle_bool_false' : forall a b, Qle_bool a b = false -> b < a.
Proof.
  intros a b H. apply Qnot_le_lt. intros C. apply Qle_bool_iff in C. congruence.
Qed.

Definition is_change (m : Z) (k : nat) : bool := ((0 <? Z.of_nat k) && (Z.of_nat k mod m =? 0))%Z.

Lemma pm_step : forall m n, positive_multiples_below m (S n) =
  (positive_multiples_below m n + (if is_change m n then 1 else 0))%nat.
Proof.
  intros m n. unfold positive_multiples_below. rewrite seq_S, filter_app, app_length. cbn [filter Nat.add].
  fold (is_change m n). destruct (is_change m n); reflexivity.
Qed.

Lemma pow_Z_pos : forall (f : Z) n, (1 <= f)%Z -> (1 <= f ^ Z.of_nat n)%Z.
Proof. intros f n H. pose proof (Z.pow_pos_nonneg f (Z.of_nat n)). lia. Qed.

Lemma update_unfold : forall c old it, (ps_increment_at c <> 0)%Z ->
  exists new, solver_iteration_update c old it = Ok new /\
    (ps_max_time_step c <= old -> new = old) /\
    (is_change (ps_increment_at c) it = false -> new = old) /\
    (old < ps_max_time_step c -> is_change (ps_increment_at c) it = true ->
       new == smaller (ps_max_time_step c) (old * inject_Z (ps_increment_factor c))).
Proof.
  intros c old it Hinc. unfold solver_iteration_update.
  destruct (Qle_bool (ps_max_time_step c) old) eqn:E; cbn [negb].
  - apply Qle_bool_iff in E. exists old. split; [reflexivity|]. split; [reflexivity|]. split; [reflexivity|].
    intros H. lra.
  - apply Qle_bool_false' in E.
    apply Z.eqb_neq in Hinc. rewrite Hinc.
    rewrite andb_comm. fold (is_change (ps_increment_at c) it).
    destruct (is_change (ps_increment_at c) it).
    + eexists; split; [reflexivity|]. split; [intros; lra|]. split; [discriminate|].
      intros _ _. unfold smaller.
      set (a := ps_max_time_step c) in *. set (b := old * inject_Z (ps_increment_factor c)).
      destruct (Qle_bool b a) eqn:E1; destruct (Qle_bool a b) eqn:E2; cbn [negb]; try reflexivity.
      * apply Qle_bool_iff in E1. apply Qle_bool_iff in E2. lra.
      * apply Qle_bool_false' in E1. apply Qle_bool_false' in E2. lra.
    + exists old. split; [reflexivity|]. split; [reflexivity|]. split; [reflexivity|]. discriminate.
Qed.

Lemma pseudo_closed_form : forall c h0 n,
  (ps_increment_at c <> 0)%Z -> (1 <= ps_increment_factor c)%Z ->
  0 < h0 -> h0 <= ps_max_time_step c ->
  exists h, pseudo_time_step c h0 n = Ok h /\
    h == smaller (ps_max_time_step c)
           (h0 * inject_Z (ps_increment_factor c ^ Z.of_nat (positive_multiples_below (ps_increment_at c) n))).
Proof.
  intros c h0 n Hinc Hf Hpos Hle. induction n as [|n IH].
  - exists h0. split; [reflexivity|]. cbn. unfold smaller.
    destruct (Qle_bool (ps_max_time_step c) (h0 * inject_Z 1)) eqn:E.
    + apply Qle_bool_iff in E. change (inject_Z 1) with 1 in E. lra.
    + change (inject_Z 1) with 1. lra.
  - destruct IH as [h [E Hh]]. cbn [pseudo_time_step]. rewrite E. cbn [bind].
    destruct (update_unfold c h n Hinc) as [new [E' [H1 [H2 H3]]]].
    exists new. split; [exact E'|]. rewrite pm_step.
    set (m := ps_max_time_step c) in *. set (f := ps_increment_factor c) in *.
    set (k := positive_multiples_below (ps_increment_at c) n) in *.
    assert (P : (1 <= f ^ Z.of_nat k)%Z) by (apply pow_Z_pos; exact Hf).
    assert (PQ : 1 <= inject_Z (f ^ Z.of_nat k)) by (change 1 with (inject_Z 1); rewrite <- Zle_Qle; exact P).
    assert (FQ : 1 <= inject_Z f) by (change 1 with (inject_Z 1); rewrite <- Zle_Qle; exact Hf).
    destruct (is_change (ps_increment_at c) n) eqn:Ech.
    + replace (k + 1)%nat with (S k) by lia. rewrite Nat2Z.inj_succ, Z.pow_succ_r by lia. rewrite inject_Z_mult.
      set (x := inject_Z (f ^ Z.of_nat k)) in *. set (y := inject_Z f) in *.
      unfold smaller in Hh.
      destruct (Qle_bool m (h0 * x)) eqn:Ea.
      * apply Qle_bool_iff in Ea. rewrite H1 by lra. rewrite Hh. unfold smaller.
        destruct (Qle_bool m (h0 * (y * x))) eqn:Eb; [reflexivity|].
        apply Qle_bool_false' in Eb. nra.
      * apply Qle_bool_false' in Ea. rewrite H3 by (try reflexivity; lra).
        unfold smaller.
        assert (Eq : h * y == h0 * (y * x)) by (rewrite Hh; ring).
        destruct (Qle_bool m (h * y)) eqn:Eb; destruct (Qle_bool m (h0 * (y * x))) eqn:Ec; try reflexivity.
        -- apply Qle_bool_iff in Eb. apply Qle_bool_false' in Ec. lra.
        -- apply Qle_bool_iff in Ec. apply Qle_bool_false' in Eb. lra.
        -- exact Eq.
    + replace (k + 0)%nat with k by lia. rewrite H2 by reflexivity. exact Hh.
Qed.

Lemma pseudo_constant : forall c h0 n,
  (ps_increment_at c <> 0)%Z -> ps_max_time_step c <= h0 -> pseudo_time_step c h0 n = Ok h0.
Proof.
  intros c h0 n Hinc Hle. induction n as [|n IH]; [reflexivity|].
  cbn. rewrite IH. cbn.
  destruct (update_unfold c h0 n Hinc) as [new [E [H _]]]. rewrite E, H by exact Hle. reflexivity.
Qed.

Lemma pseudo_step_monotone : forall c h0 n,
  (ps_increment_at c <> 0)%Z -> (1 <= ps_increment_factor c)%Z -> 0 < h0 ->
  exists h h', pseudo_time_step c h0 n = Ok h /\ pseudo_time_step c h0 (S n) = Ok h' /\
    h0 <= h /\ h <= h' /\
    (h' <= ps_max_time_step c \/ h' = h0) /\
    (is_change (ps_increment_at c) n = false -> h' = h).
Proof.
  intros c h0 n Hinc Hf Hpos.
  destruct (Qlt_le_dec h0 (ps_max_time_step c)) as [Hlt|Hge].
  - destruct (pseudo_closed_form c h0 n Hinc Hf Hpos ltac:(lra)) as [h [E Hh]].
    cbn [pseudo_time_step]. rewrite E. cbn [bind].
    destruct (update_unfold c h n Hinc) as [new [E' [H1 [H2 H3]]]].
    exists h, new. split; [reflexivity|]. split; [exact E'|].
    set (f := ps_increment_factor c) in *. set (m := ps_max_time_step c) in *.
    set (k := positive_multiples_below (ps_increment_at c) n) in *.
    assert (P : (1 <= f ^ Z.of_nat k)%Z) by (apply pow_Z_pos; exact Hf).
    assert (PQ : 1 <= inject_Z (f ^ Z.of_nat k)) by (change 1 with (inject_Z 1); rewrite <- Zle_Qle; exact P).
    assert (FQ : 1 <= inject_Z f) by (change 1 with (inject_Z 1); rewrite <- Zle_Qle; exact Hf).
    set (x := inject_Z (f ^ Z.of_nat k)) in *. set (y := inject_Z f) in *.
    assert (Hb : h0 <= h /\ h <= m).
    { unfold smaller in Hh. destruct (Qle_bool m (h0 * x)) eqn:Ea.
      - apply Qle_bool_iff in Ea. split; lra.
      - apply Qle_bool_false' in Ea. split; nra. }
    destruct Hb as [Hb1 Hb2]. split; [exact Hb1|].
    destruct (Qlt_le_dec h m) as [Hhm|Hhm].
    + destruct (is_change (ps_increment_at c) n) eqn:Ech.
      * specialize (H3 Hhm eq_refl). unfold smaller in H3.
        destruct (Qle_bool m (h * y)) eqn:Eb.
        -- apply Qle_bool_iff in Eb. split; [lra|]. split; [left; lra | discriminate].
        -- apply Qle_bool_false' in Eb. split; [nra|]. split; [left; lra | discriminate].
      * rewrite H2 by reflexivity. split; [lra|]. split; [left; lra | reflexivity].
    + rewrite H1 by exact Hhm. split; [lra|]. split; [left; lra | reflexivity].
  - exists h0, h0. rewrite !pseudo_constant by assumption.
    split; [reflexivity|]. split; [reflexivity|]. split; [lra|]. split; [lra|]. split; [right; reflexivity | reflexivity].
Qed.

Lemma is_change_mult : forall m j, (0 < m)%Z -> (1 <= j)%nat -> is_change m (Z.to_nat m * j) = true.
Proof.
  intros m j Hm Hj. unfold is_change. rewrite Nat2Z.inj_mul, Z2Nat.id by lia.
  apply andb_true_intro. split.
  - apply Z.ltb_lt. nia.
  - apply Z.eqb_eq. rewrite Z.mul_comm. apply Z.mod_mul. lia.
Qed.

Lemma pm_mono : forall m a b, (a <= b)%nat -> (positive_multiples_below m a <= positive_multiples_below m b)%nat.
Proof.
  intros m a b H. induction H; [lia|]. rewrite pm_step. lia.
Qed.

Lemma pm_unbounded : forall m j, (0 < m)%Z -> (j <= positive_multiples_below m (S (Z.to_nat m * j)))%nat.
Proof.
  intros m j Hm. induction j as [|j IH]; [lia|].
  rewrite pm_step, is_change_mult by lia.
  pose proof (pm_mono m (S (Z.to_nat m * j)) (Z.to_nat m * S j)) as P. nia.
Qed.

Lemma pow2_gt : forall n, (Z.of_nat n < 2 ^ Z.of_nat n)%Z.
Proof. intros n. apply Z.pow_gt_lin_r; lia. Qed.

Lemma pseudo_reaches_max : forall c h0,
  (0 < ps_increment_at c)%Z -> (2 <= ps_increment_factor c)%Z ->
  0 < h0 -> h0 <= ps_max_time_step c ->
  exists K, forall n, (K <= n)%nat -> exists h, pseudo_time_step c h0 n = Ok h /\ h == ps_max_time_step c.
Proof.
  intros c h0 Hinc Hf Hpos Hle.
  set (m := ps_max_time_step c) in *.
  set (j := Z.to_nat (Qceiling (m / h0))).
  exists (S (Z.to_nat (ps_increment_at c) * j)). intros n Hn.
  destruct (pseudo_closed_form c h0 n ltac:(lia) ltac:(lia) Hpos Hle) as [h [E Hh]].
  exists h. split; [exact E|]. rewrite Hh. unfold smaller. fold m.
  set (k := positive_multiples_below (ps_increment_at c) n) in *.
  assert (Hk : (j <= k)%nat).
  { pose proof (pm_unbounded (ps_increment_at c) j Hinc). pose proof (pm_mono (ps_increment_at c) _ _ Hn). unfold k. lia. }
  assert (Hbig : m <= h0 * inject_Z (ps_increment_factor c ^ Z.of_nat k)).
  { pose proof (Qle_ceiling (m / h0)) as Hc.
    assert (Hj : inject_Z (Qceiling (m / h0)) <= inject_Z (ps_increment_factor c ^ Z.of_nat k)).
    { rewrite <- Zle_Qle.
      assert (A : (Qceiling (m / h0) <= Z.of_nat j)%Z) by (unfold j; lia).
      pose proof (pow2_gt k). pose proof (Z.pow_le_mono_l 2 (ps_increment_factor c) (Z.of_nat k) ltac:(lia)). lia. }
    assert (Hmh : m == (m / h0) * h0) by (field; lra).
    set (q := m / h0) in *. set (w := inject_Z (ps_increment_factor c ^ Z.of_nat k)) in *.
    assert (q <= w) by lra. rewrite Hmh. nra. }
  apply Qle_bool_iff in Hbig. rewrite Hbig. reflexivity.
Qed.
