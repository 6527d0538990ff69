(** Proofs about the nonlinear solver. *)
From Coq Require Import Reals List Bool Arith Lia Lra.
From Verif Require Import M_Solve S_Solve.
Import ListNotations.
Local Open Scope R_scope.

Lemma sqrt_sq_abs : forall r, sqrt (r ^ 2) = Rabs r.
Proof.
  intros r. replace (r ^ 2) with (Rsqr r) by (unfold Rsqr; ring). apply sqrt_Rsqr_abs.
Qed.

Lemma below_small : forall crit ip, below (iteration_error ip) crit = true <-> small crit ip.
Proof.
  intros crit [r| |]; cbn; unfold small.
  - destruct (Rlt_dec (sqrt (r * (r * 1))) crit) as [H|H].
    + split; [intros _ | reflexivity]. exists r. split; [reflexivity|]. rewrite <- sqrt_sq_abs. exact H.
    + split; [discriminate|]. intros [r' [E Hr]]. inversion E; subst r'. exfalso. apply H.
      change (sqrt (r ^ 2) < crit). rewrite sqrt_sq_abs. exact Hr.
  - split; [discriminate | intros [r [E _]]; discriminate].
  - split; [discriminate | intros [r [E _]]; discriminate].
Qed.

Section Solve.
Context {I : Type}.
Variable upd : nat -> (I -> R) -> (I -> R) * fval.
Variables crit damping : R.

(** Shifted version used for the induction: steps it, it+1, ... *)
Definition outcomes_from (it : nat) (u0 : I -> R) (outs : list ((I -> R) * fval)) : Prop :=
  forall k o, nth_error outs k = Some o ->
    exists u, (forall i, u i = u0 i - damping * applied_sum (firstn k outs) i) /\ o = upd (it + k) u.

Lemma solve_loop_spec : forall k it u st tr uf stf,
  st_nan st = false -> (k = 0%nat -> st_converged st = false) ->
  solve_loop crit damping upd it k u st = (tr, uf, stf) ->
  exists outs,
    outcomes_from it u outs /\
    (length outs <= k)%nat /\
    tr = concat (map (fun j => iteration_events (it + j) (snd (nth j outs (u, NaN)))) (seq 0 (length outs))) /\
    (forall j o, nth_error outs j = Some o -> (S j < length outs)%nat -> snd o <> NaN /\ ~ small crit (snd o)) /\
    (forall o, nth_error outs (length outs - 1) = Some o -> (length outs < k)%nat -> snd o = NaN \/ small crit (snd o)) /\
    (outs = [] -> k = 0%nat) /\
    (forall i, uf i = u i - damping * applied_sum outs i) /\
    (st_converged stf = true <-> exists o, nth_error outs (length outs - 1) = Some o /\ small crit (snd o)) /\
    (st_nan stf = true <-> exists o, nth_error outs (length outs - 1) = Some o /\ snd o = NaN).
Proof.
  induction k as [|k IH]; intros it u st tr uf stf Hnan Hconv H; cbn [solve_loop] in H.
  - inversion H; subst. exists []. split; [intros j o C; destruct j; discriminate|].
    split; [cbn; lia|]. split; [reflexivity|]. split; [intros j o C; destruct j; discriminate|].
    split; [intros o C; discriminate|]. split; [reflexivity|]. split; [intros i; cbn; ring|].
    split; [rewrite (Hconv eq_refl); split; [discriminate | intros [o [C _]]; discriminate]|].
    rewrite Hnan; split; [discriminate | intros [o [C _]]; discriminate].
  - destruct (upd it u) as [du ip] eqn:Eu.
    pose proof (below_small crit ip) as Hbs.
    assert (Hfirst : forall j o, nth_error [(du, ip)] j = Some o -> j = 0%nat /\ o = (du, ip)).
    { intros [|[|j]] o C; cbn in C; inversion C; auto. }
    unfold set_iteration_error in H. cbn [st_nan st_converged] in H. rewrite Hnan in H.
    destruct (fval_isnan (iteration_error ip)) eqn:En.
    + (* NaN: stop without applying *)
      inversion H; subst. assert (Eip : ip = NaN) by (destruct ip; cbn in En; congruence). subst ip.
      exists [(du, NaN)].
      split. { intros j o C. destruct (Hfirst _ _ C) as [-> ->]. exists uf. split; [intros i; cbn; ring|].
               rewrite Nat.add_0_r. symmetry; exact Eu. }
      split; [cbn; lia|]. split; [cbn; rewrite Nat.add_0_r; reflexivity|].
      split; [intros j o C L; cbn in L; lia|]. split; [intros o C _; cbn in C; inversion C; left; reflexivity|].
      split; [discriminate|]. split; [intros i; cbn; ring|].
      split; [cbn; split; [discriminate | intros [o [C [r [E _]]]]; inversion C; subst o; cbn in E; discriminate]|].
      cbn. split; [intros _; eexists; split; reflexivity | reflexivity].
    + assert (Enn : ip <> NaN) by (intros ->; cbn in En; discriminate).
      assert (Hev : forall n, iteration_events n ip = [NYield n; NStep n; NApply n]).
      { intros n. unfold iteration_events. destruct ip; [reflexivity | reflexivity | congruence]. }
      assert (Hap : forall r i, applied_sum ((du, ip) :: r) i = du i + applied_sum r i).
      { intros r i. cbn. destruct ip; [reflexivity | reflexivity | congruence]. }
      destruct (below (iteration_error ip) crit) eqn:Eb.
      * (* converged: apply and stop *)
        inversion H; subst. clear Eb. assert (Eb : small crit ip) by (apply Hbs; reflexivity). exists [(du, ip)].
        split. { intros j o C. destruct (Hfirst _ _ C) as [-> ->]. exists u. split; [intros i; cbn; ring|].
                 rewrite Nat.add_0_r. symmetry; exact Eu. }
        split; [cbn; lia|]. split; [cbn [length seq map concat nth snd]; rewrite Nat.add_0_r, Hev; reflexivity|].
        split; [intros j o C L; cbn in L; lia|]. split; [intros o C _; cbn in C; inversion C; right; exact Eb|].
        split; [discriminate|]. split; [intros i; rewrite Hap; unfold update_solution; cbn; ring|].
        split; [cbn; split; [intros _; eexists; split; [reflexivity | exact Eb] | reflexivity]|].
        cbn. split; [discriminate | intros [o [C E]]; inversion C; subst o; cbn in E; contradiction].
      * (* continue *)
        cbn [st_converged] in H.
        destruct (solve_loop crit damping upd (S it) k (update_solution damping u du) (mk_status false false))
          as [[tr' uf'] stf'] eqn:El.
        inversion H; subst.
        destruct (IH (S it) _ (mk_status false false) _ _ _ eq_refl (fun _ => eq_refl) El)
          as [outs [Hout [Hlen [Htr [Hmid [Hlast [Hnil [Hfin [Hc Hn]]]]]]]]].
        assert (Hns : ~ small crit ip) by (intros C; apply Hbs in C; congruence).
        exists ((du, ip) :: outs).
        split.
        { intros [|j] o C; cbn in C.
          - inversion C; subst. exists u. split; [intros i; cbn; ring|]. rewrite Nat.add_0_r. symmetry; exact Eu.
          - destruct (Hout j o C) as [uj [Huj Eo]]. exists uj. split.
            + intros i. rewrite Huj. cbn [firstn]. rewrite Hap. unfold update_solution. ring.
            + rewrite Nat.add_succ_r. exact Eo. }
        split; [cbn; lia|].
        split.
        { cbn [length seq map concat]. rewrite Nat.add_0_r. cbn [nth snd]. rewrite Hev. cbn [app].
          rewrite <- seq_shift, map_map. do 3 f_equal. rewrite Htr. f_equal. apply map_ext_in. intros j Hj.
          rewrite Nat.add_succ_r. cbn [Nat.add nth]. f_equal. f_equal. apply nth_indep. apply in_seq in Hj. lia. }
        split.
        { intros [|j] o C L; cbn in C, L.
          - inversion C; subst. split; assumption.
          - apply (Hmid j o C). lia. }
        assert (Hidx : forall o, nth_error ((du, ip) :: outs) (length ((du, ip) :: outs) - 1) = Some o ->
                  (outs = [] /\ o = (du, ip)) \/ (outs <> [] /\ nth_error outs (length outs - 1) = Some o)).
        { intros o C. cbn [length] in C. rewrite Nat.sub_succ, Nat.sub_0_r in C. destruct outs as [|o1 outs].
          - left. cbn in C. inversion C; auto.
          - right. split; [discriminate|]. cbn [length] in C. cbn in C. cbn [length]. rewrite Nat.sub_succ, Nat.sub_0_r. exact C. }
        assert (Hidx' : forall o, nth_error outs (length outs - 1) = Some o ->
                  nth_error ((du, ip) :: outs) (length ((du, ip) :: outs) - 1) = Some o).
        { intros o C. destruct outs as [|o1 outs]; [discriminate|].
          cbn [length] in *. rewrite Nat.sub_succ, Nat.sub_0_r in *. cbn. exact C. }
        split.
        { intros o C L. destruct (Hidx o C) as [[En0 ->]|[_ C']].
          - subst outs. cbn in L. exfalso. specialize (Hnil eq_refl). lia.
          - apply (Hlast o C'). cbn in L. lia. }
        split; [discriminate|].
        split; [intros i; rewrite Hap, Hfin; unfold update_solution; ring|].
        split.
        { rewrite Hc. split.
          - intros [o [C E]]. exists o. split; [apply Hidx'; exact C | exact E].
          - intros [o [C E]]. destruct (Hidx o C) as [[_ ->]|[_ C']]; [contradiction | exists o; auto]. }
        { rewrite Hn. split.
          - intros [o [C E]]. exists o. split; [apply Hidx'; exact C | exact E].
          - intros [o [C E]]. destruct (Hidx o C) as [[_ ->]|[_ C']]; [contradiction | exists o; auto]. }
Qed.

End Solve.

Lemma nl_solve_spec : forall {I} max crit damping (upd : nat -> (I -> R) -> (I -> R) * fval) u0 tr uf st,
  nl_solve max crit damping upd u0 = (tr, uf, st) ->
  solve_spec max crit damping upd u0 tr uf (st_converged st) (st_nan st).
Proof.
  intros I max crit damping upd u0 tr uf st H. unfold nl_solve in H.
  destruct (solve_loop_spec upd crit damping max 0 u0 reset_status tr uf st eq_refl (fun _ => eq_refl) H)
    as [outs Hs].
  exists outs. exact Hs.
Qed.
