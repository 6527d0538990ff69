(** C42: the gradient equations return the derivatives of the fields. *)
From Coq Require Import Reals List Arith Lra Lia Bool.
From Coquelicot Require Import Coquelicot.
From Verif Require Import Base M_Bla M_Flow S_Flow L_Flow P_Eos.
Import ListNotations.
Open Scope R_scope.

(** ** Rules *)

Lemma entry_madd a b i j : cols a = cols b -> length (entries a) = length (entries b) -> entry (madd a b) i j = entry a i j + entry b i j.
Proof. intros C L; unfold entry, madd; cbn [cols entries]. rewrite <- C. apply vadd_nth; exact L. Qed.
Lemma entry_msub a b i j : cols a = cols b -> length (entries a) = length (entries b) -> entry (msub a b) i j = entry a i j - entry b i j.
Proof. intros C L; unfold entry, msub; cbn [cols entries]. rewrite <- C. apply vsub_nth; exact L. Qed.
Lemma entry_mdiv a f i j : entry (mdiv a f) i j = entry a i j / f.
Proof. unfold entry, mdiv; cbn [cols entries]. apply vdiv_nth. Qed.
Lemma entry_scale a f i j : entry (scale f a) i j = f * entry a i j.
Proof. unfold entry, scale; cbn [cols entries]. apply (vscale_nth f). Qed.

Section Rules.
Variables (d : nat) (s : state) (line : nat -> R -> state).
Hypothesis smooth : smooth_lines d s line.

Lemma gradient_ext q q' l : (forall st, valid st -> length (st_u st) = d -> q st = q' st) -> is_gradient d line q l -> is_gradient d line q' l.
Proof.
  intros E [L H]; split; [exact L|]. intros i Hi. destruct (smooth i Hi) as [_ V].
  apply is_derive_ext_loc with (f := fun t => q (line i t)); [|exact (H i Hi)].
  revert V; apply filter_imp. intros t [V W]; apply E; assumption.
Qed.

Lemma gradient_eq q l l' : length l' = d -> (forall i, (i < d)%nat -> nth i l' 0 = nth i l 0) -> is_gradient d line q l -> is_gradient d line q l'.
Proof. intros L E [_ H]; split; [exact L|]. intros i Hi. rewrite (E i Hi). exact (H i Hi). Qed.

Lemma gradient_scale c q l : is_gradient d line q l -> is_gradient d line (fun st => c * q st) (vscale c l).
Proof.
  intros [L H]; split; [rewrite vscale_length; exact L|]. intros i Hi. rewrite vscale_nth.
  apply (is_derive_scal (fun t => q (line i t))). exact (H i Hi).
Qed.

Lemma gradient_plus q q' l l' : is_gradient d line q l -> is_gradient d line q' l' -> is_gradient d line (fun st => q st + q' st) (vadd l l').
Proof.
  intros [L H] [L' H']; split; [rewrite vadd_length, L, L'; apply Nat.min_id|]. intros i Hi. rewrite vadd_nth by congruence.
  apply (is_derive_plus (V := R_NormedModule) (fun t => q (line i t))); auto.
Qed.

Lemma gradient_minus q q' l l' : is_gradient d line q l -> is_gradient d line q' l' -> is_gradient d line (fun st => q st - q' st) (vsub l l').
Proof.
  intros [L H] [L' H']; split; [rewrite vsub_length, L, L'; apply Nat.min_id|]. intros i Hi. rewrite vsub_nth by congruence.
  apply (is_derive_minus (V := R_NormedModule) (fun t => q (line i t))); auto.
Qed.

Lemma gradient_mult q q' l l' : is_gradient d line q l -> is_gradient d line q' l' ->
  is_gradient d line (fun st => q st * q' st) (vadd (vscale (q' s) l) (vscale (q s) l')).
Proof.
  intros [L H] [L' H']; split; [rewrite vadd_length, !vscale_length, L, L'; apply Nat.min_id|]. intros i Hi.
  rewrite vadd_nth by (rewrite !vscale_length; congruence). rewrite !vscale_nth. destruct (smooth i Hi) as [Z _]. rewrite <- Z.
  pose proof (is_derive_mult (fun t => q (line i t)) (fun t => q' (line i t)) 0 _ _ (H i Hi) (H' i Hi)) as D.
  specialize (D Rmult_comm). cbn in D. unfold plus, mult in D; cbn in D. rewrite (Rmult_comm (q' (line i 0))). exact D.
Qed.

Lemma gradient_div q q' l l' : q' s <> 0 -> is_gradient d line q l -> is_gradient d line q' l' ->
  is_gradient d line (fun st => q st / q' st) (vsub (vdiv l (q' s)) (vdiv (vscale (q s) l') (q' s ^ 2))).
Proof.
  intros N [L H] [L' H']; split; [rewrite vsub_length, !vdiv_length, vscale_length, L, L'; apply Nat.min_id|]. intros i Hi.
  rewrite vsub_nth by (rewrite !vdiv_length, vscale_length; congruence). rewrite !vdiv_nth, vscale_nth. destruct (smooth i Hi) as [Z _]. rewrite <- Z in N |- *.
  pose proof (is_derive_div (fun t => q (line i t)) (fun t => q' (line i t)) 0 _ _ (H i Hi) (H' i Hi) N) as D.
  cbv beta in D. replace (nth i l 0 / q' (line i 0) - q (line i 0) * nth i l' 0 / q' (line i 0) ^ 2) with
    ((nth i l 0 * q' (line i 0) - q (line i 0) * nth i l' 0) / q' (line i 0) ^ 2) by (field; exact N). exact D.
Qed.

(** Half the square of a vector. *)
Lemma gradient_square q m : (forall st, length (st_u st) = d -> length (q st) = d) -> is_jacobian d line q m ->
  is_gradient d line (fun st => inner (q st) (q st) / 2) (mvmul (mtrans m) (q s)).
Proof.
  intros Q (R & C & L & H). split; [rewrite mvmul_length; exact C|]. intros i Hi. destruct (smooth i Hi) as [Z V].
  rewrite mvmul_nth by (cbn; rewrite C; exact Hi). cbn [mtrans tabulate cols]. rewrite R.
  apply is_derive_ext_loc with (f := fun t => / 2 * rsum (map (fun k => nth k (q (line i t)) 0 * nth k (q (line i t)) 0) (seq 0 d))).
  { revert V; apply filter_imp. intros t [V W]. rewrite (inner_sum _ _ d) by (apply Q; exact W). unfold Rdiv; apply Rmult_comm. }
  assert (D : is_derive (fun t => rsum (map (fun k => nth k (q (line i t)) 0 * nth k (q (line i t)) 0) (seq 0 d))) 0
            (rsum (map (fun k => 2 * (entry m k i * nth k (q s) 0)) (seq 0 d)))).
  { apply is_derive_rsum with (f := fun k t => nth k (q (line i t)) 0 * nth k (q (line i t)) 0). intros k K. apply in_seq in K.
    pose proof (H i k Hi ltac:(lia)) as J.
    pose proof (is_derive_mult (fun t => nth k (q (line i t)) 0) (fun t => nth k (q (line i t)) 0) 0 _ _ J J) as D.
    specialize (D Rmult_comm). unfold plus, mult in D; cbn in D. rewrite Z in D.
    replace (2 * (entry m k i * nth k (q s) 0)) with (entry m k i * nth k (q s) 0 + nth k (q s) 0 * entry m k i) by ring. exact D. }
  apply (is_derive_scal _ _ (/ 2)) in D.
  replace (rsum (map (fun k => entry (mtrans m) i k * nth k (q s) 0) (seq 0 d)))
    with (/ 2 * rsum (map (fun k => 2 * (entry m k i * nth k (q s) 0)) (seq 0 d))); [exact D|].
  clear D. assert (E : forall l, (forall k, In k l -> (k < d)%nat) ->
    / 2 * rsum (map (fun k => 2 * (entry m k i * nth k (q s) 0)) l) = rsum (map (fun k => entry (mtrans m) i k * nth k (q s) 0) l)).
  { induction l as [|k l IH]; intros K; cbn [map rsum fold_right]; [ring|].
    fold (rsum (map (fun k => 2 * (entry m k i * nth k (q s) 0)) l)). rewrite Rmult_plus_distr_l. rewrite IH by (intros; apply K; now right).
    unfold rsum; f_equal. unfold mtrans; rewrite entry_tabulate by (rewrite ?C, ?R; try exact Hi; apply K; now left). field. }
  apply E. intros k K; apply in_seq in K; lia.
Qed.
End Rules.

(** ** The equations *)

(** Kept folded so that [subst] leaves it alone. *)
Definition dim_is (s : state) (d : nat) : Prop := length (st_u s) = d.

Section Gradients.
Variables (cfg : settings) (d : nat) (s : state) (line : nat -> R -> state) (U : flow) (dU : grads).
Hypothesis gamma : 1 < s_gamma cfg.
Hypothesis smooth : smooth_lines d s line.
Hypothesis V : valid s.
Hypothesis W : dim_is s d.
Hypothesis D : describes (s_gamma cfg) s U.
Hypothesis DD : describes_gradients (s_gamma cfg) d line dU.

Ltac gfields := destruct DD as (Drho & Du & Dm & Dp & DT & DrE & DE & DrEi & DEi & DrEk & DEk & DrH).
Ltac use_gradients :=
  repeat match goal with
  | G : given_gradient _ _ _ (Some ?x) |- _ => specialize (G x eq_refl)
  | G : given_jacobian _ _ _ (Some ?x) |- _ => specialize (G x eq_refl)
  | G : given_gradient _ _ _ None |- _ => clear G
  | G : given_jacobian _ _ _ None |- _ => clear G
  end.
Ltac start H := intros H; unfold density_gradient, pressure_gradient, temperature_gradient, velocity_gradient, momentum_gradient, energy_gradient,
    specific_energy_gradient, inner_energy_gradient, specific_inner_energy_gradient, kinetic_energy_gradient, specific_kinetic_energy_gradient,
    enthalpy_gradient, eos_density_gradient, eos_pressure_gradient, eos_temperature_gradient in H;
  apply equation_ok in H; fields D; gfields; pose proof V as [Vr Vp]; branches; try discriminate H; apply some_inj in H; use_given; use_gradients; subst; trivial.

Lemma q_T_pos st : valid st -> 0 < q_T (s_gamma cfg) st.
Proof. intros [A B]; unfold q_T. apply Rdiv_lt_0_compat; apply Rmult_lt_0_compat; lra. Qed.

Ltac lengths := repeat match goal with G : is_gradient _ _ _ _ |- _ => let L := fresh "L" in destruct G as [L _] end;
  rewrite ?vadd_length, ?vsub_length, ?vscale_length, ?vdiv_length, ?vadd_length, ?vsub_length, ?vscale_length, ?vdiv_length,
          ?vadd_length, ?vsub_length, ?vscale_length, ?vdiv_length, ?mvmul_length; cbn [mtrans tabulate rows]; congruence || lia.

Lemma density_gradient_ok l : density_gradient cfg U dU = Ok l -> is_gradient d line st_rho l.
Proof.
  pose proof (q_T_pos s V) as TP. start H.
  - apply (gradient_ext d s line smooth (fun st => s_gamma cfg / (s_gamma cfg - 1) * (st_p st / q_T (s_gamma cfg) st))).
    { intros st [A B] _; positive. }
    apply gradient_scale. apply (gradient_div d s line smooth); auto; lra.
  - apply (gradient_ext d s line smooth (fun st => s_gamma cfg * (q_rho_Ei (s_gamma cfg) st / q_T (s_gamma cfg) st))).
    { intros st [A B] _; positive. }
    apply gradient_scale. apply (gradient_div d s line smooth); auto; lra.
  - apply (gradient_ext d s line smooth (fun st => s_gamma cfg * (q_rho_Ei (s_gamma cfg) st / q_T (s_gamma cfg) st))).
    { intros st [A B] _; positive. }
    apply gradient_scale. apply (gradient_div d s line smooth); auto; lra.
Qed.

Lemma pressure_gradient_ok l : pressure_gradient cfg U dU = Ok l -> is_gradient d line st_p l.
Proof.
  start H.
  1: { apply (gradient_ext d s line smooth (fun st => (s_gamma cfg - 1) / s_gamma cfg * (st_rho st * q_T (s_gamma cfg) st))).
    { intros st [A B] _; positive. }
    apply gradient_scale. apply (gradient_mult d s line smooth); auto. }
  all: apply (gradient_ext d s line smooth (fun st => (s_gamma cfg - 1) * q_rho_Ei (s_gamma cfg) st));
    [intros st [A B] _; positive|apply gradient_scale; assumption].
Qed.

Lemma temperature_gradient_ok l : temperature_gradient cfg U dU = Ok l -> is_gradient d line (q_T (s_gamma cfg)) l.
Proof.
  start H.
  1: { apply (gradient_ext d s line smooth (fun st => s_gamma cfg / (s_gamma cfg - 1) * (st_p st / st_rho st))).
    { intros st [A B] _; positive. }
    apply gradient_scale. apply (gradient_div d s line smooth); auto; lra. }
  all: apply (gradient_ext d s line smooth (fun st => s_gamma cfg * q_Ei (s_gamma cfg) st));
    [intros st [A B] _; positive|apply gradient_scale; assumption].
Qed.

Lemma energy_gradient_ok l : energy_gradient dU = Ok l -> is_gradient d line (q_rho_E (s_gamma cfg)) l.
Proof.
  start H. apply (gradient_ext d s line smooth (fun st => q_rho_Ei (s_gamma cfg) st + q_rho_Ek st)).
  { intros st [A B] _; positive. }
  apply gradient_plus; assumption.
Qed.

Lemma specific_energy_gradient_ok l : specific_energy_gradient dU = Ok l -> is_gradient d line (q_E (s_gamma cfg)) l.
Proof.
  start H. apply (gradient_ext d s line smooth (fun st => q_Ei (s_gamma cfg) st + q_Ek st)).
  { intros st [A B] _; positive. }
  apply gradient_plus; assumption.
Qed.

Lemma inner_energy_gradient_ok l : inner_energy_gradient dU = Ok l -> is_gradient d line (q_rho_Ei (s_gamma cfg)) l.
Proof.
  start H. apply (gradient_ext d s line smooth (fun st => q_rho_E (s_gamma cfg) st - q_rho_Ek st)).
  { intros st [A B] _; positive. }
  apply gradient_minus; assumption.
Qed.

Lemma specific_inner_energy_gradient_ok l : specific_inner_energy_gradient dU = Ok l -> is_gradient d line (q_Ei (s_gamma cfg)) l.
Proof.
  start H. apply (gradient_ext d s line smooth (fun st => q_E (s_gamma cfg) st - q_Ek st)).
  { intros st [A B] _; positive. }
  apply gradient_minus; assumption.
Qed.

Lemma enthalpy_gradient_ok l : enthalpy_gradient dU = Ok l -> is_gradient d line (q_rho_H (s_gamma cfg)) l.
Proof.
  start H. apply (gradient_ext d s line smooth (fun st => q_rho_E (s_gamma cfg) st + st_p st)).
  { intros st [A B] _; positive. }
  apply gradient_plus; assumption.
Qed.

Lemma rho_u_length st : length (st_u st) = d -> length (q_rho_u st) = d.
Proof. unfold q_rho_u; rewrite map_length; trivial. Qed.

Lemma from_velocity (du : matrix) : is_jacobian d line st_u du -> is_gradient d line q_Ek (mvmul (mtrans du) (st_u s)).
Proof. intros J. apply (gradient_square d s line smooth st_u du); trivial. Qed.

Lemma from_velocity_density du drho : is_jacobian d line st_u du -> is_gradient d line st_rho drho ->
  is_gradient d line q_rho_Ek (vadd (vscale (st_rho s) (mvmul (mtrans du) (st_u s))) (vscale (inner (st_u s) (st_u s)) (vscale (1 / 2) drho))).
Proof.
  intros J G. pose proof (from_velocity du J) as K. pose proof (gradient_mult d s line smooth _ _ _ _ G K) as M.
  pose proof J as (R & C & _). destruct G as [L _].
  apply (gradient_eq d line q_rho_Ek _ _) with (3 := M).
  - lengths.
  - intros i Hi. rewrite !vadd_nth by lengths. rewrite !vscale_nth. unfold q_Ek. field.
Qed.

Lemma from_momentum_square dm : is_jacobian d line q_rho_u dm -> is_gradient d line (fun st => inner (q_rho_u st) (q_rho_u st) / 2) (mvmul (mtrans dm) (q_rho_u s)).
Proof. intros J. apply (gradient_square d s line smooth q_rho_u dm); trivial. exact rho_u_length. Qed.

Lemma from_momentum dm drho : is_jacobian d line q_rho_u dm -> is_gradient d line st_rho drho ->
  is_gradient d line q_rho_Ek (vsub (vdiv (mvmul (mtrans dm) (q_rho_u s)) (st_rho s)) (vdiv (vscale (inner (q_rho_u s) (q_rho_u s)) (vscale (1 / 2) drho)) (st_rho s ^ 2))).
Proof.
  intros J G. pose proof V as [Vr Vp]. pose proof (from_momentum_square dm J) as K.
  assert (N : st_rho s <> 0) by lra.
  pose proof (gradient_div d s line smooth _ _ _ _ N K G) as M. pose proof J as (R & C & _). pose proof G as [L _].
  apply (gradient_ext d s line smooth) with (q' := q_rho_Ek) in M.
  2:{ intros st [A B] _. unfold q_rho_u; rewrite inner_scale. positive. }
  apply (gradient_eq d line q_rho_Ek _ _) with (3 := M).
  - lengths.
  - intros i Hi. rewrite !vsub_nth by lengths. rewrite !vdiv_nth, !vscale_nth. field. lra.
Qed.

Lemma from_momentum_specific dm drho : is_jacobian d line q_rho_u dm -> is_gradient d line st_rho drho ->
  is_gradient d line q_Ek (vsub (vdiv (mvmul (mtrans dm) (q_rho_u s)) (st_rho s ^ 2)) (vdiv (vscale (inner (q_rho_u s) (q_rho_u s)) drho) (st_rho s ^ 3))).
Proof.
  intros J G. pose proof V as [Vr Vp]. pose proof (from_momentum_square dm J) as K.
  pose proof (gradient_mult d s line smooth _ _ _ _ G G) as GG.
  assert (N : st_rho s * st_rho s <> 0) by (apply Rgt_not_eq; apply Rmult_lt_0_compat; lra).
  pose proof (gradient_div d s line smooth _ _ _ _ N K GG) as M. pose proof J as (R & C & _). pose proof G as [L _].
  apply (gradient_ext d s line smooth) with (q' := q_Ek) in M.
  2:{ intros st [A B] _. unfold q_rho_u; rewrite inner_scale. positive. }
  apply (gradient_eq d line q_Ek _ _) with (3 := M).
  - lengths.
  - intros i Hi. rewrite !vsub_nth by lengths. rewrite !vdiv_nth, !vscale_nth, vadd_nth by lengths. rewrite !vscale_nth. field. lra.
Qed.

Lemma kinetic_energy_gradient_ok l : kinetic_energy_gradient U dU = Ok l -> is_gradient d line q_rho_Ek l.
Proof.
  start H.
  1: { apply (gradient_ext d s line smooth (fun st => q_rho_E (s_gamma cfg) st - q_rho_Ei (s_gamma cfg) st)); [intros st [A B] _; positive|]. apply gradient_minus; assumption. }
  all: first [apply from_velocity_density; assumption | apply from_momentum; assumption].
Qed.

Lemma specific_kinetic_energy_gradient_ok l : specific_kinetic_energy_gradient U dU = Ok l -> is_gradient d line q_Ek l.
Proof.
  start H.
  1: { apply (gradient_ext d s line smooth (fun st => q_E (s_gamma cfg) st - q_Ei (s_gamma cfg) st)); [intros st [A B] _; positive|]. apply gradient_minus; assumption. }
  all: first [apply from_velocity; assumption | apply from_momentum_specific; assumption].
Qed.

Lemma nth_rho_u st j : nth j (q_rho_u st) 0 = st_rho st * nth j (st_u st) 0.
Proof. apply (vscale_nth (st_rho st)). Qed.

Lemma velocity_gradient_ok m : velocity_gradient U dU = Ok m -> is_jacobian d line st_u m.
Proof.
  start H.
  match goal with HJ : is_jacobian _ _ q_rho_u ?x, HG : is_gradient _ _ st_rho ?y |- _ => destruct HJ as (R & C & L & J); destruct HG as [LG G]; rename x into DM; rename y into DR end.
  assert (LM : length (q_rho_u s) = d) by (apply rho_u_length; assumption).
  assert (LL : length (entries (mdiv DM (st_rho s))) = length (entries (mdiv (outer (q_rho_u s) DR) (st_rho s ^ 2)))).
  { unfold mdiv; cbn [entries]. rewrite !vdiv_length, outer_length, LM, LG. exact L. }
  split; [|split; [|split]].
  - cbn. exact R.
  - cbn. exact C.
  - unfold msub; cbn [entries]. rewrite vsub_length, <- LL, Nat.min_id. cbn [mdiv entries]. rewrite vdiv_length; exact L.
  - intros i j Hi Hj. rewrite entry_msub by (try exact LL; cbn; congruence).
    rewrite !entry_mdiv, entry_outer by (rewrite ?LM, ?LG; assumption). destruct (smooth i Hi) as [Z VL].
    apply is_derive_ext_loc with (f := fun t => nth j (q_rho_u (line i t)) 0 / st_rho (line i t)).
    { revert VL; apply filter_imp. intros t [[A B] _]. assert (E : nth j (q_rho_u (line i t)) 0 / st_rho (line i t) = nth j (st_u (line i t)) 0) by (rewrite nth_rho_u; field; lra). exact E. }
    assert (N : st_rho (line i 0) <> 0) by (rewrite Z; lra).
    pose proof (is_derive_div _ (fun t => st_rho (line i t)) 0 _ _ (J i j Hi Hj) (G i Hi) N) as K. cbv beta in K. rewrite !Z in K.
    replace (entry DM j i / st_rho s - nth j (q_rho_u s) 0 * nth i DR 0 / st_rho s ^ 2) with
      ((entry DM j i * st_rho s - nth j (q_rho_u s) 0 * nth i DR 0) / st_rho s ^ 2) by (field; lra). exact K.
Qed.

Lemma momentum_gradient_ok m : momentum_gradient U dU = Ok m -> is_jacobian d line q_rho_u m.
Proof.
  start H.
  match goal with HJ : is_jacobian _ _ st_u ?x, HG : is_gradient _ _ st_rho ?y |- _ => destruct HJ as (R & C & L & J); destruct HG as [LG G]; rename x into DM; rename y into DR end.
  assert (LL : length (entries (scale (st_rho s) DM)) = length (entries (outer (st_u s) DR))).
  { unfold scale; cbn [entries]. rewrite map_length, outer_length, LG. unfold dim_is in W; rewrite W. exact L. }
  split; [|split; [|split]].
  - cbn. exact R.
  - cbn. exact C.
  - unfold madd; cbn [entries]. rewrite vadd_length, <- LL, Nat.min_id. cbn [scale entries]. rewrite map_length; exact L.
  - intros i j Hi Hj. rewrite entry_madd by (try exact LL; cbn; congruence).
    rewrite entry_scale, entry_outer by (unfold dim_is in W; rewrite ?W, ?LG; assumption). destruct (smooth i Hi) as [Z VL].
    apply (is_derive_ext (fun t => st_rho (line i t) * nth j (st_u (line i t)) 0)); [intros t; symmetry; apply nth_rho_u|].
    pose proof (is_derive_mult _ _ 0 _ _ (G i Hi) (J i j Hi Hj) Rmult_comm) as K. unfold plus, mult in K; cbn in K. rewrite !Z in K.
    replace (st_rho s * entry DM j i + nth j (st_u s) 0 * nth i DR 0) with (nth i DR 0 * nth j (st_u s) 0 + st_rho s * entry DM j i) by ring. exact K.
Qed.
End Gradients.

(** Let the state be differentiable along the coordinate lines through a point, in any dimension, and let the given
    fields and gradients be fields and gradients of this state.  Then every gradient that is returned is the gradient
    of the corresponding quantity, whichever branch computes it. *)
Theorem c42_gradients : forall cfg d s line U dU, 1 < s_gamma cfg -> smooth_lines d s line -> valid s -> length (st_u s) = d ->
  describes (s_gamma cfg) s U -> describes_gradients (s_gamma cfg) d line dU ->
  (forall l, density_gradient cfg U dU = Ok l -> is_gradient d line st_rho l) /\
  (forall l, pressure_gradient cfg U dU = Ok l -> is_gradient d line st_p l) /\
  (forall l, temperature_gradient cfg U dU = Ok l -> is_gradient d line (q_T (s_gamma cfg)) l) /\
  (forall l, energy_gradient dU = Ok l -> is_gradient d line (q_rho_E (s_gamma cfg)) l) /\
  (forall l, specific_energy_gradient dU = Ok l -> is_gradient d line (q_E (s_gamma cfg)) l) /\
  (forall l, inner_energy_gradient dU = Ok l -> is_gradient d line (q_rho_Ei (s_gamma cfg)) l) /\
  (forall l, specific_inner_energy_gradient dU = Ok l -> is_gradient d line (q_Ei (s_gamma cfg)) l) /\
  (forall l, enthalpy_gradient dU = Ok l -> is_gradient d line (q_rho_H (s_gamma cfg)) l) /\
  (forall l, kinetic_energy_gradient U dU = Ok l -> is_gradient d line q_rho_Ek l) /\
  (forall l, specific_kinetic_energy_gradient U dU = Ok l -> is_gradient d line q_Ek l) /\
  (forall m, velocity_gradient U dU = Ok m -> is_jacobian d line st_u m) /\
  (forall m, momentum_gradient U dU = Ok m -> is_jacobian d line q_rho_u m).
Proof.
  intros cfg d s line U dU G S V W D DD.
  repeat match goal with |- _ /\ _ => split end; intros x.
  - eapply (density_gradient_ok cfg); eassumption.
  - eapply (pressure_gradient_ok cfg); eassumption.
  - eapply (temperature_gradient_ok cfg); eassumption.
  - eapply (energy_gradient_ok cfg); eassumption.
  - eapply (specific_energy_gradient_ok cfg); eassumption.
  - eapply (inner_energy_gradient_ok cfg); eassumption.
  - eapply (specific_inner_energy_gradient_ok cfg); eassumption.
  - eapply (enthalpy_gradient_ok cfg); eassumption.
  - eapply (kinetic_energy_gradient_ok cfg); eassumption.
  - eapply (specific_kinetic_energy_gradient_ok cfg); eassumption.
  - eapply (velocity_gradient_ok cfg); eassumption.
  - eapply (momentum_gradient_ok cfg); eassumption.
Qed.
Print Assumptions c42_gradients.

(** The combinations of fields and gradients from which a gradient is obtained. *)
Definition density_gradient_sources := [([], [GRho]); ([Pp; Tt], [GP; GT]); ([Tt; RhoEi], [GT; GRhoEi])].
Definition pressure_gradient_sources := [([], [GP]); ([Rho; Tt], [GRho; GT]); ([], [GRhoEi])].
Definition temperature_gradient_sources := [([], [GT]); ([Rho; Pp], [GP; GRho]); ([], [GEi])].
Definition energy_gradient_sources : list (list fname * list gname) := [([], [GRhoE]); ([], [GRhoEi; GRhoEk])].
Definition specific_energy_gradient_sources : list (list fname * list gname) := [([], [GE]); ([], [GEi; GEk])].
Definition inner_energy_gradient_sources : list (list fname * list gname) := [([], [GRhoEi]); ([], [GRhoE; GRhoEk])].
Definition specific_inner_energy_gradient_sources : list (list fname * list gname) := [([], [GEi]); ([], [GE; GEk])].
Definition enthalpy_gradient_sources : list (list fname * list gname) := [([], [GRhoH]); ([], [GRhoE; GP])].
Definition kinetic_energy_gradient_sources := [([], [GRhoEk]); ([], [GRhoE; GRhoEi]); ([Rho; Uu], [GRho; GU]); ([Rho; RhoU], [GRho; GRhoU])].
Definition specific_kinetic_energy_gradient_sources := [([], [GEk]); ([], [GE; GEi]); ([Uu], [GU]); ([Rho; RhoU], [GRho; GRhoU])].
Definition velocity_gradient_sources := [([], [GU]); ([Rho; RhoU], [GRho; GRhoU])].
Definition momentum_gradient_sources := [([], [GRhoU]); ([Rho; Uu], [GRho; GU])].

Lemma determined_gradient_bool sources U dU :
  determined_gradient sources U dU <-> existsb (fun lk => forallb (has U) (fst lk) && forallb (has_gradient dU) (snd lk)) sources = true.
Proof.
  unfold determined_gradient. rewrite existsb_exists. split.
  - intros (l & k & I & H & K). exists (l, k). split; [exact I|]. cbn. apply andb_true_intro; split; apply forallb_forall; assumption.
  - intros ((l & k) & I & H). cbn in H. apply andb_prop in H as [H K]. rewrite forallb_forall in H, K. exists l, k; auto.
Qed.

Lemma answers_gradient_bool {A} sources U dU (r : result A) :
  (if existsb (fun lk => forallb (has U) (fst lk) && forallb (has_gradient dU) (snd lk)) sources then exists v, r = Ok v else r = Err ValueError) ->
  answers_gradient sources U dU r.
Proof.
  intros H; unfold answers_gradient. rewrite determined_gradient_bool.
  destruct (existsb _ sources); [left|right]; (split; [|exact H]); [reflexivity|discriminate].
Qed.

(** Every gradient equation returns a value exactly if one of its combinations is given and raises ValueError
    otherwise. *)
Theorem c42_determined : forall cfg U dU,
  answers_gradient density_gradient_sources U dU (density_gradient cfg U dU) /\
  answers_gradient pressure_gradient_sources U dU (pressure_gradient cfg U dU) /\
  answers_gradient temperature_gradient_sources U dU (temperature_gradient cfg U dU) /\
  answers_gradient energy_gradient_sources U dU (energy_gradient dU) /\
  answers_gradient specific_energy_gradient_sources U dU (specific_energy_gradient dU) /\
  answers_gradient inner_energy_gradient_sources U dU (inner_energy_gradient dU) /\
  answers_gradient specific_inner_energy_gradient_sources U dU (specific_inner_energy_gradient dU) /\
  answers_gradient enthalpy_gradient_sources U dU (enthalpy_gradient dU) /\
  answers_gradient kinetic_energy_gradient_sources U dU (kinetic_energy_gradient U dU) /\
  answers_gradient specific_kinetic_energy_gradient_sources U dU (specific_kinetic_energy_gradient U dU) /\
  answers_gradient velocity_gradient_sources U dU (velocity_gradient U dU) /\
  answers_gradient momentum_gradient_sources U dU (momentum_gradient U dU).
Proof.
  intros cfg [rho u m p T rE E ri e rk k rh h c] [drho du dm dp dT drE dE dri de drk dk drh eps].
  repeat match goal with |- _ /\ _ => split end; apply answers_gradient_bool.
  - destruct drho, p, T, dp, dT, ri, dri; cbn; try reflexivity; eexists; reflexivity.
  - destruct dp, rho, T, drho, dT, dri; cbn; try reflexivity; eexists; reflexivity.
  - destruct dT, rho, p, dp, drho, de; cbn; try reflexivity; eexists; reflexivity.
  - destruct drE, dri, drk; cbn; try reflexivity; eexists; reflexivity.
  - destruct dE, de, dk; cbn; try reflexivity; eexists; reflexivity.
  - destruct drE, dri, drk; cbn; try reflexivity; eexists; reflexivity.
  - destruct dE, de, dk; cbn; try reflexivity; eexists; reflexivity.
  - destruct drh, drE, dp; cbn; try reflexivity; eexists; reflexivity.
  - destruct drk, drE, dri, rho, u, drho, du, m, dm; cbn; try reflexivity; eexists; reflexivity.
  - destruct dk, dE, de, rho, u, drho, du, m, dm; cbn; try reflexivity; eexists; reflexivity.
  - destruct du, rho, m, drho, dm; cbn; try reflexivity; eexists; reflexivity.
  - destruct dm, rho, u, drho, du; cbn; try reflexivity; eexists; reflexivity.
Qed.
Print Assumptions c42_determined.

(** A flow with varying density, velocity and pressure: rho = 1 + x, u = (x, 2 + y), p = 3 + y at the origin. *)
Definition example_line (i : nat) (t : R) : state :=
  match i with 0%nat => mk_state (1 + t) [t; 2] 3 | _ => mk_state 1 [0; 2 + t] (3 + t) end.
Definition example_fields : flow := mk_flow (Some 1) (Some [0; 2]) None (Some 3) None None None None None None None None None None.
Definition example_grads : grads :=
  mk_grads (Some [1; 0]) (Some (mk_matrix 2 2 [1; 0; 0; 1])) None (Some [0; 1]) None None None None None None None None None.

Lemma near_zero (P : R -> Prop) : (forall t, Rabs t < 1 / 2 -> P t) -> locally 0 P.
Proof.
  intros H. assert (Q : 0 < 1 / 2) by lra. exists (mkposreal _ Q). intros t B. apply H. unfold ball in B; cbn in B. unfold AbsRing_ball, abs, minus, plus, opp in B; cbn in B.
  replace t with (t + - 0) by ring. exact B.
Qed.

Example c42_example :
  smooth_lines 2 (mk_state 1 [0; 2] 3) example_line /\ valid (mk_state 1 [0; 2] 3) /\
  describes (s_gamma air) (mk_state 1 [0; 2] 3) example_fields /\ describes_gradients (s_gamma air) 2 example_line example_grads /\
  (exists l, temperature_gradient air example_fields example_grads = Ok l) /\
  (exists l, kinetic_energy_gradient example_fields example_grads = Ok l) /\
  (exists m, momentum_gradient example_fields example_grads = Ok m).
Proof.
  split; [|split; [|split; [|split]]].
  - intros i Hi. destruct i as [|[|i]]; [| |lia]; (split; [cbn; f_equal; try lra; repeat (f_equal; try lra)|]); apply near_zero; intros t B;
      apply Rabs_def2 in B; repeat split; cbn; lra.
  - split; cbn; lra.
  - unfold describes; repeat match goal with |- _ /\ _ => split end; intros x H; try discriminate H; cbn in H; injection H as <-; reflexivity.
  - unfold describes_gradients; repeat match goal with |- _ /\ _ => split end; intros x H; try discriminate H; cbn in H; injection H as <-.
    + split; [reflexivity|]. intros i Hi; destruct i as [|[|i]]; [| |lia]; cbn; auto_derive; trivial; lra.
    + split; [reflexivity|split; [reflexivity|split; [reflexivity|]]].
      intros i j Hi Hj; destruct i as [|[|i]]; [| |lia]; (destruct j as [|[|j]]; [| |lia]); cbn; auto_derive; trivial; lra.
    + split; [reflexivity|]. intros i Hi; destruct i as [|[|i]]; [| |lia]; cbn; auto_derive; trivial; lra.
  - repeat split; eexists; reflexivity.
Qed.
