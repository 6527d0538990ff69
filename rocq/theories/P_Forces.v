(** C67: local Mach and Reynolds number, stress tensor, pressure, drag and lift coefficient. *)
From Coq Require Import Reals List Arith Lia Lra Bool.
From Verif Require Import Base M_Bla M_Flow S_Flow S_Chars S_Stress S_Scaling S_Forces M_Formulation S_Formulation L_Flow P_Eos P_Jacobian L_Formulation P_Scaling P_Cbc P_Stress.
Import ListNotations.
Open Scope R_scope.

Lemma inner_squares u : inner u u = total (length u) (fun i => nth i u 0 ^ 2).
Proof. rewrite inner_total by reflexivity. apply total_ext. intros k _. ring. Qed.

Lemma dynamic_ok s : q_rho_Ek s = dynamic_pressure s.
Proof. unfold q_rho_Ek, q_Ek, dynamic_pressure. rewrite inner_squares. field. Qed.

Lemma answer_value {A} sources U (r : result A) : answers sources U r -> determined sources U -> exists v, r = Ok v.
Proof. intros [[_ H]|[N _]] D; [exact H|contradiction]. Qed.

Lemma pressure_value cfg s U : 1 < s_gamma cfg -> valid s -> describes (s_gamma cfg) s U -> determined pressure_sources U -> pressure cfg U = Ok (st_p s).
Proof.
  intros G V D H. pose proof (c41_determined cfg false U) as (_ & A & _). destruct (answer_value _ _ _ A H) as [v E].
  rewrite E. f_equal. exact (pressure_ok cfg s U G V D v E).
Qed.

Lemma kinetic_value cfg s U : 1 < s_gamma cfg -> valid s -> describes (s_gamma cfg) s U -> determined kinetic_energy_sources U -> kinetic_energy U = Ok (dynamic_pressure s).
Proof.
  intros G V D H. pose proof (c41_determined cfg false U) as (_ & _ & _ & _ & _ & A & _). destruct (answer_value _ _ _ A H) as [v E].
  rewrite E. f_equal. rewrite <- dynamic_ok. exact (kinetic_energy_ok cfg s U G V D v E).
Qed.

(** ** C67 *)

(** The stress is the pressure, acting equally in all directions, and the viscous stress of a viscous flow. *)
Theorem c67_stress : forall cfg s U dU, 1 < s_gamma cfg -> valid s -> describes (s_gamma cfg) s U -> determined pressure_sources U ->
  let d := s_dim cfg in
  (s_law cfg = Inviscid -> exists sigma, stress_tensor cfg U dU = Ok sigma /\ shape d sigma /\
     forall i j, (i < d)%nat -> (j < d)%nat -> entry sigma i j = - st_p s * delta i j) /\
  (s_law cfg <> Inviscid -> forall tau, deviatoric_stress_tensor cfg U dU = Ok tau -> shape d tau ->
     exists sigma, stress_tensor cfg U dU = Ok sigma /\ shape d sigma /\
       (forall i j, (i < d)%nat -> (j < d)%nat -> entry sigma i j = - st_p s * delta i j + entry tau i j) /\
       (symmetric d tau -> symmetric d sigma)) /\
  (s_law cfg <> Inviscid -> forall e, deviatoric_stress_tensor cfg U dU = Err e -> stress_tensor cfg U dU = Err e).
Proof.
  intros cfg s U dU G V D H d. pose proof (pressure_value cfg s U G V D H) as E. unfold stress_tensor. rewrite E. cbn [bind].
  assert (Sh : shape d (scale (- st_p s) (idm d))) by (apply scale_shape, idm_shape).
  assert (En : forall i j, (i < d)%nat -> (j < d)%nat -> entry (scale (- st_p s) (idm d)) i j = - st_p s * delta i j)
    by (intros i j I J; rewrite scale_entry, idm_entry by assumption; reflexivity).
  split; [|split].
  - intros ->. eexists. split; [reflexivity|]. split; [exact Sh|exact En].
  - intros N tau Et St. rewrite Et. exists (madd (scale (- st_p s) (idm d)) tau). split; [destruct (s_law cfg); [contradiction|reflexivity|reflexivity]|].
    split; [apply madd_shape; assumption|].
    assert (F : forall i j, (i < d)%nat -> (j < d)%nat -> entry (madd (scale (- st_p s) (idm d)) tau) i j = - st_p s * delta i j + entry tau i j)
      by (intros i j I J; rewrite (madd_entry d) by assumption; rewrite En by assumption; reflexivity).
    split; [exact F|]. intros Sy i j I J. rewrite !F by assumption. rewrite (Sy i j I J). f_equal. f_equal. unfold delta. rewrite Nat.eqb_sym. reflexivity.
  - intros N e Et. rewrite Et. destruct (s_law cfg); [contradiction|reflexivity|reflexivity].
Qed.
Print Assumptions c67_stress.

(** The pressure coefficient: pressure difference over dynamic pressure of the reference; it vanishes exactly at the
    reference pressure and does not depend on the units (the scaling) in which flow and reference are given. *)
Theorem c67_pressure_coefficient : forall cfg s r U Uref, 1 < s_gamma cfg -> valid s -> valid r ->
  describes (s_gamma cfg) s U -> describes (s_gamma cfg) r Uref ->
  determined pressure_sources U -> determined pressure_sources Uref -> determined kinetic_energy_sources Uref ->
  pressure_coefficient cfg U Uref = Ok ((st_p s - st_p r) / dynamic_pressure r) /\
  (dynamic_pressure r <> 0 -> (pressure_coefficient cfg U Uref = Ok 0 <-> st_p s = st_p r)) /\
  (forall cfg' a b W Wref, s_gamma cfg' = s_gamma cfg -> 0 < a -> 0 < b -> dynamic_pressure r <> 0 ->
     describes (s_gamma cfg) (rescale a b s) W -> describes (s_gamma cfg) (rescale a b r) Wref ->
     determined pressure_sources W -> determined pressure_sources Wref -> determined kinetic_energy_sources Wref ->
     pressure_coefficient cfg' W Wref = pressure_coefficient cfg U Uref).
Proof.
  intros cfg s r U Uref G V Vr D Dr H1 H2 H3.
  assert (F : forall cfg' s r U Uref, s_gamma cfg' = s_gamma cfg -> valid s -> valid r -> describes (s_gamma cfg) s U -> describes (s_gamma cfg) r Uref ->
    determined pressure_sources U -> determined pressure_sources Uref -> determined kinetic_energy_sources Uref -> pressure_coefficient cfg' U Uref = Ok ((st_p s - st_p r) / dynamic_pressure r)).
  { clear - G. intros cfg' s r U Uref Eg V Vr D Dr H1 H2 H3. rewrite <- Eg in G, D, Dr. unfold pressure_coefficient.
    rewrite (pressure_value cfg' s U G V D H1), (pressure_value cfg' r Uref G Vr Dr H2), (kinetic_value cfg' r Uref G Vr Dr H3). reflexivity. }
  rewrite (F cfg s r U Uref eq_refl V Vr D Dr H1 H2 H3). split; [reflexivity|]. split.
  - intros N. split; intros H.
    + apply ok_inj in H. apply (Rmult_eq_compat_r (dynamic_pressure r)) in H. unfold Rdiv in H. rewrite Rmult_assoc, Rinv_l in H by exact N. lra.
    + f_equal. rewrite H. unfold Rdiv. ring.
  - intros cfg' a b W Wref Eg A B N DW DWr K1 K2 K3.
    assert (Vs : valid (rescale a b s)) by (destruct V; split; cbn; repeat apply Rmult_lt_0_compat; trivial; lra).
    assert (Vs' : valid (rescale a b r)) by (destruct Vr; split; cbn; repeat apply Rmult_lt_0_compat; trivial; lra).
    rewrite (F cfg' (rescale a b s) (rescale a b r) W Wref Eg Vs Vs' DW DWr K1 K2 K3). f_equal.
    assert (Q : dynamic_pressure (rescale a b r) = a * b ^ 2 * dynamic_pressure r).
    { unfold dynamic_pressure, rescale. cbn [st_rho st_u]. rewrite map_length.
      rewrite (total_ext (fun i => nth i (map (Rmult b) (st_u r)) 0 ^ 2) (fun i => b ^ 2 * nth i (st_u r) 0 ^ 2)) by (intros k _; change (map (Rmult b) (st_u r)) with (vscale b (st_u r)); rewrite vscale_nth; ring).
      rewrite total_scale. field. }
    rewrite Q. unfold rescale. cbn [st_p]. assert (0 < b ^ 2) by (apply pow_lt; exact B). field. repeat split; trivial; lra.
Qed.
Print Assumptions c67_pressure_coefficient.

Lemma component_ok d v a : length v = d -> length a = d -> inner v (unit_vector a) = component d (fun i => nth i v 0) a.
Proof.
  intros Lv La. unfold component. rewrite inner_total by (unfold unit_vector; rewrite map_length; congruence). rewrite Lv.
  rewrite <- La. rewrite <- inner_squares. unfold Rdiv. rewrite Rmult_comm. rewrite <- total_scale. apply total_ext. intros k K.
  unfold unit_vector. change (map (fun x => x / sqrt (inner a a)) a) with (vdiv a (sqrt (inner a a))). rewrite vdiv_nth. unfold Rdiv. ring.
Qed.

Lemma traction_ok d p sigma tau n : shape d sigma -> length n = d ->
  (forall i j, (i < d)%nat -> (j < d)%nat -> entry sigma i j = - p * delta i j + tau i j) ->
  length (mvmul sigma n) = d /\ forall i, (i < d)%nat -> nth i (mvmul sigma n) 0 = traction d p tau n i.
Proof.
  intros (Sr & Sc & _) L E. split; [rewrite mvmul_length; exact Sr|]. intros i I. rewrite mvmul_total by (rewrite Sr; exact I). rewrite Sc.
  unfold traction. rewrite (total_ext (fun k => entry sigma i k * nth k n 0) (fun k => - p * (delta i k * nth k n 0) + tau i k * nth k n 0)) by (intros k K; rewrite E by assumption; ring).
  rewrite total_plus, total_scale, (total_delta (fun k => nth k n 0)) by exact I. reflexivity.
Qed.

Lemma component_ext d v w a : (forall i, (i < d)%nat -> v i = w i) -> component d v a = component d w a.
Proof. intros H. unfold component. f_equal. apply total_ext. intros k K. rewrite H by exact K. reflexivity. Qed.

(** Drag and lift coefficient: the component of the force per area in the given direction over the dynamic pressure of the
    reference. *)
Theorem c67_force : forall cfg s r U dU Uref direction n, 1 < s_gamma cfg -> valid s -> valid r ->
  describes (s_gamma cfg) s U -> describes (s_gamma cfg) r Uref -> determined pressure_sources U -> determined kinetic_energy_sources Uref ->
  let d := s_dim cfg in
  length n = d -> length direction = d ->
  (s_law cfg = Inviscid ->
     force_coefficient cfg U dU Uref direction n = Ok (component d (traction d (st_p s) no_stress n) direction / dynamic_pressure r)) /\
  (s_law cfg <> Inviscid -> forall tau, deviatoric_stress_tensor cfg U dU = Ok tau -> shape d tau ->
     force_coefficient cfg U dU Uref direction n = Ok (component d (traction d (st_p s) (entry tau) n) direction / dynamic_pressure r)).
Proof.
  intros cfg s r U dU Uref direction n G V Vr D Dr H1 H2 d Ln Ld.
  destruct (c67_stress cfg s U dU G V D H1) as (T1 & T2 & _). unfold force_coefficient. rewrite (kinetic_value cfg r Uref G Vr Dr H2). split.
  - intros La. destruct (T1 La) as (sigma & E & Sh & En). rewrite E. cbn [bind]. f_equal. f_equal.
    destruct (traction_ok d (st_p s) sigma no_stress n Sh Ln) as [Lm Tr]; [intros i j I J; rewrite (En i j I J); unfold no_stress; ring|].
    rewrite (component_ok d) by assumption. apply component_ext. exact Tr.
  - intros La tau Et St. destruct (T2 La tau Et St) as (sigma & E & Sh & En & _). rewrite E. cbn [bind]. f_equal. f_equal.
    destruct (traction_ok d (st_p s) sigma (entry tau) n Sh Ln) as [Lm Tr]; [exact En|].
    rewrite (component_ok d) by assumption. apply component_ext. exact Tr.
Qed.
Print Assumptions c67_force.

Lemma unit_vector_multiple k a : k <> 0 -> inner a a <> 0 -> unit_vector (map (Rmult k) a) = map (Rmult (if Rlt_dec 0 k then 1 else -1)) (unit_vector a).
Proof.
  intros K A. unfold unit_vector. rewrite !map_map. change (map (Rmult k) a) with (vscale k a). rewrite inner_vscale, inner_comm, inner_vscale.
  assert (P : 0 < inner a a). { rewrite inner_squares in *. destruct (Rle_lt_or_eq_dec 0 (total (length a) (fun i => nth i a 0 ^ 2))) as [?|E]; trivial; [|exfalso; apply A; symmetry; exact E].
    clear A. induction (length a) as [|m IH]; cbn [total]; [apply Rle_refl|]. apply Rplus_le_le_0_compat; [exact IH|apply pow2_ge_0]. }
  assert (Q : sqrt (k * (k * inner a a)) = Rabs k * sqrt (inner a a)).
  { rewrite <- Rmult_assoc. change (k * k) with (Rsqr k). rewrite sqrt_mult by (try exact (Rlt_le _ _ P); apply Rle_0_sqr). rewrite sqrt_Rsqr_abs. reflexivity. }
  apply map_ext. intros x. rewrite Q. pose proof (sqrt_lt_R0 _ P). unfold Rabs. destruct (Rlt_dec 0 k), (Rcase_abs k); try lra; field; repeat split; lra.
Qed.

(** The length of the direction does not matter, the opposite direction and the opposite normal change the sign, and in
    two dimensions orthogonal directions decompose the whole force. *)
Theorem c67_directions : forall cfg U dU Uref direction n c,
  force_coefficient cfg U dU Uref direction n = Ok c -> inner direction direction <> 0 ->
  (forall k, k <> 0 -> force_coefficient cfg U dU Uref (map (Rmult k) direction) n = Ok ((if Rlt_dec 0 k then 1 else -1) * c)) /\
  force_coefficient cfg U dU Uref direction (map Ropp n) = Ok (- c) /\
  (forall direction' l sigma k, s_dim cfg = 2%nat -> length n = 2%nat -> length direction = 2%nat -> length direction' = 2%nat ->
     inner direction direction' = 0 -> inner direction' direction' <> 0 ->
     force_coefficient cfg U dU Uref direction' n = Ok l -> stress_tensor cfg U dU = Ok sigma -> shape 2 sigma -> kinetic_energy Uref = Ok k -> k <> 0 ->
     (c ^ 2 + l ^ 2) * k ^ 2 = inner (mvmul sigma n) (mvmul sigma n)).
Proof.
  intros cfg U dU Uref direction n c H N. unfold force_coefficient in H.
  apply bind_ok in H as (st & Es & H). apply bind_ok in H as (q & Eq & H). apply ok_inj in H.
  split; [|split].
  - intros k K. unfold force_coefficient. rewrite Es, Eq. cbn [bind]. rewrite unit_vector_multiple by assumption.
    f_equal. rewrite <- H. change (map (Rmult (if Rlt_dec 0 k then 1 else -1)) (unit_vector direction)) with (vscale (if Rlt_dec 0 k then 1 else -1) (unit_vector direction)).
    rewrite (inner_comm (mvmul st n)), inner_vscale, (inner_comm (unit_vector direction)). unfold Rdiv. ring.
  - unfold force_coefficient. rewrite Es, Eq. cbn [bind]. f_equal. rewrite <- H.
    assert (M : mvmul st (map Ropp n) = vscale (-1) (mvmul st n)).
    { unfold mvmul, vscale. rewrite map_map. apply map_ext. intros i. rewrite !rsum_total. rewrite <- total_scale. apply total_ext. intros k _.
      replace (nth k (map Ropp n) 0) with (- nth k n 0) by (rewrite <- (map_nth Ropp n 0 k); rewrite Ropp_0; reflexivity). ring. }
    rewrite M, inner_vscale. unfold Rdiv. ring.
  - intros direction' l sigma k D2 Ln Ld Ld' O N' Hl Es' Sh Ek K0. rewrite Es in Es'. apply ok_inj in Es'. subst sigma. rewrite Eq in Ek. apply ok_inj in Ek. subst q.
    unfold force_coefficient in Hl. rewrite Es, Eq in Hl. cbn [bind] in Hl. apply ok_inj in Hl.
    assert (Lf : length (mvmul st n) = 2%nat) by (rewrite mvmul_length; apply Sh).
    destruct (mvmul st n) as [|f0 [|f1 [|? ?]]]; try discriminate Lf. destruct direction as [|a0 [|a1 [|? ?]]]; try discriminate Ld. destruct direction' as [|b0 [|b1 [|? ?]]]; try discriminate Ld'.
    subst c l. unfold unit_vector. cbn [inner map] in *. rewrite !Rplus_0_r in *.
    set (A := sqrt (a0 * a0 + a1 * a1)). set (B := sqrt (b0 * b0 + b1 * b1)).
    assert (PA : 0 < a0 * a0 + a1 * a1) by (pose proof (Rle_0_sqr a0); pose proof (Rle_0_sqr a1); unfold Rsqr in *; lra).
    assert (PB : 0 < b0 * b0 + b1 * b1) by (pose proof (Rle_0_sqr b0); pose proof (Rle_0_sqr b1); unfold Rsqr in *; lra).
    assert (A2 : A * A = a0 * a0 + a1 * a1) by (apply sqrt_sqrt; lra). assert (B2 : B * B = b0 * b0 + b1 * b1) by (apply sqrt_sqrt; lra).
    assert (A0 : 0 < A) by (apply sqrt_lt_R0; exact PA). assert (B0 : 0 < B) by (apply sqrt_lt_R0; exact PB). clearbody A B.
    transitivity (((f0 * a0 + f1 * a1) ^ 2 * (B * B) + (f0 * b0 + f1 * b1) ^ 2 * (A * A)) / (A * A * (B * B))); [field; repeat split; lra|].
    apply Rmult_eq_reg_r with (A * A * (B * B)); [|apply Rmult_integral_contrapositive_currified; nra].
    transitivity ((f0 * a0 + f1 * a1) ^ 2 * (B * B) + (f0 * b0 + f1 * b1) ^ 2 * (A * A)); [field; split; lra|].
    rewrite A2, B2. 
    assert (X : (f0 * a0 + f1 * a1) ^ 2 * (b0 * b0 + b1 * b1) + (f0 * b0 + f1 * b1) ^ 2 * (a0 * a0 + a1 * a1) -
       (f0 * f0 + f1 * f1) * ((a0 * a0 + a1 * a1) * (b0 * b0 + b1 * b1)) =
       (a0 * b0 + a1 * b1) * ((f0 * f0 - f1 * f1) * (a0 * b0 - a1 * b1) + 2 * f0 * f1 * (a0 * b1 + a1 * b0))) by ring.
    rewrite O, Rmult_0_l in X. lra.
Qed.
Print Assumptions c67_directions.

(** ** Whole surfaces *)

Lemma over_plus q f h : over q (fun n => f n + h n) = over q f + over q h.
Proof. induction q as [|[w n] q IH]; cbn; [ring|rewrite IH; ring]. Qed.
Lemma over_scale q a f : over q (fun n => a * f n) = a * over q f.
Proof. induction q as [|[w n] q IH]; cbn; [ring|rewrite IH; ring]. Qed.
Lemma over_ext q f h : (forall w n, In (w, n) q -> f n = h n) -> over q f = over q h.
Proof. induction q as [|[w n] q IH]; intros H; cbn; [reflexivity|]. rewrite (H w n) by (left; reflexivity). rewrite IH; [reflexivity|]. intros w' n' I. apply (H w' n'). right. exact I. Qed.
Lemma over_total q m (f : nat -> list R -> R) : over q (fun n => total m (fun i => f i n)) = total m (fun i => over q (f i)).
Proof. induction m as [|m IH]; cbn [total]; [induction q as [|[w n] q IH]; cbn; [reflexivity|rewrite IH; ring]|]. rewrite over_plus, IH. reflexivity. Qed.

(** [p], [tau]: pressure and stress at the points, as functions of the point's normal. *)
Lemma over_level : forall d q direction (p : list R -> R) (tau : list R -> nat -> nat -> R) level, closed d q ->
  over q (fun n => component d (traction d (p n + level) (tau n) n) direction) = over q (fun n => component d (traction d (p n) (tau n) n) direction).
Proof.
  intros d q direction p tau level C. set (a := sqrt (total d (fun i => nth i direction 0 ^ 2))).
  assert (E : forall n, component d (traction d (p n + level) (tau n) n) direction = component d (traction d (p n) (tau n) n) direction + - (level / a) * total d (fun i => nth i direction 0 * nth i n 0)).
  { intros n. unfold component. fold a. rewrite (total_ext (fun i => traction d (p n + level) (tau n) n i * nth i direction 0)
      (fun i => traction d (p n) (tau n) n i * nth i direction 0 + - level * (nth i direction 0 * nth i n 0))) by (intros k K; unfold traction; ring).
    rewrite total_plus, total_scale. unfold Rdiv. ring. }
  rewrite (over_ext q _ _ (fun w n _ => E n)), over_plus, over_scale.
  rewrite (over_total q d (fun i n => nth i direction 0 * nth i n 0)).
  rewrite (total_ext (fun i => over q (fun n => nth i direction 0 * nth i n 0)) (fun _ => 0)) by (intros k K; rewrite over_scale, (C k K); ring).
  rewrite total_zero. ring.
Qed.

(** The total over a closed surface does not depend on the level of the pressure: only differences of pressure and the
    viscous stress give a force.  Flow, gradients and states at the points are functions of the point's normal. *)
Theorem c67_closed : forall cfg r Uref direction (q : surface) level (U U' : list R -> flow) (dU dU' : list R -> grads) (s s' : list R -> state),
  1 < s_gamma cfg -> valid r -> describes (s_gamma cfg) r Uref -> determined kinetic_energy_sources Uref ->
  length direction = s_dim cfg -> closed (s_dim cfg) q ->
  (forall w n, In (w, n) q -> length n = s_dim cfg /\ valid (s n) /\ valid (s' n) /\ describes (s_gamma cfg) (s n) (U n) /\ describes (s_gamma cfg) (s' n) (U' n) /\
     determined pressure_sources (U n) /\ determined pressure_sources (U' n) /\ st_p (s' n) = st_p (s n) + level /\
     (s_law cfg <> Inviscid -> exists tau, shape (s_dim cfg) tau /\ deviatoric_stress_tensor cfg (U n) (dU n) = Ok tau /\ deviatoric_stress_tensor cfg (U' n) (dU' n) = Ok tau)) ->
  forall c c', (forall w n, In (w, n) q -> force_coefficient cfg (U n) (dU n) Uref direction n = Ok (c n) /\ force_coefficient cfg (U' n) (dU' n) Uref direction n = Ok (c' n)) ->
  over q c' = over q c.
Proof.
  intros cfg r Uref direction q level U U' dU dU' s s' G Vr Dr Hr Ld C P c c' E.
  set (tau := fun n => match s_law cfg with Inviscid => no_stress | _ => match deviatoric_stress_tensor cfg (U n) (dU n) with Ok t => entry t | Err _ => no_stress end end).
  assert (F : forall w n, In (w, n) q ->
    c n = / dynamic_pressure r * component (s_dim cfg) (traction (s_dim cfg) (st_p (s n)) (tau n) n) direction /\
    c' n = / dynamic_pressure r * component (s_dim cfg) (traction (s_dim cfg) (st_p (s n) + level) (tau n) n) direction).
  { intros w n I. destruct (P w n I) as (Ln & V & V' & D & D' & H & H' & Ep & T). destruct (E w n I) as [E1 E2].
    destruct (c67_force cfg (s n) r (U n) (dU n) Uref direction n G V Vr D Dr H Hr Ln Ld) as [A1 A2].
    destruct (c67_force cfg (s' n) r (U' n) (dU' n) Uref direction n G V' Vr D' Dr H' Hr Ln Ld) as [B1 B2].
    rewrite Ep in B1, B2. unfold tau.
    destruct (s_law cfg) eqn:La.
    - rewrite (A1 eq_refl) in E1. rewrite (B1 eq_refl) in E2. apply ok_inj in E1, E2. subst. rewrite <- E1, <- E2. unfold Rdiv. split; ring.
    - destruct (T ltac:(discriminate)) as (t & St & T1 & T2). rewrite (A2 ltac:(discriminate) t T1 St) in E1. rewrite (B2 ltac:(discriminate) t T2 St) in E2.
      apply ok_inj in E1, E2. rewrite <- E1, <- E2, T1. unfold Rdiv. split; ring.
    - destruct (T ltac:(discriminate)) as (t & St & T1 & T2). rewrite (A2 ltac:(discriminate) t T1 St) in E1. rewrite (B2 ltac:(discriminate) t T2 St) in E2.
      apply ok_inj in E1, E2. rewrite <- E1, <- E2, T1. unfold Rdiv. split; ring. }
  rewrite (over_ext q c' _ (fun w n I => proj2 (F w n I))), (over_ext q c _ (fun w n I => proj1 (F w n I))), !over_scale.
  f_equal. apply (over_level (s_dim cfg) q direction (fun n => st_p (s n)) tau level C).
Qed.
Print Assumptions c67_closed.

(** In particular the drag of a closed surface in inviscid flow of uniform pressure is zero. *)
Theorem c67_uniform : forall cfg s r U dU Uref direction q, 1 < s_gamma cfg -> valid s -> valid r ->
  describes (s_gamma cfg) s U -> describes (s_gamma cfg) r Uref -> determined pressure_sources U -> determined kinetic_energy_sources Uref ->
  s_law cfg = Inviscid -> length direction = s_dim cfg -> (forall w n, In (w, n) q -> length n = s_dim cfg) -> closed (s_dim cfg) q ->
  exists c, (forall w n, In (w, n) q -> force_coefficient cfg U dU Uref direction n = Ok (c n)) /\ over q c = 0.
Proof.
  intros cfg s r U dU Uref direction q G V Vr D Dr H1 H2 La Ld Lq C.
  exists (fun n => component (s_dim cfg) (traction (s_dim cfg) (st_p s) no_stress n) direction / dynamic_pressure r). split.
  - intros w n I. apply (c67_force cfg s r U dU Uref direction n G V Vr D Dr H1 H2 (Lq w n I) Ld). exact La.
  - unfold Rdiv. rewrite (over_ext q _ (fun n => / dynamic_pressure r * component (s_dim cfg) (traction (s_dim cfg) (0 + st_p s) no_stress n) direction)) by (intros; rewrite Rplus_0_l; ring).
    rewrite over_scale. rewrite (over_level (s_dim cfg) q direction (fun _ => 0) (fun _ => no_stress) (st_p s) C).
    rewrite (over_ext q _ (fun n => 0 * 0)).
    + rewrite (over_scale q 0 (fun _ => 0)). ring.
    + intros w n I. unfold component. rewrite (total_ext _ (fun _ => 0)).
      * rewrite total_zero. unfold Rdiv. ring.
      * intros k K. unfold traction, no_stress. rewrite (total_ext _ (fun _ => 0)) by (intros; ring). rewrite total_zero. ring.
Qed.
Print Assumptions c67_uniform.

(** The force that the flow exerts on a body is minus the traction with the normal out of the flow, which is the normal of
    the mesh on a boundary (NGSolve): the coefficients have the sign of the force on the flow, so that a high pressure on the
    windward side of a body counts as negative drag. *)
Theorem c67_sign_refuted : forall cfg s r U dU Uref wind, 1 < s_gamma cfg -> valid s -> valid r ->
  describes (s_gamma cfg) s U -> describes (s_gamma cfg) r Uref -> determined pressure_sources U -> determined kinetic_energy_sources Uref ->
  s_law cfg = Inviscid -> length wind = s_dim cfg -> inner wind wind = 1 -> 0 < dynamic_pressure r ->
  (* the normal out of the flow into the windward side of a body is the direction of the wind *)
  exists c, force_coefficient cfg U dU Uref wind wind = Ok c /\ c = - st_p s / dynamic_pressure r /\ c < 0.
Proof.
  intros cfg s r U dU Uref wind G V Vr D Dr H1 H2 La Lw Nw Q.
  exists (- st_p s / dynamic_pressure r). destruct V as [V1 V2]. split; [|split; [reflexivity|]].
  - rewrite (proj1 (c67_force cfg s r U dU Uref wind wind G (conj V1 V2) Vr D Dr H1 H2 Lw Lw) La). f_equal. f_equal. unfold component.
    rewrite <- Lw at 2. rewrite <- inner_squares, Nw, sqrt_1.
    rewrite (total_ext _ (fun i => - st_p s * nth i wind 0 ^ 2)).
    + rewrite total_scale. rewrite <- Lw. rewrite <- inner_squares, Nw. field.
    + intros k K. unfold traction, no_stress. rewrite (total_ext _ (fun _ => 0)) by (intros; ring). rewrite total_zero. ring.
  - unfold Rdiv. rewrite Ropp_mult_distr_l_reverse. apply Ropp_lt_gt_0_contravar. apply Rdiv_lt_0_compat; assumption.
Qed.
Print Assumptions c67_sign_refuted.

(** ** Local numbers *)

(** Speed of a state. *)
Lemma speed_ok u : sqrt (inner u u) = sqrt (total (length u) (fun i => nth i u 0 ^ 2)).
Proof. rewrite inner_squares. reflexivity. Qed.

Lemma velocity_value cfg s U : 1 < s_gamma cfg -> valid s -> describes (s_gamma cfg) s U -> determined velocity_sources U -> velocity false U = Ok (st_u s).
Proof.
  intros G V D H. pose proof (c41_determined cfg false U) as (_ & _ & _ & _ & _ & _ & _ & _ & _ & _ & _ & A & _). destruct (answer_value _ _ _ A H) as [v E].
  rewrite E. f_equal. exact (velocity_ok cfg s U G V D false v ltac:(discriminate) E).
Qed.

(** The local Mach number is the speed of the flow over the speed of sound, the local Reynolds number is density times
    speed over viscosity, whichever fields the flow is given by. *)
Theorem c67_local : forall cfg s U, 1 < s_gamma cfg -> valid s -> describes (s_gamma cfg) s U -> determined velocity_sources U ->
  let speed := sqrt (total (length (st_u s)) (fun i => nth i (st_u s) 0 ^ 2)) in
  (determined speed_of_sound_sources U -> f_Ei U = None \/ f_c U <> None \/ f_T U <> None \/ (f_rho U <> None /\ f_p U <> None) ->
     get_local_mach_number cfg false U = Ok (speed / sqrt (s_gamma cfg * st_p s / st_rho s))) /\
  (forall mu, determined density_sources U -> viscosity cfg U = Ok mu ->
     get_local_reynolds_number cfg false U = Ok (st_rho s * speed / mu)).
Proof.
  intros cfg s U G V D H speed. unfold get_local_mach_number, get_local_reynolds_number. rewrite (velocity_value cfg s U G V D H).
  unfold speed. rewrite <- speed_ok. pose proof (c41_determined cfg false U) as (A & _ & _ & _ & _ & _ & _ & _ & _ & _ & B & _ & _). split.
  - intros Hs F. destruct (answer_value _ _ _ B Hs) as [c E]. rewrite E. cbn [bind]. rewrite (c41_speed_of_sound cfg s U c G V D F E). reflexivity.
  - intros mu Hd E. destruct (answer_value _ _ _ A Hd) as [rho Er]. rewrite Er, E. cbn [bind]. rewrite (density_ok cfg s U G V D rho Er). reflexivity.
Qed.
Print Assumptions c67_local.

(** The local Reynolds number of the far field is the speed of the far field in the scaling in use (1, Ma or Ma/(1+Ma)),
    whatever the Reynolds number of the configuration. *)
Theorem c67_reynolds_refuted : forall cfg direction V, 1 < s_gamma cfg -> 0 < s_mach cfg -> length direction = s_dim cfg -> inner direction direction <> 0 ->
  get_farfield_state cfg direction = Ok V -> s_law cfg <> Inviscid -> (forall meas, s_law cfg = Sutherland meas -> 0 <= meas) -> 0 < s_ref_T cfg ->
  s_reynolds cfg <> 0 ->
  get_local_reynolds_number cfg false V = Ok (farfield_speed (s_scaling cfg) (s_mach cfg)) /\
  (1 < s_reynolds cfg -> s_scaling cfg <> Acoustic -> forall re, get_local_reynolds_number cfg false V = Ok re -> re < s_reynolds cfg).
Proof.
  intros cfg direction V G M L N E La Su Rf R0.
  destruct (c48_similarity cfg direction V G M L N E) as (_ & H). destruct (H La Su Rf) as (re & ref & Ere & Eref & P).
  assert (S : 0 < farfield_speed (s_scaling cfg) (s_mach cfg)) by (destruct (s_scaling cfg); cbn; try lra; apply Rdiv_lt_0_compat; lra).
  assert (X : ref = s_reynolds cfg / farfield_speed (s_scaling cfg) (s_mach cfg)).
  { unfold reference_reynolds_number, reynolds_number in Eref. destruct (s_law cfg); [contradiction|..]; cbn in Eref; apply ok_inj in Eref; rewrite <- Eref; reflexivity. }
  assert (Y : re = farfield_speed (s_scaling cfg) (s_mach cfg)).
  { subst ref. apply Rmult_eq_reg_l with (s_reynolds cfg / farfield_speed (s_scaling cfg) (s_mach cfg)).
    - rewrite P. field. lra.
    - unfold Rdiv. apply Rmult_integral_contrapositive_currified; [exact R0|apply Rinv_neq_0_compat; lra]. }
  rewrite Ere, Y. split; [reflexivity|]. intros R1 Sc re' Q. apply ok_inj in Q. subst re'.
  destruct (s_scaling cfg); cbn; [exact R1|contradiction|]. apply Rlt_trans with 1; [|exact R1]. apply Rmult_lt_reg_r with (1 + s_mach cfg); [lra|]. field_simplify; lra.
Qed.
Print Assumptions c67_reynolds_refuted.

(** ** What raises *)
Theorem c67_raises : forall cfg U dU Uref direction n,
  (~ determined pressure_sources U -> pressure_coefficient cfg U Uref = Err ValueError /\ stress_tensor cfg U dU = Err ValueError /\
     force_coefficient cfg U dU Uref direction n = Err ValueError) /\
  (determined pressure_sources U -> ~ determined kinetic_energy_sources Uref ->
     pressure_coefficient cfg U Uref = Err ValueError /\ (s_law cfg = Inviscid -> force_coefficient cfg U dU Uref direction n = Err ValueError)) /\
  (~ determined velocity_sources U -> get_local_mach_number cfg false U = Err ValueError).
Proof.
  intros cfg U dU Uref direction n.
  pose proof (c41_determined cfg false U) as (_ & A & _ & _ & _ & _ & _ & _ & _ & _ & _ & B & _).
  pose proof (c41_determined cfg false Uref) as (_ & A' & _ & _ & _ & K & _).
  split; [|split].
  - intros N. assert (E : pressure cfg U = Err ValueError) by (destruct A as [[D _]|[_ E]]; [contradiction|exact E]).
    unfold pressure_coefficient, force_coefficient, stress_tensor. rewrite E. repeat split.
  - intros D N. destruct (answer_value _ _ _ A D) as [p E]. assert (Ek : kinetic_energy Uref = Err ValueError) by (destruct K as [[D' _]|[_ Ek]]; [contradiction|exact Ek]).
    unfold pressure_coefficient, force_coefficient, stress_tensor. rewrite E, Ek. cbn [bind]. split.
    + destruct A' as [[_ [v ->]]|[_ ->]]; reflexivity.
    + intros ->. reflexivity.
  - intros N. assert (E : velocity false U = Err ValueError) by (destruct B as [[D _]|[_ E]]; [contradiction|exact E]).
    unfold get_local_mach_number. rewrite E. reflexivity.
Qed.
Print Assumptions c67_raises.

(** ** Example: pressure 3 on a square in a stream of density 1, speed 2 and pressure 1. *)
Example c67_example :
  let cfg := mk_settings (7 / 5) (1 / 2) 150 (72 / 100) Acoustic Inviscid LaxFriedrich 293 2 in
  let U := mk_flow (Some 1) (Some [0; 0]) None (Some 3) None None None None None None None None None None in
  let Uref := mk_flow (Some 1) (Some [2; 0]) None (Some 1) None None None None None None None None None None in
  pressure_coefficient cfg U Uref = Ok 1 /\
  force_coefficient cfg U (mk_grads None None None None None None None None None None None None None) Uref [4; 0] [1; 0] = Ok (- (3 / 2)) /\
  force_coefficient cfg U (mk_grads None None None None None None None None None None None None None) Uref [4; 0] [-1; 0] = Ok (3 / 2) /\
  closed 2 [(1, [1; 0]); (1, [0; 1]); (1, [-1; 0]); (1, [0; -1])] /\
  get_local_mach_number cfg false Uref = Ok (2 / sqrt (7 / 5)).
Proof.
  assert (Q : sqrt (4 * 4 + (0 * 0 + 0)) = 4) by (replace (4 * 4 + (0 * 0 + 0)) with (4 * 4) by ring; apply sqrt_square; lra).
  assert (Q2 : sqrt (2 * 2 + (0 * 0 + 0)) = 2) by (replace (2 * 2 + (0 * 0 + 0)) with (2 * 2) by ring; apply sqrt_square; lra).
  intros cfg U Uref. repeat match goal with |- _ /\ _ => split end.
  - unfold pressure_coefficient. cbn. f_equal. field.
  - unfold force_coefficient. cbn. unfold unit_vector. cbn. rewrite Q. f_equal. field.
  - unfold force_coefficient. cbn. unfold unit_vector. cbn. rewrite Q. f_equal. field.
  - intros i I. destruct i as [|[|i]]; cbn; [ring|ring|lia].
  - unfold get_local_mach_number. cbn. rewrite Q2. f_equal. f_equal. f_equal. field.
Qed.
