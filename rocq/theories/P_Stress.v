(** C51: viscous stress, heat flux and diffusive flux. *)
From Coq Require Import Reals List Arith Lia Lra Bool.
From Coquelicot Require Import Coquelicot.
From Verif Require Import Base M_Bla M_Flow S_Flow S_Chars S_Stress M_Formulation S_Formulation L_Flow P_Eos P_Jacobian L_Formulation P_Scaling P_Cbc.
Import ListNotations.
Open Scope R_scope.

Lemma fold_left_sum l a : fold_left Rplus l a = a + rsum l.
Proof. revert a. induction l as [|x l IH]; intros a; cbn [fold_left rsum fold_right]; [ring|]. rewrite IH. unfold rsum. cbn [fold_right]. ring. Qed.

Lemma trace_ok d m : shape d m -> trace m = Ok (divergence d m).
Proof.
  intros (A & B & _). unfold trace. rewrite A, B, Nat.eqb_refl. f_equal. rewrite fold_left_sum, Rplus_0_l. unfold divergence. apply rsum_total.
Qed.

Lemma madd_entry d a b i j : shape d a -> shape d b -> entry (madd a b) i j = entry a i j + entry b i j.
Proof.
  intros (A1 & A2 & A3) (B1 & B2 & B3). unfold entry, madd. cbn [cols entries]. rewrite vadd_nth by (rewrite A3, B3; reflexivity). rewrite A2, B2. reflexivity.
Qed.

Lemma msub_entry d a b i j : shape d a -> shape d b -> entry (msub a b) i j = entry a i j - entry b i j.
Proof.
  intros (A1 & A2 & A3) (B1 & B2 & B3). unfold entry, msub. cbn [cols entries]. rewrite vsub_nth by (rewrite A3, B3; reflexivity). rewrite A2, B2. reflexivity.
Qed.

Lemma madd_shape d a b : shape d a -> shape d b -> shape d (madd a b).
Proof. intros (A1 & A2 & A3) (B1 & B2 & B3). repeat split; try assumption. unfold madd. cbn [entries]. rewrite vadd_length, A3, B3. apply Nat.min_id. Qed.

Lemma msub_shape d a b : shape d a -> shape d b -> shape d (msub a b).
Proof. intros (A1 & A2 & A3) (B1 & B2 & B3). repeat split; try assumption. unfold msub. cbn [entries]. rewrite vsub_length, A3, B3. apply Nat.min_id. Qed.

Lemma mtrans_shape d a : shape d a -> shape d (mtrans a).
Proof. intros (A1 & A2 & A3). unfold mtrans. repeat split; [exact A2|exact A1|]. rewrite tabulate_length, A1, A2. reflexivity. Qed.

Lemma mtrans_entry d a i j : shape d a -> (i < d)%nat -> (j < d)%nat -> entry (mtrans a) i j = entry a j i.
Proof. intros (A1 & A2 & A3) I J. unfold mtrans. rewrite entry_tabulate by lia. reflexivity. Qed.

(** The strain rate that is computed from a velocity gradient. *)
Lemma strain_ok cfg dU du : g_eps dU = None -> g_u dU = Some du -> shape (s_dim cfg) du ->
  exists eps, strain_rate_tensor cfg dU = Ok eps /\ shape (s_dim cfg) eps /\
    forall i j, (i < s_dim cfg)%nat -> (j < s_dim cfg)%nat -> entry eps i j = (entry du i j + entry du j i) / 2 - divergence (s_dim cfg) du / 3 * delta i j.
Proof.
  intros N E Sh. unfold strain_rate_tensor. rewrite N, E, (trace_ok _ _ Sh). cbn [bind equation]. eexists. split; [reflexivity|].
  assert (T : shape (s_dim cfg) (mtrans du)) by (apply mtrans_shape; exact Sh).
  assert (A : shape (s_dim cfg) (scale (1 / 2) (madd du (mtrans du)))) by (apply scale_shape, madd_shape; assumption).
  assert (B : shape (s_dim cfg) (scale (1 / 3 * divergence (s_dim cfg) du) (idm (s_dim cfg)))) by (apply scale_shape, idm_shape).
  split; [apply msub_shape; assumption|].
  intros i j I J. rewrite (msub_entry _ _ _ i j A B), !scale_entry, (madd_entry _ _ _ i j Sh T), (mtrans_entry _ _ i j Sh I J), idm_entry by assumption. field.
Qed.

(** The strain rate is symmetric; its trace is the divergence of the velocity times one minus a third of the dimension,
    so it is trace free in three dimensions. *)
Theorem c51_strain : forall cfg dU du, g_eps dU = None -> g_u dU = Some du -> shape (s_dim cfg) du ->
  exists eps, strain_rate_tensor cfg dU = Ok eps /\ shape (s_dim cfg) eps /\ symmetric (s_dim cfg) eps /\
    total (s_dim cfg) (fun i => entry eps i i) = (1 - INR (s_dim cfg) / 3) * divergence (s_dim cfg) du /\
    (rigid (s_dim cfg) du -> zero_matrix (s_dim cfg) eps).
Proof.
  intros cfg dU du N E Sh. destruct (strain_ok cfg dU du N E Sh) as (eps & Ee & Se & H). exists eps. split; [exact Ee|]. split; [exact Se|].
  assert (Dl : forall i j, delta i j = delta j i) by (intros i j; unfold delta; rewrite Nat.eqb_sym; reflexivity).
  split; [|split].
  - intros i j I J. rewrite !H by assumption. rewrite (Dl j i). field.
  - rewrite (total_ext _ (fun i => entry du i i + (- (divergence (s_dim cfg) du / 3)) * 1)).
    + rewrite total_plus, total_scale. fold (divergence (s_dim cfg) du).
      assert (O : forall n, total n (fun _ => 1) = INR n) by (induction n as [|n IH]; [reflexivity|]; rewrite S_INR; cbn [total]; rewrite IH; ring). rewrite O. field.
    + intros k K. rewrite H by assumption. unfold delta. rewrite Nat.eqb_refl. field.
  - intros Rg i j I J. rewrite H by assumption. rewrite (Rg i j I J).
    assert (Z : divergence (s_dim cfg) du = 0).
    { unfold divergence. rewrite (total_ext _ (fun _ => 0)); [apply total_zero|]. intros k K. specialize (Rg k k K K). lra. }
    rewrite Z. field.
Qed.
Print Assumptions c51_strain.

(** In two dimensions the strain rate is not trace free unless the flow is incompressible. *)
Theorem c51_trace_refuted : forall cfg dU du eps, s_dim cfg = 2%nat -> g_eps dU = None -> g_u dU = Some du -> shape 2 du -> strain_rate_tensor cfg dU = Ok eps ->
  divergence 2 du <> 0 -> total 2 (fun i => entry eps i i) <> 0.
Proof.
  intros cfg dU du eps D N E Sh Ee Dv. rewrite <- D in Sh. destruct (c51_strain cfg dU du N E Sh) as (eps' & E' & _ & _ & T & _). rewrite Ee in E'. apply ok_inj in E'. subst eps'.
  rewrite D in T. rewrite T. cbn [INR]. lra.
Qed.
Print Assumptions c51_trace_refuted.

(** ** Dissipation *)

Lemma dissipation d du eps : (d <= 3)%nat ->
  (forall i j, (i < d)%nat -> (j < d)%nat -> entry eps i j = (entry du i j + entry du j i) / 2 - divergence d du / 3 * delta i j) ->
  0 <= power d eps du.
Proof.
  intros D H. unfold power.
  rewrite (total_ext _ (fun i => total d (fun j => ((entry du i j + entry du j i) / 2 - divergence d du / 3 * delta i j) * entry du i j))).
  2: { intros i I. apply total_ext. intros j J. rewrite H by assumption. reflexivity. }
  set (a := entry du). unfold divergence, delta. destruct d as [|[|[|[|d]]]]; [| | | |lia]; cbn [total Nat.eqb]; fold a.
  - lra.
  - set (x := a 0%nat 0%nat). pose proof (pow2_ge_0 x). nra.
  - set (x := a 0%nat 0%nat). set (y := a 1%nat 1%nat). set (p := a 0%nat 1%nat). set (q := a 1%nat 0%nat).
    match goal with |- 0 <= ?t => replace t with ((p + q) ^ 2 / 2 + ((x - y) ^ 2 + x ^ 2 + y ^ 2) / 3) by field end.
    pose proof (pow2_ge_0 (p + q)). pose proof (pow2_ge_0 (x - y)). pose proof (pow2_ge_0 x). pose proof (pow2_ge_0 y). lra.
  - set (x := a 0%nat 0%nat). set (y := a 1%nat 1%nat). set (z := a 2%nat 2%nat). set (p := a 0%nat 1%nat). set (q := a 1%nat 0%nat).
    set (r := a 0%nat 2%nat). set (s := a 2%nat 0%nat). set (t := a 1%nat 2%nat). set (u := a 2%nat 1%nat).
    match goal with |- 0 <= ?t0 => replace t0 with ((p + q) ^ 2 / 2 + (r + s) ^ 2 / 2 + (t + u) ^ 2 / 2 + ((x - y) ^ 2 + (y - z) ^ 2 + (x - z) ^ 2) / 3) by field end.
    pose proof (pow2_ge_0 (p + q)). pose proof (pow2_ge_0 (r + s)). pose proof (pow2_ge_0 (t + u)). pose proof (pow2_ge_0 (x - y)). pose proof (pow2_ge_0 (y - z)). pose proof (pow2_ge_0 (x - z)). lra.
Qed.

(** The stress is symmetric, vanishes in rigid motion, and its power in the deformation is never negative (second law). *)
Theorem c51_stress : forall cfg U dU du mu re, g_eps dU = None -> g_u dU = Some du -> shape (s_dim cfg) du ->
  viscosity cfg U = Ok mu -> reference_reynolds_number cfg = Ok re ->
  exists eps tau, strain_rate_tensor cfg dU = Ok eps /\ deviatoric_stress_tensor cfg U dU = Ok tau /\ shape (s_dim cfg) tau /\
    (forall i j, entry tau i j = 2 * mu / re * entry eps i j) /\ symmetric (s_dim cfg) tau /\
    (rigid (s_dim cfg) du -> zero_matrix (s_dim cfg) tau) /\
    (0 < mu -> 0 < re -> (s_dim cfg <= 3)%nat -> 0 <= power (s_dim cfg) tau du).
Proof.
  intros cfg U dU du mu re N E Sh Em Er. destruct (c51_strain cfg dU du N E Sh) as (eps & Ee & Se & Sy & _ & Rg).
  destruct (strain_ok cfg dU du N E Sh) as (eps' & Ee' & _ & H). rewrite Ee in Ee'. apply ok_inj in Ee'. subst eps'.
  exists eps. eexists. split; [exact Ee|]. unfold deviatoric_stress_tensor. rewrite Em, Er, Ee. cbn [bind equation]. split; [reflexivity|].
  split; [apply scale_shape; exact Se|]. split; [intros i j; apply scale_entry|]. split; [|split].
  - intros i j I J. rewrite !scale_entry, (Sy i j I J). reflexivity.
  - intros Hr i j I J. rewrite scale_entry, (Rg Hr i j I J). ring.
  - intros M0 R0 D. pose proof (dissipation (s_dim cfg) du eps D H) as P.
    assert (Q : power (s_dim cfg) (scale (2 * mu / re) eps) du = 2 * mu / re * power (s_dim cfg) eps du).
    { unfold power. rewrite <- total_scale. apply total_ext. intros i I. rewrite <- total_scale. apply total_ext. intros j J. rewrite scale_entry. ring. }
    rewrite Q. apply Rmult_le_pos; [|exact P]. apply Rdiv_le_0_compat; lra.
Qed.
Print Assumptions c51_stress.

(** The heat flux is opposite to the temperature gradient, so heat never flows from cold to hot. *)
Theorem c51_heat_flux : forall cfg U dU dT mu re pr, g_T dU = Some dT -> viscosity cfg U = Ok mu -> reference_reynolds_number cfg = Ok re -> prandtl_number cfg = Ok pr ->
  exists q, heat_flux cfg U dU = Ok q /\ length q = length dT /\ (forall i, nth i q 0 = - (mu / (re * pr)) * nth i dT 0) /\
    (0 < mu -> 0 < re -> 0 < pr -> inner q dT <= 0).
Proof.
  intros cfg U dU dT mu re pr E Em Er Ep. unfold heat_flux. rewrite Em, Er, Ep, E. cbn [bind equation]. eexists. split; [reflexivity|].
  split; [apply vscale_length|]. split; [intros i; rewrite vscale_nth; unfold Rdiv; ring|].
  intros M0 R0 P0. rewrite inner_vscale. assert (0 <= mu / (re * pr)) by (apply Rdiv_le_0_compat; [lra|apply Rmult_lt_0_compat; assumption]).
  pose proof (inner_nonneg dT). replace (- mu / (re * pr)) with (- (mu / (re * pr))) by (unfold Rdiv; ring). nra.
Qed.
Print Assumptions c51_heat_flux.

(** The strain rate is known if it is an unknown of its own or if the velocity gradient is given. *)
Theorem c51_known : forall cfg dU du dT, g_T dU = Some dT -> length dT = s_dim cfg ->
  (g_eps dU = None -> g_u dU = Some du -> shape (s_dim cfg) du -> exists eps, viscous_gradients cfg eps dT dU) /\
  (forall eps, g_eps dU = Some eps -> shape (s_dim cfg) eps -> viscous_gradients cfg eps dT dU).
Proof.
  intros cfg dU du dT ET LT. split.
  - intros N E Sh. destruct (c51_strain cfg dU du N E Sh) as (eps & Ee & Se & _). exists eps. split; [exact Ee|]. split; [exact Se|]. split; assumption.
  - intros eps E Se. split; [unfold strain_rate_tensor; rewrite E; reflexivity|]. split; [exact Se|]. split; assumption.
Qed.
Print Assumptions c51_known.

(** The diffusive flux carries no mass, the stress, and the power of the stress and the heat. *)
Theorem c51_flux : forall cfg s U dU eps dT mu re pr, 1 < s_gamma cfg -> valid s -> describes (s_gamma cfg) s U -> determined velocity_sources U ->
  length (st_u s) = s_dim cfg -> viscous_gradients cfg eps dT dU ->
  viscosity cfg U = Ok mu -> reference_reynolds_number cfg = Ok re -> prandtl_number cfg = Ok pr ->
  exists G, get_diffusive_flux cfg false U dU = Ok G /\
    rows G = (s_dim cfg + 2)%nat /\ cols G = s_dim cfg /\ length (entries G) = ((s_dim cfg + 2) * s_dim cfg)%nat /\
    let tau i j := 2 * mu / re * entry eps i j in
    forall j, (j < s_dim cfg)%nat ->
      entry G 0 j = 0 /\ (forall i, (i < s_dim cfg)%nat -> entry G (S i) j = tau i j) /\
      entry G (s_dim cfg + 1) j = total (s_dim cfg) (fun k => tau j k * nth k (st_u s) 0) + mu / (re * pr) * nth j dT 0.
Proof.
  intros cfg s U dU eps dT mu re pr G Va D Dt Lu (Ee & Se & ET & LT) Em Er Ep.
  assert (Et : deviatoric_stress_tensor cfg U dU = Ok (scale (2 * mu / re) eps)) by (unfold deviatoric_stress_tensor; rewrite Em, Er, Ee; reflexivity).
  assert (St : shape (s_dim cfg) (scale (2 * mu / re) eps)) by (apply scale_shape; exact Se). set (tau := scale (2 * mu / re) eps) in *.
  destruct (c51_heat_flux cfg U dU dT mu re pr ET Em Er Ep) as (q & Eq & Lq & Hq & _).
  destruct (c41_determined cfg false U) as (_ & _ & _ & _ & _ & _ & _ & _ & _ & _ & _ & Av & _).
  destruct Av as [(_ & u & Eu)|(Nd & _)]; [|contradiction].
  assert (Hu : u = st_u s) by (apply (velocity_ok cfg s U) with (zeros := false); try assumption; discriminate). subst u.
  unfold get_diffusive_flux. rewrite Eu, Et, Eq. cbn [bind]. exists (mk_matrix (length (st_u s) + 2) (length (st_u s)) (repeat 0 (length (st_u s)) ++ entries tau ++ vsub (mvmul tau (st_u s)) q)).
  split; [reflexivity|]. cbn [rows cols]. rewrite Lu. split; [reflexivity|]. split; [reflexivity|].
  destruct St as (S1 & S2 & S3).
  assert (L3 : length (vsub (mvmul tau (st_u s)) q) = s_dim cfg) by (rewrite vsub_length, mvmul_length, S1, Lq, LT; apply Nat.min_id).
  split; [cbn [entries]; rewrite !app_length, repeat_length, S3, L3; lia|].
  cbv zeta. intros j J. set (t := fun i j : nat => 2 * mu / re * entry eps i j). repeat match goal with |- _ /\ _ => split end.
  - rewrite (stacked_entry (s_dim cfg) (s_dim cfg)); try assumption; try lia; [|apply repeat_length]. change (0 =? 0)%nat with true. cbv iota. apply nth_repeat.
  - intros i I. rewrite (stacked_entry (s_dim cfg) (s_dim cfg)); try assumption; try lia; [|apply repeat_length].
    change (S i =? 0)%nat with false. cbv iota. destruct (S i <=? s_dim cfg)%nat eqn:Le; [|apply Nat.leb_gt in Le; lia]. replace (S i - 1)%nat with i by lia.
    rewrite <- scale_entry. fold tau. unfold entry. cbn [cols entries]. rewrite S2. reflexivity.
  - rewrite (stacked_entry (s_dim cfg) (s_dim cfg)); try assumption; try lia; [|apply repeat_length].
    destruct (s_dim cfg + 1 =? 0)%nat eqn:Z; [apply Nat.eqb_eq in Z; lia|]. destruct (s_dim cfg + 1 <=? s_dim cfg)%nat eqn:Le; [apply Nat.leb_le in Le; lia|].
    rewrite vsub_nth by (rewrite mvmul_length, S1, Lq, LT; reflexivity). rewrite mvmul_total by lia. rewrite S2, Hq.
    rewrite (total_ext _ (fun k => t j k * nth k (st_u s) 0)); [unfold t; unfold Rminus; f_equal; ring|]. intros k _. unfold t, tau. rewrite scale_entry. reflexivity.
Qed.
Print Assumptions c51_flux.

(** Without gradients there is no diffusive flux. *)
Theorem c51_uniform : forall cfg s U dU eps dT mu re pr G, 1 < s_gamma cfg -> valid s -> describes (s_gamma cfg) s U -> determined velocity_sources U ->
  length (st_u s) = s_dim cfg -> viscous_gradients cfg eps dT dU -> zero_matrix (s_dim cfg) eps -> (forall j, nth j dT 0 = 0) ->
  viscosity cfg U = Ok mu -> reference_reynolds_number cfg = Ok re -> prandtl_number cfg = Ok pr ->
  get_diffusive_flux cfg false U dU = Ok G -> forall i j, (i < s_dim cfg + 2)%nat -> (j < s_dim cfg)%nat -> entry G i j = 0.
Proof.
  intros cfg s U dU eps dT mu re pr G Ga Va D Dt Lu V Z ZT Em Er Ep EG i j I J.
  destruct (c51_flux cfg s U dU eps dT mu re pr Ga Va D Dt Lu V Em Er Ep) as (G' & EG' & _ & _ & _ & H). rewrite EG in EG'. apply ok_inj in EG'. subst G'.
  destruct (H j J) as (H0 & H1 & H2). destruct i as [|i]; [exact H0|]. destruct (Nat.lt_ge_cases i (s_dim cfg)) as [L|L]; [rewrite (H1 i L), Z by assumption; ring|].
  replace (S i) with (s_dim cfg + 1)%nat by lia. rewrite H2, ZT. rewrite (total_ext _ (fun _ => 0)); [rewrite total_zero; ring|].
  intros k K. rewrite (Z j k J K). ring.
Qed.
Print Assumptions c51_uniform.

(** What is needed: a law of viscosity, the strain rate or the velocity gradient, the temperature gradient. *)
Theorem c51_raises : forall cfg U dU,
  (s_law cfg = Inviscid -> deviatoric_stress_tensor cfg U dU = Err TypeError /\ heat_flux cfg U dU = Err TypeError) /\
  (forall mu re, viscosity cfg U = Ok mu -> reference_reynolds_number cfg = Ok re -> g_eps dU = None -> g_u dU = None -> deviatoric_stress_tensor cfg U dU = Err ValueError) /\
  (forall mu re pr, viscosity cfg U = Ok mu -> reference_reynolds_number cfg = Ok re -> prandtl_number cfg = Ok pr -> g_T dU = None -> heat_flux cfg U dU = Err ValueError) /\
  (forall eps, g_eps dU = Some eps -> strain_rate_tensor cfg dU = Ok eps).
Proof.
  intros cfg U dU. repeat match goal with |- _ /\ _ => split end.
  - intros L. unfold deviatoric_stress_tensor, heat_flux, viscosity, law_viscosity. rewrite L. split; reflexivity.
  - intros mu re Em Er N1 N2. unfold deviatoric_stress_tensor, strain_rate_tensor. rewrite Em, Er, N1, N2. reflexivity.
  - intros mu re pr Em Er Ep N. unfold heat_flux. rewrite Em, Er, Ep, N. reflexivity.
  - intros eps E. unfold strain_rate_tensor. rewrite E. reflexivity.
Qed.
Print Assumptions c51_raises.

(** ** Numerical flux *)

Lemma stabilisation_entries cfg V mu re pr : viscosity cfg V = Ok mu -> reference_reynolds_number cfg = Ok re -> prandtl_number cfg = Ok pr ->
  exists tau, get_diffusive_stabilisation_matrix cfg V = Ok tau /\ rows tau = (s_dim cfg + 2)%nat /\ cols tau = (s_dim cfg + 2)%nat /\
    forall i j, (i < s_dim cfg + 2)%nat -> (j < s_dim cfg + 2)%nat ->
      entry tau i j = delta i j * (if (i =? 0)%nat then 0 else if (i <=? s_dim cfg)%nat then mu / re else mu / (re * pr)).
Proof.
  intros Em Er Ep. unfold get_diffusive_stabilisation_matrix. rewrite Er, Ep, Em. cbn [bind]. eexists. split; [reflexivity|].
  set (l := 0 :: repeat 1 (s_dim cfg) ++ [1 / pr]). assert (L : length l = (s_dim cfg + 2)%nat) by (unfold l; cbn [length]; rewrite app_length, repeat_length; cbn; lia).
  change (rows (mdiv (scale mu (diagonal l)) re)) with (length l). change (cols (mdiv (scale mu (diagonal l)) re)) with (length l). split; [exact L|]. split; [exact L|].
  intros i j I J. rewrite mdiv_entry, scale_entry, diagonal_entry by lia. unfold delta. destruct (i =? j)%nat; [|unfold Rdiv; ring].
  unfold l. destruct i as [|i]; cbn [nth Nat.eqb]; [unfold Rdiv; ring|]. destruct (Nat.leb_spec (S i) (s_dim cfg)) as [K|K].
  - rewrite app_nth1 by (rewrite repeat_length; lia). rewrite (nth_indep _ 0 1) by (rewrite repeat_length; lia). rewrite nth_repeat. unfold Rdiv. ring.
  - rewrite app_nth2 by (rewrite repeat_length; lia). rewrite repeat_length. replace (i - s_dim cfg)%nat with 0%nat by lia. cbn [nth]. unfold Rdiv. rewrite Rinv_mult. ring.
Qed.

(** The numerical diffusive flux through a facet carries no mass, and is the diffusive flux when both sides agree. *)
Theorem c51_numerical_flux : forall cfg s U dU eps dT n mu re pr, 1 < s_gamma cfg -> valid s -> length (st_u s) = s_dim cfg -> length U = (s_dim cfg + 2)%nat -> length n = s_dim cfg ->
  viscous_gradients cfg eps dT dU -> viscosity cfg (full_fields cfg s) = Ok mu -> reference_reynolds_number cfg = Ok re -> prandtl_number cfg = Ok pr ->
  let Uhat := conservative_list (s_gamma cfg) s in
  exists G f, get_diffusive_flux cfg false (full_fields cfg s) dU = Ok G /\ get_diffusive_numerical_flux cfg U Uhat dU n = Ok f /\ length f = (s_dim cfg + 2)%nat /\
    nth 0 f 0 = 0 /\ (U = Uhat -> f = mvmul G n).
Proof.
  intros cfg s U dU eps dT n mu re pr Ga Va Dim LU Ln V Em Er Ep Uhat.
  assert (Dt : determined velocity_sources (full_fields cfg s)) by (exists [Uu]; split; [left; reflexivity|]; intros f [<-|[]]; reflexivity).
  destruct (c51_flux cfg s (full_fields cfg s) dU eps dT mu re pr Ga Va (full_describes cfg s) Dt Dim V Em Er Ep) as (G & EG & RG & CG & _ & H).
  destruct (stabilisation_entries cfg (full_fields cfg s) mu re pr Em Er Ep) as (td & Ed & Rd & Cd & Hd).
  exists G. unfold get_diffusive_numerical_flux, Uhat. rewrite (fields_ok cfg s Ga Va Dim). cbn [bind]. rewrite Ed, EG. cbn [bind]. eexists. split; [reflexivity|]. split; [reflexivity|].
  assert (Ll : length (mvmul G n) = length (mvmul td (vsub U (conservative_list (s_gamma cfg) s)))) by (rewrite !mvmul_length, RG, Rd; reflexivity).
  split; [rewrite vsub_length, !mvmul_length, RG, Rd; apply Nat.min_id|]. split.
  - rewrite vsub_nth by exact Ll. rewrite !mvmul_total by lia. rewrite CG, Cd.
    rewrite (total_ext _ (fun _ => 0)); [|intros k K; destruct (H k K) as (H0 & _); rewrite H0; ring]. rewrite total_zero.
    rewrite (total_ext _ (fun _ => 0)); [rewrite total_zero; ring|]. intros k K. rewrite Hd by lia. cbn [Nat.eqb]. ring.
  - intros ->. rewrite vsub_self, mvmul_zero, Rd. apply (nth_ext _ _ 0 0).
    + rewrite vsub_length, mvmul_length, repeat_length, RG. apply Nat.min_id.
    + intros k _. rewrite vsub_nth by (rewrite mvmul_length, repeat_length, RG; reflexivity). rewrite nth_repeat. ring.
Qed.
Print Assumptions c51_numerical_flux.

(** The mixed method that approximates the gradients of the conservative unknowns provides neither the velocity gradient
    nor the temperature gradient: the diffusive flux can not be computed. *)
Theorem c51_gradient_method_refuted : forall cfg zeros U Q u mu re, velocity zeros U = Ok u -> viscosity cfg U = Ok mu -> reference_reynolds_number cfg = Ok re ->
  get_diffusive_flux cfg zeros U (gradient_fields cfg Q) = Err ValueError.
Proof.
  intros cfg zeros U Q u mu re Eu Em Er. unfold get_diffusive_flux. rewrite Eu. cbn [bind].
  rewrite (proj1 (proj2 (c51_raises cfg U (gradient_fields cfg Q))) mu re Em Er eq_refl eq_refl). reflexivity.
Qed.
Print Assumptions c51_gradient_method_refuted.

(** The strain and heat method provides both, in two and three dimensions: the unknowns are the upper triangle of the
    strain rate, row by row, and the temperature gradient. *)
Theorem c51_strain_heat_method : forall cfg Q, (s_dim cfg = 2 \/ s_dim cfg = 3)%nat -> length Q = (4 * s_dim cfg - 3)%nat ->
  exists dU eps dT, strain_heat_fields cfg Q = Ok dU /\ viscous_gradients cfg eps dT dU /\ symmetric (s_dim cfg) eps /\
    (forall i j, (i <= j)%nat -> (j < s_dim cfg)%nat -> entry eps i j = nth (i * (2 * s_dim cfg - i - 1) / 2 + j) Q 0) /\
    (forall i, (i < s_dim cfg)%nat -> nth i dT 0 = nth (3 * s_dim cfg - 3 + i) Q 0).
Proof.
  intros cfg Q D L. unfold strain_heat_fields. destruct D as [D|D]; rewrite D in L |- *; cbn in L.
  - destruct Q as [|a [|b [|c [|x [|y [|]]]]]]; try discriminate L. cbn. eexists; eexists; eexists. split; [reflexivity|]. split; [split; [reflexivity|]; rewrite D; repeat split|].
    split; [intros i j I J; destruct i as [|[|]], j as [|[|]]; try lia; unfold entry; cbn; ring|].
    split; [intros i j I J; destruct i as [|[|]], j as [|[|]]; try lia; unfold entry; cbn; ring|intros i I; destruct i as [|[|]]; try lia; reflexivity].
  - destruct Q as [|a [|b [|c [|d [|e [|f [|x [|y [|z [|]]]]]]]]]]; try discriminate L. cbn. eexists; eexists; eexists. split; [reflexivity|]. split; [split; [reflexivity|]; rewrite D; repeat split|].
    split; [intros i j I J; destruct i as [|[|[|]]], j as [|[|[|]]]; try lia; unfold entry; cbn; ring|].
    split; [intros i j I J; destruct i as [|[|[|]]], j as [|[|[|]]]; try lia; unfold entry; cbn; ring|intros i I; destruct i as [|[|[|]]]; try lia; reflexivity].
Qed.
Print Assumptions c51_strain_heat_method.

(** ** Example: a shear flow u = (y, 0) of air with constant viscosity and temperature growing in y. *)
Example c51_example :
  let cfg := mk_settings (7 / 5) 1 10 (1 / 2) Aerodynamic Constant LaxFriedrich 293 2 in
  let du := mk_matrix 2 2 [0; 1; 0; 0] in
  let dU := mk_grads None (Some du) None None (Some [0; 3]) None None None None None None None None in
  let U := mk_flow (Some 1) (Some [2; 0]) None (Some 1) (Some (7 / 2)) None None None None None None None None None in
  (exists eps, viscous_gradients cfg eps [0; 3] dU) /\ describes (7 / 5) (mk_state 1 [2; 0] 1) U /\
  (exists tau, deviatoric_stress_tensor cfg U dU = Ok tau /\ entry tau 0 1 = 1 / 10 /\ entry tau 0 0 = 0 /\ power 2 tau du = 1 / 10) /\
  heat_flux cfg U dU = Ok [- 1 / (10 / 1 * (1 / 2)) * 0; - 1 / (10 / 1 * (1 / 2)) * 3].
Proof.
  intros cfg du dU U. repeat match goal with |- _ /\ _ => split end.
  - apply (c51_known cfg dU du [0; 3]); repeat split.
  - unfold describes. repeat match goal with |- _ /\ _ => split end; intros y H; try discriminate H; cbn in H; injection H as <-; try reflexivity. unfold q_T. cbn. field.
  - eexists. split; [reflexivity|]. unfold power, entry. cbn. repeat split; field.
  - reflexivity.
Qed.
